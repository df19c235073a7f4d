(** Kinematic constraints (C37). *)
From Verif Require Import Base M_bins M_kin S_kin L_kin.
Open Scope R_scope.

(** C37, direct geometry: a bin is kept, with its value, exactly if some detector of the
    bank sees a momentum transfer inside the bin at the bin's energy transfer; every other
    bin is NaN.  For angle ranges whose upper end is at most 540 degrees above the
    multiple of 360 below the lower end. *)
Theorem C37_direct : forall hm ang kk e nx ny x y z cs es, 0 < hm -> 0 <= e ->
  360 * IZR kk <= Rmin (fst ang) (snd ang) < 360 * IZR kk + 360 -> Rmax (fst ang) (snd ang) <= 360 * IZR kk + 540 ->
  (exists t, in_bank ang t /\ cos t <> 0) ->
  get_bin_centres ny y = Ok cs -> get_bin_edges nx x = Ok es ->
  exists out, apply_kinematic_constraints hm (Some e) None ang nx ny x y z = Ok out /\
  forall i j, nth i es 0 <= nth (S i) es 0 ->
  (out i j = Some (z i j) /\ reachable hm e (e - nth j cs 0) ang (nth i es 0) (nth (S i) es 0)) \/
  (out i j = None /\ ~ reachable hm e (e - nth j cs 0) ang (nth i es 0) (nth (S i) es 0)).
Proof. exact kin_direct. Qed.
Print Assumptions C37_direct.

(** C37, indirect geometry. *)
Theorem C37_indirect : forall hm ang kk e nx ny x y z cs es, 0 < hm -> 0 <= e ->
  360 * IZR kk <= Rmin (fst ang) (snd ang) < 360 * IZR kk + 360 -> Rmax (fst ang) (snd ang) <= 360 * IZR kk + 540 ->
  (exists t, in_bank ang t /\ cos t <> 0) ->
  get_bin_centres ny y = Ok cs -> get_bin_edges nx x = Ok es ->
  exists out, apply_kinematic_constraints hm None (Some e) ang nx ny x y z = Ok out /\
  forall i j, nth i es 0 <= nth (S i) es 0 ->
  (out i j = Some (z i j) /\ reachable hm (nth j cs 0 + e) e ang (nth i es 0) (nth (S i) es 0)) \/
  (out i j = None /\ ~ reachable hm (nth j cs 0 + e) e ang (nth i es 0) (nth (S i) es 0)).
Proof. exact kin_indirect. Qed.
Print Assumptions C37_indirect.

(** The condition on the angles holds for all detector angles from -180 to 180 degrees. *)
Theorem C37_usual_angles : forall ang, -180 <= fst ang <= 180 -> -180 <= snd ang <= 180 ->
  exists kk, 360 * IZR kk <= Rmin (fst ang) (snd ang) < 360 * IZR kk + 360 /\ Rmax (fst ang) (snd ang) <= 360 * IZR kk + 540.
Proof. exact usual_bank. Qed.
Print Assumptions C37_usual_angles.

(** C37: the energies must be given one at a time. *)
Theorem C37_one_energy : forall hm e_i e_f ang nx ny x y z, (e_i = None <-> e_f = None) ->
  apply_kinematic_constraints hm e_i e_f ang nx ny x y z = Err NotExactlyOne.
Proof. exact kin_errors. Qed.
Print Assumptions C37_one_energy.

(** C37 is false of every wider angle range that starts in the second half turn and ends
    beyond 540 degrees: the backscattering point is missed and a bin that the bank sees is
    masked. *)
Theorem C37_wide_range_refuted : forall hm ang kk e hi z, 0 < hm -> 0 < e ->
  360 * IZR kk + 180 < Rmin (fst ang) (snd ang) < 360 * IZR kk + 360 -> 360 * IZR kk + 540 < Rmax (fst ang) (snd ang) < 360 * IZR kk + 900 ->
  2 * sqrt (e / hm) <= hi ->
  exists out, apply_kinematic_constraints hm (Some e) None ang 1 1 [2 * sqrt (e / hm); hi] [0] z = Ok out /\ out 0%nat 0%nat = None /\
  reachable hm e (e - 0) ang (2 * sqrt (e / hm)) hi.
Proof. exact missed_bin. Qed.
Print Assumptions C37_wide_range_refuted.

(** The default range (0, 180) meets the hypotheses; (-150, 200) meets those of the last theorem. *)
Example C37_nonvacuous : let ang := (0, 180) in
  360 * IZR 0 <= Rmin (fst ang) (snd ang) < 360 * IZR 0 + 360 /\ Rmax (fst ang) (snd ang) <= 360 * IZR 0 + 540 /\
  (exists t, in_bank ang t /\ cos t <> 0) /\ (exists cs, get_bin_centres 2 [0; 10; 20] = Ok cs) /\ get_bin_edges 2 [1; 2; 3] = Ok [1; 2; 3].
Proof.
  pose proof PI_RGT_0. cbn zeta. unfold in_bank. cbn [fst snd]. unfold Rmin, Rmax. destruct (Rle_dec 0 180) as [D|D]; [|exfalso; apply D; lra].
  split; [lra|]. split; [lra|]. split; [exists 0; split; [lra|rewrite cos_0; lra]|]. split; [eexists|]; reflexivity.
Qed.
Example C37_wide_nonvacuous : let ang := (-150, 200) in
  360 * IZR (-1) + 180 < Rmin (fst ang) (snd ang) < 360 * IZR (-1) + 360 /\ 360 * IZR (-1) + 540 < Rmax (fst ang) (snd ang) < 360 * IZR (-1) + 900.
Proof.
  cbn zeta. cbn [fst snd]. unfold Rmin, Rmax. destruct (Rle_dec (-150) 200) as [D|D]; [|exfalso; apply D; lra]. lra.
Qed.
