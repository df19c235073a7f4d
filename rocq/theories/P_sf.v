(** C23, C24, C25, C26, C27, C57: structure factors, Debye-Waller matrices, S(q,w). *)
From Verif Require Import Base Cpx Vec3 M_cell L_nac S_broad M_dos S_dos M_sf S_sf L_sf L_sqw L_sf2.
Open Scope R_scope.

(** C23.  Every value is the textbook one-phonon structure factor per atom, and is
    non-negative. *)
Theorem C23_formula : forall e cell M pos sl dw qpt, det3 cell <> 0 ->
  (forall q m, (q < nq (et e))%nat -> (m < nm (et e))%nat -> freq (et e) q m <> 0) ->
  match dw with Some d => dw_n d = n_atoms e | None => True end ->
  exists s, calculate_structure_factor e (mkX M pos (reciprocal_cell cell)) sl dw qpt = Ok s /\
    nq (sft s) = nq (et e) /\ nm (sft s) = nm (et e) /\
    (forall q m, freq (sft s) q m = freq (et e) q m) /\
    sf_temp s = match dw with Some d => Some (dw_t d) | None => None end /\
    forall q m, sf_val s q m = one_phonon cell sl M pos (n_atoms e) dw (evec e q m) (qpt q) (freq (et e) q m) /\ 0 <= sf_val s q m.
Proof. exact structure_factor_formula. Qed.
Print Assumptions C23_formula.

Theorem C23_nonnegative : forall e x sl dw qpt s, calculate_structure_factor e x sl dw qpt = Ok s -> forall q m, 0 <= sf_val s q m.
Proof. exact structure_factor_nonneg. Qed.
Print Assumptions C23_nonnegative.

(** C23.  Multiplying every eigenvector by its own unit complex number and moving all
    atoms rigidly change nothing; scaling the scattering lengths by k scales by k^2. *)
Theorem C23_phase_translation_scale : forall e M pos rc sl dw qpt s (u : nat -> nat -> C) (k : R) (t : V3),
  calculate_structure_factor e (mkX M pos rc) sl dw qpt = Ok s ->
  (forall q m, Cnorm2 (u q m) = 1) ->
  exists s', calculate_structure_factor (mkE (et e) (n_atoms e) (fun q m a l => Cmul (u q m) (evec e q m a l)))
      (mkX M (fun a => vadd (pos a) t) rc) (fun a => k * sl a) dw qpt = Ok s' /\
    forall q m, sf_val s' q m = k ^ 2 * sf_val s q m.
Proof. exact structure_factor_invariant. Qed.
Print Assumptions C23_phase_translation_scale.

(** C23.  Conjugate eigenvectors at -q give the same structure factors. *)
Theorem C23_time_reversal : forall e M pos rc sl dw qpt s,
  calculate_structure_factor e (mkX M pos rc) sl dw qpt = Ok s ->
  exists s', calculate_structure_factor (mkE (et e) (n_atoms e) (fun q m a l => Cconj (evec e q m a l)))
      (mkX M pos rc) sl dw (fun q => vscal (-1) (qpt q)) = Ok s' /\
    forall q m, sf_val s' q m = sf_val s q m.
Proof. exact structure_factor_reversal. Qed.
Print Assumptions C23_time_reversal.

Example C23_nonvacuous : det3 unit_cell3 <> 0 /\ (forall q m, freq (et wit_e) q m <> 0) /\ Cnorm2 (mkC 0 1) = 1 /\
  exists s, calculate_structure_factor wit_e wit_x (fun _ => 1) None wit_q = Ok s /\ sf_val s 1 0 = 8 * PI ^ 2.
Proof.
  split; [cbn; lra|]. split; [intros; cbn; lra|]. split; [unfold Cnorm2; cbn; ring|].
  eexists. split; [apply csf_ok; [apply no_zero; intros; cbn; lra|exact I]|]. cbn [sf_val]. rewrite wit_sf by lia. cbn. ring.
Qed.

(** C24 fails: the weights of the modes are not carried over, so the default powder
    average differs from the average with the weights of the modes. *)
Theorem C24_weights_dropped_refuted : exists e x sl qpt s kB k c bins y y',
  (forall q, (q < nq (et e))%nat -> 0 < wt (et e) q) /\ (forall q m, 0 < freq (et e) q m) /\
  calculate_structure_factor e x sl None qpt = Ok s /\ 0 < k /\ 0 < c /\ increasing bins /\
  calculate_1d_average kB k c bins s false None None = Ok y /\
  calculate_1d_average kB k c bins s false None (Some (wt (et e))) = Ok y' /\ nth 0 y 0 <> nth 0 y' 0.
Proof. exact weights_dropped. Qed.
Print Assumptions C24_weights_dropped_refuted.

(** C24.  With weights passed explicitly the average is the weighted one, bin by bin. *)
Theorem C24_explicit_weights_partial : forall kB k c bins s cb given w y, 0 < k -> increasing bins -> (2 <= length bins)%nat ->
  calculate_1d_average kB k c bins s cb given (Some w) = Ok y ->
  length y = (length bins - 1)%nat /\ forall i, (i < length bins - 1)%nat ->
  nth i y 0 * (nth (S i) bins 0 - nth i bins 0) * Sum (seq 0 (nq (sft s))) w =
  c * Sum (seq 0 (nq (sft s))) (fun q => w q * Sum (seq 0 (nm (sft s))) (mode_area kB k s (temp_of s cb given) q (nth i bins 0) (nth (S i) bins 0))).
Proof. exact average_uses_weights. Qed.
Print Assumptions C24_explicit_weights_partial.

(** C24.  For equal weights the default is right. *)
Theorem C24_equal_weights_partial : forall e x sl dw qpt s kB k c bins cb given w0, calculate_structure_factor e x sl dw qpt = Ok s ->
  w0 <> 0 -> (0 < nq (et e))%nat -> (forall q, wt (et e) q = w0) ->
  calculate_1d_average kB k c bins s cb given None = calculate_1d_average kB k c bins s cb given (Some (wt (et e))).
Proof. exact average_equal_weights. Qed.
Print Assumptions C24_equal_weights_partial.

(** C25.  Positive semi-definite and symmetric, for any chunk size, with or without
    symmetrisation, as long as no frequency is exactly zero. *)
Theorem C25_positive_semidefinite_partial : forall chunk e x kB T fmin ops, (0 < chunk)%nat -> 0 < kB -> 0 <= fmin ->
  (forall a, (a < n_atoms e)%nat -> 0 < mass x a) ->
  (forall q m, (q < nq (et e))%nat -> (m < nm (et e))%nat -> freq (et e) q m <> 0) ->
  (forall q, (q < nq (et e))%nat -> 0 <= wt (et e) q) -> 0 < total_weight (et e) -> ops <> Some [] ->
  exists d, calculate_debye_waller chunk e x kB T fmin ops = Ok d /\ dw_n d = n_atoms e /\ dw_t d = T /\
    forall a, (a < n_atoms e)%nat -> psd3 (dw_w d a) /\ symmetric3 (dw_w d a).
Proof. exact debye_waller_psd. Qed.
Print Assumptions C25_positive_semidefinite_partial.

Theorem C25_chunks_irrelevant : forall chunk chunk' e x kB T fmin ops, (0 < chunk)%nat -> (0 < chunk')%nat ->
  match calculate_debye_waller chunk e x kB T fmin ops, calculate_debye_waller chunk' e x kB T fmin ops with
  | Ok d, Ok d' => dw_n d = dw_n d' /\ dw_t d = dw_t d' /\ forall a i j, dw_w d a i j = dw_w d' a i j
  | Err r, Err r' => r = r'
  | _, _ => False
  end.
Proof. exact debye_waller_chunks. Qed.
Print Assumptions C25_chunks_irrelevant.

Theorem C25_formula : forall chunk e x kB T fmin d, (0 < chunk)%nat -> calculate_debye_waller chunk e x kB T fmin None = Ok d ->
  forall a i j, dw_w d a i j = dw_formula e (mass x) kB T fmin a i j.
Proof. exact debye_waller_formula. Qed.
Print Assumptions C25_formula.

(** C25.  Changing frequencies and eigenvectors of modes below frequency_min has no effect. *)
Theorem C25_cutoff : forall chunk e e' x kB T fmin ops d d', (0 < chunk)%nat ->
  nq (et e') = nq (et e) -> nm (et e') = nm (et e) -> n_atoms e' = n_atoms e -> (forall q, wt (et e') q = wt (et e) q) ->
  (forall q m, (freq (et e) q m < fmin /\ freq (et e') q m < fmin) \/
     (freq (et e') q m = freq (et e) q m /\ forall a l, evec e' q m a l = evec e q m a l)) ->
  calculate_debye_waller chunk e x kB T fmin ops = Ok d -> calculate_debye_waller chunk e' x kB T fmin ops = Ok d' ->
  forall a i j, dw_w d' a i j = dw_w d a i j.
Proof. exact debye_waller_cutoff. Qed.
Print Assumptions C25_cutoff.

(** C25 fails as to finiteness: a frequency of exactly zero, below frequency_min, still
    makes the matrices non-finite. *)
Theorem C25_zero_frequency_refuted : exists e x kB T fmin, 0 < kB /\ 0 < T /\ 0 < fmin /\ 0 < total_weight (et e) /\
  (exists q m, (q < nq (et e))%nat /\ (m < nm (et e))%nat /\ 0 < freq (et e) q m) /\
  forall chunk ops, calculate_debye_waller chunk e x kB T fmin ops = Err NonFinite.
Proof. exact zero_frequency_nan. Qed.
Print Assumptions C25_zero_frequency_refuted.

Example C25_nonvacuous : (forall a, (a < n_atoms wit_e)%nat -> 0 < mass wit_x a) /\
  (forall q m, (q < nq (et wit_e))%nat -> (m < nm (et wit_e))%nat -> freq (et wit_e) q m <> 0) /\
  (forall q, (q < nq (et wit_e))%nat -> 0 <= wt (et wit_e) q) /\ 0 < total_weight (et wit_e) /\
  dw_formula wit_e (mass wit_x) 1 0 (1/2) 0 0 0 = 1 / 4.
Proof.
  split; [intros; cbn; lra|]. split; [intros; cbn; lra|]. split; [intros; cbn [wit_e et wt]; apply pos_INR|].
  split; [unfold total_weight; cbn [wit_e et nq wt seq]; rewrite !Sum_cons, Sum_nil; cbn; lra|].
  unfold dw_formula, coth_factor. cbn [wit_e et nq nm wt seq freq evec mass wit_x].
  rewrite (Rltb_false 0 0) by lra. cbn [filter]. rewrite (Rleb_true (1/2) 1) by lra. rewrite !Sum_cons, !Sum_nil. cbn. field.
Qed.

(** C26.  Detailed balance: the areas at +w and -w of a mode alone in its two bins are
    S (1+n) and S n with n the Planck occupation, in ratio exp(-w/kT). *)
Theorem C26_detailed_balance : forall kB k c bins s given T p q m i j, 0 < k -> increasing bins -> (2 <= length bins)%nat -> 0 < kB -> 0 < T ->
  temp_of s true given = Some T -> sqw_map kB k c bins s true given = Ok p ->
  (q < nq (sft s))%nat -> (m < nm (sft s))%nat -> 0 < freq (sft s) q m ->
  (i < length bins - 1)%nat -> (j < length bins - 1)%nat -> i <> j ->
  inside (nth i bins 0) (nth (S i) bins 0) (k * freq (sft s) q m) = true ->
  inside (nth j bins 0) (nth (S j) bins 0) (- (k * freq (sft s) q m)) = true ->
  (forall m', (m' < nm (sft s))%nat -> m' <> m ->
     outside k s q m' (nth i bins 0) (nth (S i) bins 0) /\ outside k s q m' (nth j bins 0) (nth (S j) bins 0)) ->
  let a_i := nth i (nth q p []) 0 * (nth (S i) bins 0 - nth i bins 0) in
  let a_j := nth j (nth q p []) 0 * (nth (S j) bins 0 - nth j bins 0) in
  a_j = exp (- freq (sft s) q m / (kB * T)) * a_i /\
  a_i = c * sf_val s q m * (1 + planck (kB * T) (freq (sft s) q m)) /\ a_j = c * sf_val s q m * planck (kB * T) (freq (sft s) q m).
Proof. exact detailed_balance. Qed.
Print Assumptions C26_detailed_balance.

(** C26.  At zero temperature nothing is put at negative energy. *)
Theorem C26_zero_temperature : forall kB k c bins s given T p q i, 0 < k -> increasing bins -> (2 <= length bins)%nat -> T <= 0 ->
  temp_of s true given = Some T -> sqw_map kB k c bins s true given = Ok p ->
  (q < nq (sft s))%nat -> (forall m, (m < nm (sft s))%nat -> 0 <= freq (sft s) q m) ->
  (i < length bins - 1)%nat -> nth (S i) bins 0 <= 0 -> nth i (nth q p []) 0 = 0.
Proof. exact zero_temperature. Qed.
Print Assumptions C26_zero_temperature.

(** C26 fails without a temperature: -w gets the same intensity as +w. *)
Theorem C26_no_temperature_refuted : exists kB k c bins s p i j,
  0 < kB /\ 0 < k /\ 0 < c /\ increasing bins /\ sf_temp s = None /\ (forall q m, 0 < freq (sft s) q m /\ 0 < sf_val s q m) /\
  sqw_map kB k c bins s true None = Ok p /\ nth (S j) bins 0 <= 0 /\ (j < length bins - 1)%nat /\
  (i < length bins - 1)%nat /\ i <> j /\ 0 < nth j (nth 0 p []) 0 /\ nth j (nth 0 p []) 0 = nth i (nth 0 p []) 0.
Proof. exact no_temperature_both_signs. Qed.
Print Assumptions C26_no_temperature_refuted.

(** C26.  For an imaginary mode (frequency w < 0) the balance is inverted: the area at
    +|w| is exp(-|w|/kT) times the area at -|w|. *)
Theorem C26_imaginary_inverted : forall kB k c bins s given T p q m i j, 0 < k -> increasing bins -> (2 <= length bins)%nat -> 0 < kB -> 0 < T ->
  temp_of s true given = Some T -> sqw_map kB k c bins s true given = Ok p ->
  (q < nq (sft s))%nat -> (m < nm (sft s))%nat -> freq (sft s) q m < 0 ->
  (i < length bins - 1)%nat -> (j < length bins - 1)%nat -> i <> j ->
  inside (nth i bins 0) (nth (S i) bins 0) (- (k * freq (sft s) q m)) = true ->
  inside (nth j bins 0) (nth (S j) bins 0) (k * freq (sft s) q m) = true ->
  (forall m', (m' < nm (sft s))%nat -> m' <> m ->
     outside k s q m' (nth i bins 0) (nth (S i) bins 0) /\ outside k s q m' (nth j bins 0) (nth (S j) bins 0)) ->
  nth i (nth q p []) 0 * (nth (S i) bins 0 - nth i bins 0)
  = exp (freq (sft s) q m / (kB * T)) * (nth j (nth q p []) 0 * (nth (S j) bins 0 - nth j bins 0)).
Proof. exact imaginary_inverted. Qed.
Print Assumptions C26_imaginary_inverted.

Example C26_nonvacuous : exists p, sqw_map 1 1 1 two_bins_pm (one_sf 1 (Some 1)) true None = Ok p /\
  temp_of (one_sf 1 (Some 1)) true None = Some 1 /\ inside 0 2 (1 * 1) = true /\ inside (-2) 0 (- (1 * 1)) = true.
Proof.
  destruct (sqw_map_ok 1 1 1 two_bins_pm (one_sf 1 (Some 1)) true None ltac:(lra) two_bins_pm_inc (one_sf_nozero 1 _ ltac:(lra)) I) as [p Hp].
  exists p. split; [exact Hp|]. split; [reflexivity|]. unfold inside.
  rewrite !Rleb_true, !Rltb_true by lra. split; reflexivity.
Qed.

(** C27.  In every bin, height times width is the sum of the intensities of the modes
    whose energy (or negative energy) lies in the bin. *)
Theorem C27_bins : forall kB k c bins s cb given p, 0 < k -> increasing bins -> (2 <= length bins)%nat ->
  sqw_map kB k c bins s cb given = Ok p ->
  length p = nq (sft s) /\ forall q, (q < nq (sft s))%nat -> length (nth q p []) = (length bins - 1)%nat /\
  forall i, (i < length bins - 1)%nat -> nth i (nth q p []) 0 * (nth (S i) bins 0 - nth i bins 0)
    = c * Sum (seq 0 (nm (sft s))) (mode_area kB k s (temp_of s cb given) q (nth i bins 0) (nth (S i) bins 0)).
Proof. exact sqw_map_spec. Qed.
Print Assumptions C27_bins.

(** C27.  The integral over all bins counts each mode of the range once per sign. *)
Theorem C27_integral : forall kB k c bins s cb given p q, 0 < k -> increasing bins -> (2 <= length bins)%nat ->
  sqw_map kB k c bins s cb given = Ok p -> (q < nq (sft s))%nat ->
  area bins (nth q p []) = c * Sum (seq 0 (nm (sft s))) (mode_area kB k s (temp_of s cb given) q (nth 0 bins 0) (nth (length bins - 1) bins 0)).
Proof. exact sqw_area. Qed.
Print Assumptions C27_integral.

(** C27.  The call succeeds whenever no frequency is zero and the temperatures agree. *)
Theorem C27_succeeds : forall kB k c bins s cb given, 0 < k -> increasing bins -> has_zero (sft s) = false ->
  (match sf_temp s, given with Some t, Some g => cb = true -> M_path.isclose (1 / 10 ^ 8) g t = true | _, _ => True end) ->
  exists p, sqw_map kB k c bins s cb given = Ok p.
Proof. exact sqw_map_ok. Qed.
Print Assumptions C27_succeeds.

Example C27_nonvacuous : increasing two_bins_pm /\ has_zero (sft (one_sf 1 (Some 1))) = false /\
  mode_area 1 1 (one_sf 1 None) None 0 (-2) 2 0 = 2.
Proof.
  split; [exact two_bins_pm_inc|]. split; [apply one_sf_nozero; lra|]. unfold mode_area, inside. cbn [one_sf sft freq sf_val at_plus at_minus].
  rewrite !Rleb_true, !Rltb_true by lra. cbn. lra.
Qed.

(** C57.  The symmetrised matrices transform into each other under every operation of
    the space group: atom k and its image have matrices related by the rotation. *)
Theorem C57_site_symmetry : forall chunk e x kB T fmin cell l d, (0 < chunk)%nat -> det3 cell <> 0 ->
  group_table (n_atoms e) l -> (forall p, In p l -> Permutation (map (snd p) (seq 0 (n_atoms e))) (seq 0 (n_atoms e))) ->
  calculate_debye_waller chunk e x kB T fmin (Some (cart_ops cell l)) = Ok d ->
  forall rot im k i m, In (rot, im) l -> (k < n_atoms e)%nat -> (i < 3)%nat -> (m < 3)%nat ->
  dw_w d (im k) i m = Sum (seq 0 3) (fun a => Sum (seq 0 3) (fun b =>
    rot_cart rot cell (reciprocal_cell cell) i a * dw_w d k a b * rot_cart rot cell (reciprocal_cell cell) m b)).
Proof. exact debye_waller_invariant. Qed.
Print Assumptions C57_site_symmetry.

Example C57_nonvacuous : let l := [ (fun i j => if Nat.eqb i j then 1 else 0, fun k => k);
                                    (fun i j => if Nat.eqb i j then -1 else 0, fun k => (1 - k)%nat) ] in
  det3 unit_cell3 <> 0 /\ group_table 2 l /\ (forall p, In p l -> Permutation (map (snd p) (seq 0 2)) (seq 0 2)).
Proof. exact inversion_group. Qed.
