(** What the constructors accept (C19), and Born charges with the dielectric tensor (C52).
    [conv] is pint's convertibility; each unit named is the internal unit converted to. *)
From Coq Require Import String.
From Verif Require Import Base M_fortran S_fortran M_castepbin S_castepbin L_castepbin3 P_castepbin.
From Verif Require Import M_qpts M_valid S_valid L_valid L_valid2 L_valid3.
Open Scope Z_scope.

(** C19: a table of (value, classes, shape patterns) is accepted exactly when every value has
    one of its classes and, if it has a shape and patterns are given, matches one of them. *)
Theorem C19_table : forall U (cs : list (@check U)), check_inputs cs = Ok tt <-> Forall (fun c => right_class c /\ right_shape c) cs.
Proof. exact @check_ok. Qed.
Print Assumptions C19_table.
(** C19: otherwise the error names the first offending argument, TypeError before ValueError. *)
Theorem C19_first_named : forall U (cs : list (@check U)) e, check_inputs cs = Err e ->
  exists pre c post, cs = pre ++ c :: post /\ Forall (fun c => right_class c /\ right_shape c) pre /\
  ((~ right_class c /\ e = BadType (c_name c)) \/ (right_class c /\ ~ right_shape c /\ e = BadShape (c_name c))).
Proof. exact @check_first. Qed.
Print Assumptions C19_first_named.

(** C19: the arguments each class accepts.  quantity' and axis' allow a bare number with a unit
    where an array is documented (see the refutation below). *)
Theorem C19_crystal : forall U conv (bohr me : U) c r t m, real r ->
  (new_crystal conv bohr me c r t m = Ok tt <->
   exists n, 0 <= n /\ quantity' conv [3; 3] bohr c /\ quantity' conv [n] me m /\
     ((r = Arr [n; 3] /\ t = Arr [n]) \/ (n = 0 /\ (r = Arr [0; 3] \/ shaped r [0]) /\ shaped t [0]))).
Proof. exact @crystal_iff. Qed.
Print Assumptions C19_crystal.
Theorem C19_qpoint_frequencies : forall U conv (hartree : U) c q f w, real q ->
  (new_qpoint_frequencies conv hartree c q f w = Ok tt <->
   exists a n, c = Cry a /\ q = Arr [n; 3] /\ (exists m, quantity' conv [n; m] hartree f) /\ (w = Non \/ w = Arr [n])).
Proof. exact @qf_iff. Qed.
Print Assumptions C19_qpoint_frequencies.
Theorem C19_phonon_modes : forall U conv (hartree : U) c q f ev w, real c -> real q ->
  (new_qpoint_phonon_modes conv hartree c q f ev w = Ok tt <->
   exists a n, c = Cry a /\ q = Arr [n; 3] /\ quantity' conv [n; 3 * a] hartree f /\ ev = Arr [n; 3 * a; a; 3] /\ (w = Non \/ w = Arr [n])).
Proof. exact @qpm_iff. Qed.
Print Assumptions C19_phonon_modes.
Theorem C19_structure_factor : forall U conv (hartree bohr2 kelvin : U) c q f sf w t, real c -> real q ->
  (new_structure_factor conv hartree bohr2 kelvin c q f sf w t = Ok tt <->
   exists a n, c = Cry a /\ q = Arr [n; 3] /\ quantity' conv [n; 3 * a] hartree f /\ quantity' conv [n; 3 * a] bohr2 sf /\ (w = Non \/ w = Arr [n]) /\
     (t = Non \/ any_quantity conv kelvin t)).
Proof. exact @sf_iff. Qed.
Print Assumptions C19_structure_factor.
Theorem C19_debye_waller : forall U conv (bohr2 kelvin : U) c d t, real c ->
  (new_debye_waller conv bohr2 kelvin c d t = Ok tt <-> exists a, c = Cry a /\ quantity' conv [a; 3; 3] bohr2 d /\ any_quantity conv kelvin t).
Proof. exact @dw_iff. Qed.
Print Assumptions C19_debye_waller.
Theorem C19_force_constants : forall U conv (fcu e diel : U) det c f sc co b d, real c ->
  ((exists o, new_force_constants conv fcu e diel det c f sc co b d = Ok o) <->
   exists a, let n := rint (Rabs det) in c = Cry a /\ sc = Arr [3; 3] /\ quantity' conv [n; 3 * a; 3 * a] fcu f /\ co = Arr [n; 3] /\
     ((b = Non /\ (d = Non \/ exists u, d = Qty (Some [3; 3]) u \/ d = Qty None u)) \/ (quantity' conv [a; 3; 3] e b /\ quantity' conv [3; 3] diel d))).
Proof. exact @fc_iff. Qed.
Print Assumptions C19_force_constants.
Theorem C19_spectrum1d : forall U (x y l m : obj U), real y -> (new_spectrum1d x y l m = Ok tt <-> exists n u, y = Qty (Some [n]) u /\ axis' n x /\ labels l /\ meta m).
Proof. exact @s1_iff. Qed.
Print Assumptions C19_spectrum1d.
Theorem C19_spectrum2d : forall U (x y z l m : obj U), real z ->
  (new_spectrum2d x y z l m = Ok tt <-> exists nx ny u, z = Qty (Some [nx; ny]) u /\ axis' nx x /\ axis' ny y /\ labels l /\ meta m).
Proof. exact @s2_iff. Qed.
Print Assumptions C19_spectrum2d.
Theorem C19_collection1d : forall U (x y l m : obj U), real y ->
  (new_collection1d x y l m = Ok tt <-> exists k n u, y = Qty (Some [k; n]) u /\ k <> 0 /\ axis' n x /\ labels l /\ meta_for k m).
Proof. exact @c1_iff. Qed.
Print Assumptions C19_collection1d.
Theorem C19_collection2d : forall U (x y z l m : obj U), real z ->
  (new_collection2d x y z l m = Ok tt <-> exists k nx ny u, z = Qty (Some [k; nx; ny]) u /\ axis' nx x /\ axis' ny y /\ labels l /\ meta_for k m).
Proof. exact @c2_iff. Qed.
Print Assumptions C19_collection2d.
(** Concrete arguments each constructor accepts *)
Example C19_case : let cv := fun a b : nat => Nat.eqb a b in let d := fun s => Qty (Some s) 0%nat in
  new_crystal cv 0%nat 0%nat (d [3; 3]) (Arr [2; 3]) (Arr [2]) (d [2]) = Ok tt /\
  new_qpoint_phonon_modes cv 0%nat (Cry 2) (Arr [5; 3]) (d [5; 6]) (Arr [5; 6; 2; 3]) Non = Ok tt /\
  new_structure_factor cv 0%nat 0%nat 0%nat (Cry 2) (Arr [5; 3]) (d [5; 6]) (d [5; 6]) (Arr [5]) (Qty None 0%nat) = Ok tt /\
  new_collection2d (d [4]) (d [8]) (d [3; 4; 7]) (Lst 2) (Dct (Some 3)) = Ok tt /\
  new_qpoint_phonon_modes cv 0%nat (Cry 2) (Arr [5; 3]) (d [5; 6]) (Arr [5; 6; 3; 2]) Non = Err (BadShape "eigenvectors").
Proof. repeat split. Qed.

(** C19: where a constructor fails, the error names the argument or is pint's unit error. *)
Theorem C19_errors : forall U conv (hartree bohr2 kelvin : U) c q f ev sf d w t x,
  (new_qpoint_frequencies conv hartree c q f w = Err x -> tells x) /\
  (new_qpoint_phonon_modes conv hartree c q f ev w = Err x -> tells x) /\
  (new_structure_factor conv hartree bohr2 kelvin c q f sf w t = Err x -> tells x) /\
  (new_debye_waller conv bohr2 kelvin c d t = Err x -> tells x).
Proof.
  intros. split; [apply qf_tells|]. split; [apply qpm_tells|]. split; [apply sf_tells|apply dw_tells].
Qed.
Print Assumptions C19_errors.
(** C19 refuted: a plain number with a unit is taken for every documented Quantity array, so
    for example a crystal of two atoms with one number for its cell vectors and one for its
    masses is built. *)
Theorem C19_scalar_refuted : forall U conv (u bohr me hartree bohr2 fcu : U),
  conv u bohr = true -> conv u me = true -> conv u hartree = true -> conv u bohr2 = true -> conv u fcu = true ->
  new_crystal conv bohr me (Qty None u) (Arr [2; 3]) (Arr [2]) (Qty None u) = Ok tt /\
  new_qpoint_phonon_modes conv hartree (Cry 2) (Arr [5; 3]) (Qty None u) (Arr [5; 6; 2; 3]) Non = Ok tt /\
  new_structure_factor conv hartree bohr2 u (Cry 2) (Arr [5; 3]) (Qty None u) (Qty None u) Non Non = Ok tt /\
  (exists o, new_force_constants conv fcu u u 1%R (Cry 2) (Qty None u) (Arr [3; 3]) (Arr [rint (Rabs 1); 3]) Non Non = Ok o) /\
  new_spectrum1d (Qty None u) (Qty (Some [7]) u) Non Non = Ok tt.
Proof.
  intros U conv u bohr me hartree bohr2 fcu H1 H2 H3 H4 H5.
  assert (F : exists o, new_force_constants conv fcu u u 1%R (Cry 2) (Qty None u) (Arr [3; 3]) (Arr [rint (Rabs 1); 3]) Non Non = Ok o).
  { apply fc_iff; [cbn; lia|]. exists 2. cbv zeta. repeat (split; [reflexivity|]). split; [exists u; split; [right; reflexivity|exact H5]|]. split; [reflexivity|]. left. split; [reflexivity|left; reflexivity]. }
  unfold new_crystal, new_qpoint_phonon_modes, new_structure_factor, new_qpoint_frequencies, new_spectrum1d.
  split; [cbn; rewrite H1, H2; reflexivity|]. split; [cbn; rewrite H3; reflexivity|]. split; [cbn; rewrite H3; cbn; rewrite H4; reflexivity|]. split; [exact F|reflexivity].
Qed.
Print Assumptions C19_scalar_refuted.
(** C19 refuted: errors that do not name the argument.  A scalar y_data (TypeError from len),
    a collection without spectra (IndexError), atom_r without a length, atom_r an empty list. *)
Theorem C19_unnamed_refuted : forall U conv (u bohr me : U) x l,
  new_spectrum1d (Qty None u) (Qty None u) Non Non = Err NoLen /\
  new_collection1d x (Qty (Some [0; 7]) u) Non Non = Err NoIndex /\
  new_crystal conv bohr me (Qty (Some [3; 3]) u) Non l (Qty (Some [2]) u) = Err NoLen /\
  new_crystal conv bohr me (Qty (Some [3; 3]) u) (Lst 0) l (Qty (Some [0]) u) = Err NoAttr.
Proof. intros. repeat split. Qed.
Print Assumptions C19_unnamed_refuted.

(** C52: with both, or neither, the object has both, in the units given, or neither. *)
Theorem C52_both_or_neither : forall U conv (fcu e diel : U) umul det f a, quantity' conv [rint (Rabs det); 3 * a; 3 * a] fcu f -> 0 <= a ->
  let build b d := new_force_constants conv fcu e diel det (Cry a) f (Arr [3; 3]) (Arr [rint (Rabs det); 3]) b d in
  (forall u v, conv u e = true -> conv v diel = true -> exists o, build (Qty (Some [a; 3; 3]) u) (Qty (Some [3; 3]) v) = Ok o /\ get_kept umul (f_born o) = Some u /\ get_kept umul (f_diel o) = Some v) /\
  (exists o, build Non Non = Ok o /\ get_kept umul (f_born o) = None /\ get_kept umul (f_diel o) = None).
Proof. intros U conv fcu e diel umul det f a Hf Ha. split; [intros u v C1 C2; exact (both conv fcu e diel umul det f a Ha Hf u v C1 C2)|exact (neither conv fcu e diel umul det f a Ha Hf)]. Qed.
Print Assumptions C52_both_or_neither.
(** C52: in general an object with Born charges has a dielectric tensor. *)
Theorem C52_born_needs_dielectric : forall U conv (fcu e diel : U) umul det c f sc co b d o, real c ->
  new_force_constants conv fcu e diel det c f sc co b d = Ok o -> get_kept umul (f_born o) <> None -> get_kept umul (f_diel o) <> None /\ d <> Non.
Proof.
  intros U conv fcu e diel umul det c f sc co b d o Hc H K. assert (X : exists o, new_force_constants conv fcu e diel det c f sc co b d = Ok o) by (exists o; exact H).
  apply fc_iff in X; [|exact Hc]. destruct X as (a & Ec & Es & Ef & Eo & X). subst c. rewrite (fc_step conv fcu e diel det (Cry a) f sc co b d a eq_refl Es Ef Eo) in H.
  apply andthen_unit in H. destruct H as [_ H]. destruct X as [(-> & _)|((u & Hb & _) & (v & Hd & _))].
  - assert (E : o = {| f_ncells := rint (Rabs det); f_born := Nothing; f_diel := match d with Qty _ u => Whole u diel | _ => Nothing end |}) by congruence. subst o. contradiction (K eq_refl).
  - destruct Hb as [->| ->], Hd as [->| ->]; rewrite !andthen_unit in H; destruct H as (_ & _ & H); (split; [|discriminate]); match type of H with Ok ?r = _ => assert (E : o = r) by congruence end; subst o; discriminate.
Qed.
Print Assumptions C52_born_needs_dielectric.
(** C52 refuted: Born charges without dielectric tensor give an AttributeError that names
    nothing; it is the only such case. *)
Theorem C52_born_only_refuted : forall U conv (fcu e diel : U) det f a u, quantity' conv [rint (Rabs det); 3 * a; 3 * a] fcu f -> 0 <= a -> conv u e = true ->
  new_force_constants conv fcu e diel det (Cry a) f (Arr [3; 3]) (Arr [rint (Rabs det); 3]) (Qty (Some [a; 3; 3]) u) Non = Err NoAttr /\ ~ tells NoAttr.
Proof. intros U conv fcu e diel det f a u Hf Ha C. split; [exact (born_only conv fcu e diel det f a Ha Hf u C)|]. intros [(n & [H|H])|H]; discriminate H. Qed.
Print Assumptions C52_born_only_refuted.
Theorem C52_other_errors_tell : forall U conv (fcu e diel : U) det c f sc co b d x,
  new_force_constants conv fcu e diel det c f sc co b d = Err x -> tells x \/ (x = NoAttr /\ b <> Non /\ d = Non).
Proof. exact @fc_tells. Qed.
Print Assumptions C52_other_errors_tell.
(** C52 refuted: a dielectric tensor without Born charges is accepted, whatever its unit, and
    the object then returns it with its unit multiplied by charge**2/(length*energy) once
    more.  Units are lists of exponents of charge, length and energy. *)
Theorem C52_dielectric_only_refuted :
  let conv (u v : list Z) := zeqb u v in let umul (u v : list Z) := map (fun p => fst p + snd p) (combine u v) in
  let fcu := [0; -2; 1] in let e := [1; 0; 0] in let diel := [2; -1; -1] in
  forall det a u, 0 <= a -> exists o,
    new_force_constants conv fcu e diel det (Cry a) (Qty (Some [rint (Rabs det); 3 * a; 3 * a]) fcu) (Arr [3; 3]) (Arr [rint (Rabs det); 3]) Non (Qty (Some [3; 3]) u) = Ok o /\
    get_kept umul (f_born o) = None /\ get_kept umul (f_diel o) = Some (umul u diel) /\ (u = diel -> get_kept umul (f_diel o) = Some [4; -2; -2]).
Proof.
  intros conv umul fcu e diel det a u Ha. assert (Hf : quantity' conv [rint (Rabs det); 3 * a; 3 * a] fcu (Qty (Some [rint (Rabs det); 3 * a; 3 * a]) fcu)) by (exists fcu; split; [left; reflexivity|reflexivity]).
  destruct (diel_only conv fcu e diel umul det _ a Ha Hf u) as (o & H1 & H2 & H3). exists o. split; [exact H1|]. split; [exact H2|]. split; [exact H3|]. intros ->. rewrite H3. reflexivity.
Qed.
Print Assumptions C52_dielectric_only_refuted.
(** C52 refuted: assigning Born charges to an object that has none leaves it without a
    dielectric tensor. *)
Theorem C52_setter_refuted : forall U conv (fcu e diel : U) umul det f a u s, quantity' conv [rint (Rabs det); 3 * a; 3 * a] fcu f -> 0 <= a -> conv u e = true ->
  exists o o', new_force_constants conv fcu e diel det (Cry a) f (Arr [3; 3]) (Arr [rint (Rabs det); 3]) Non Non = Ok o /\
    set_born conv e o (Qty s u) = Ok o' /\ get_kept umul (f_born o') = Some u /\ get_kept umul (f_diel o') = None.
Proof.
  intros U conv fcu e diel umul det f a u s Hf Ha C. destruct (neither conv fcu e diel umul det f a Ha Hf) as (o & H1 & _ & H3). exists o. unfold set_born. cbn. rewrite C. cbn. eexists. split; [exact H1|]. split; [reflexivity|]. split; [reflexivity|exact H3].
Qed.
Print Assumptions C52_setter_refuted.
(** C52 through the CASTEP reader, refuted: a well formed file with BORN_CHGS and no DIELECTRIC
    item is read, but no ForceConstants can be built from what was read.  (A file with only
    DIELECTRIC reads as one with neither: C63_round_trip.) *)
Definition present {A} (o : option A) (s : list Z) : option (list Z) := match o with Some _ => Some s | None => None end.
Theorem C52_castep_refuted : forall dec version cf us l f junk name U conv (fcu e diel u : U),
  sized cf -> cells_match cf -> (forall s, (s < species cf)%nat -> padded (name s) (symbol cf s)) ->
  writes cf false l f -> good_main l -> (forall p, In (Params p) l -> version p = Some false) ->
  In Born l -> ~ In Dielectric l -> conv u e = true -> conv fcu fcu = true ->
  exists d, read_interpolation_data dec version us (f ++ junk) = Ok d /\
    forall det uf ud, rint (Rabs det) = Z.of_nat (cells cf) -> conv uf fcu = true ->
    let a := Z.of_nat (ions cf) in let n := Z.of_nat (cells cf) in
    force_constants_from_dict conv fcu e diel det (Cry a) (Qty (Some [n; 3 * a; 3 * a]) uf) (Arr [3; 3]) (Arr [n; 3])
      (present (i_born d) [a; 3; 3]) (present (i_diel d) [3; 3]) (Some u) ud = Err NoAttr.
Proof.
  intros dec version cf us l f junk name U conv fcu e diel u S M P W G V HB HD C _.
  destruct (C63_round_trip dec version cf us l f junk name S M P W G V) as (d & R & _ & _ & _ & _ & _ & _ & _ & _ & _ & _ & _ & B & _ & _ & D). exists d. split; [exact R|].
  intros det uf ud E Cf a n. destruct (B HB) as (b & -> & _). rewrite D by tauto. unfold force_constants_from_dict. cbn [present optional_quantity andthen]. subst n. rewrite <- E.
  apply (born_only conv fcu e diel det _ a); [lia| |exact C]. exists uf. split; [left; reflexivity|exact Cf].
Qed.
Print Assumptions C52_castep_refuted.
Example C52_castep_case : In Born (ex_items true false) /\ ~ In Dielectric (ex_items true false).
Proof. split; [cbn; tauto|]. cbn. intuition discriminate. Qed.
