(** C90: the three acoustic modes at gamma. *)
From Verif Require Import Base Cpx Vec3 M_grid M_cell M_qpts M_dynmat M_dipole M_struct M_asr M_calc
  S_qpts S_dynmat S_dipole S_struct S_asr S_calc S_acoustic L_dynmat2 L_nac L_chain L_asr6 L_calc4 L_calc5 L_calc7 L_acoustic2 L_acoustic3.
Open Scope R_scope.

(** C90.  Force constants that obey the sum rule (moving all atoms together gives no force),
    with asr=None: at every q-point that is gamma, after any calls and for any other options,
    three of the modes returned have frequency zero, and every mode with another frequency leaves
    the centre of mass of the cell at rest.  With Born charges and the dipole part on, the charges
    must add up to nothing if the splitting is on, and the dipole part must be balanced (below).
    Partial: crystals for which the image search is wide enough, see C10; and exact arithmetic. *)
Theorem C90_acoustic_partial : forall erfc reigh ceigh argsort chunk d mass born diel,
  home_first d -> search_complete d -> det3 (zrows (f_sc d)) <> 0 -> fc_symmetric d -> symmetric3 diel -> csolves ceigh ->
  (forall i, (i < n_atoms d)%nat -> 0 < mass i) -> (0 < n_atoms d)%nat -> sum_rule d ->
  forall cs junk o qpts w ms, p_asr o = None ->
  match born with
  | Some bo => p_dipole o = true ->
      balanced (n_atoms d) (dipole_correction (f_cell d) (f_atom_r d) bo diel (dipole_init erfc (f_cell d) (f_atom_r d) bo diel (p_param o)) vzero) /\
      (p_splitting o = true -> neutral (n_atoms d) bo)
  | None => True
  end ->
  result erfc reigh ceigh argsort chunk junk o (after erfc reigh ceigh argsort chunk (new_fc d mass born diel) cs) = Ok (qpts, w, ms) ->
  forall k q md, nth_error qpts k = Some q -> (q = vzero \/ (p_reduce o = true /\ is_gamma q = true)) -> nth_error ms k = Some md ->
  acoustic_modes (n_atoms d) mass md.
Proof. exact acoustic_result. Qed.
Print Assumptions C90_acoustic_partial.

(** The same with asr='realspace': the correction leaves force constants that obey the sum rule
    as they are, see C15. *)
Theorem C90_realspace_partial : forall erfc reigh ceigh argsort chunk d mass born diel,
  home_first d -> search_complete d -> det3 (zrows (f_sc d)) <> 0 -> fc_symmetric d -> symmetric3 diel -> csolves ceigh ->
  (forall i, (i < n_atoms d)%nat -> 0 < mass i) -> (0 < n_atoms d)%nat -> sum_rule d ->
  (0 < chunk)%nat -> zdet3 (f_sc d) <> 0%Z -> (Z.abs (zdet3 (f_sc d)) < 2 ^ 48)%Z -> distinct_cells d -> sorts argsort -> solves reigh ->
  forall cs junk o qpts w ms, p_asr o = Some Realspace ->
  match born with
  | Some bo => p_dipole o = true ->
      balanced (n_atoms d) (dipole_correction (f_cell d) (f_atom_r d) bo diel (dipole_init erfc (f_cell d) (f_atom_r d) bo diel (p_param o)) vzero) /\
      (p_splitting o = true -> neutral (n_atoms d) bo)
  | None => True
  end ->
  result erfc reigh ceigh argsort chunk junk o (after erfc reigh ceigh argsort chunk (new_fc d mass born diel) cs) = Ok (qpts, w, ms) ->
  forall k q md, nth_error qpts k = Some q -> (q = vzero \/ (p_reduce o = true /\ is_gamma q = true)) -> nth_error ms k = Some md ->
  acoustic_modes (n_atoms d) mass md.
Proof. exact acoustic_realspace. Qed.
Print Assumptions C90_realspace_partial.

(** Both hold of the chain of equal springs. *)
Example C90_example : forall k erfc junk,
  home_first (chain k (- k)) /\ search_complete (chain k (- k)) /\ det3 (zrows (f_sc (chain k (- k)))) <> 0 /\ fc_symmetric (chain k (- k)) /\
  symmetric3 unit_cell3 /\ csolves cdiag /\ sum_rule (chain k (- k)) /\ distinct_cells (chain k (- k)) /\ sorts isort /\
  let reigh := tabulated (spring k) (spring_ev k) even_v in solves reigh /\
  (exists r, result erfc reigh cdiag isort 100 junk (at_gamma None false) (new_fc (chain k (- k)) (fun _ => 1) None unit_cell3) = Ok r) /\
  (exists r, result erfc reigh cdiag isort 100 junk (at_gamma (Some Realspace) false) (new_fc (chain k (- k)) (fun _ => 1) None unit_cell3) = Ok r).
Proof.
  intros. split; [reflexivity|]. split; [apply chain_complete|]. split; [cbn; lra|]. split; [apply chain_sym|]. split; [reflexivity|].
  split; [exact cdiag_solves|]. split; [apply chain_rule|]. split; [apply chain_distinct|]. split; [exact isort_sorts|].
  intros reigh. pose proof (tabulated_solves _ _ _ (spring_system k)) as Hs. split; [exact Hs|]. split; [apply chain_runs|exact (chain_realspace erfc reigh isort k junk Hs isort_sorts)].
Qed.

(** The dipole part at gamma, for every crystal with Born charges: when all atoms move together
    along b, the force on atom i along a is minus the force along b of a move along a.  No force
    is along the move itself. *)
Theorem C90_dipole_rows : forall erfc cell atom_r born diel dp i a b,
  (i < length atom_r)%nat -> (a < 3)%nat -> (b < 3)%nat ->
  let D := dipole_correction cell atom_r born diel (dipole_init erfc cell atom_r born diel dp) vzero in
  Csum (seq 0 (length atom_r)) (fun k => D (3 * i + a) (3 * k + b))%nat = Copp (Csum (seq 0 (length atom_r)) (fun k => D (3 * i + b) (3 * k + a))%nat).
Proof. intros. apply dip_rows_odd; assumption. Qed.
Print Assumptions C90_dipole_rows.

(** So there is no force at all if the dipole part is balanced, and it is balanced if the Born
    charges are isotropic, and if there is one atom. *)
Theorem C90_balanced : forall erfc cell atom_r born diel dp,
  let D := dipole_correction cell atom_r born diel (dipole_init erfc cell atom_r born diel dp) vzero in
  balanced (length atom_r) D -> no_net_force (length atom_r) D.
Proof. intros erfc cell atom_r born diel dp. exact (dip_no_force erfc cell atom_r born diel dp). Qed.
Print Assumptions C90_balanced.
Theorem C90_isotropic : forall erfc cell atom_r born diel dp, symmetric3 diel ->
  (forall i, (i < length atom_r)%nat -> exists z, born i = ((z, 0, 0), (0, z, 0), (0, 0, z))) \/ length atom_r = 1%nat ->
  balanced (length atom_r) (dipole_correction cell atom_r born diel (dipole_init erfc cell atom_r born diel dp) vzero).
Proof. exact balanced_cases. Qed.
Print Assumptions C90_isotropic.
Example C90_isotropic_example : let born := fun i => match i with O => iso 1 | _ => iso (-1) end in
  neutral 2 born /\ forall i, (i < 2)%nat -> exists z, born i = ((z, 0, 0), (0, z, 0), (0, 0, z)).
Proof.
  intros born. split.
  - intros a b A B. unfold sumn, born. cbn [seq]. rewrite !Sum_cons, Sum_nil. unfold iso. destruct a as [|[|[|a]]]; try lia; destruct b as [|[|[|b]]]; try lia; cbn; ring.
  - intros i I. destruct i as [|i]; [exists 1|exists (-1)]; reflexivity.
Qed.

(** C90 fails for a crystal whose Born charges do not add up to nothing.  One ion of charge 1 in
    a cubic cell, with no other force: at gamma on the way to (1/2,0,0), the splitting moves the
    mode along x, and no three modes have frequency zero.  Such charges are not refused. *)
Theorem C90_charged_refuted : forall erfc reigh ceigh argsort chunk cs junk param qpts w ms md, csolves ceigh ->
  let o := mkOpts [vzero; (1/2, 0, 0)] None None true param true false true false in
  let x := new_fc (held 0) (fun _ => 1) (Some (fun _ => iso 1)) (iso 1) in
  result erfc reigh ceigh argsort chunk junk o (after erfc reigh ceigh argsort chunk x cs) = Ok (qpts, w, ms) ->
  nth_error ms 0 = Some md -> nth_error qpts 0 = Some vzero /\ ~ acoustic_modes 1 (fun _ => 1) md.
Proof. exact charged_result. Qed.
Print Assumptions C90_charged_refuted.
(** The force constants obey the sum rule, and the matrix at gamma has modes. *)
Example C90_charged_example : sum_rule (held 0) /\ forall erfc param L, shares_images (held 0) L ->
  exists md, modes_of 3 (fun _ => 1) (whole_matrix erfc (held 0) (Some (fun _ => iso 1)) (iso 1) true param L vzero (Some (1/2, 0, 0))) md.
Proof. exact (conj held_rule charged_have_modes). Qed.
