(** C92: what the eigensolver can and cannot change. *)
From Coq Require Import Permutation.
From Verif Require Import Base Cpx Vec3 M_dos M_sf M_grid M_qpts M_dynmat M_dipole M_asr M_calc S_asr S_calc S_unique
  L_chain L_calc4 L_calc7 L_unique L_unique2 L_unique3 L_unique4.
From Verif Require L_nac.
Open Scope R_scope.

(** C92.  Two sets of modes of one matrix: the same frequencies with the same multiplicities,
    mode by mode the same if both are in ascending order; and for every function h of the
    frequency the sums over the modes of h times products of two components of the
    eigenvectors are the same. *)
Theorem C92_modes : forall n mass D md md', modes_of n mass D md -> modes_of n mass D md' ->
  Permutation (map (m_freq md) (seq 0 n)) (map (m_freq md') (seq 0 n)) /\
  (ascending n (m_freq md) -> ascending n (m_freq md') -> forall m, (m < n)%nat -> m_freq md m = m_freq md' m) /\
  (forall (h : R -> R) a b, (a < n)%nat -> (b < n)%nat ->
     Csum (seq 0 n) (fun m => Cscal (h (m_freq md m)) (Cmul (m_evec md m a) (Cconj (m_evec md m b))))
     = Csum (seq 0 n) (fun m => Cscal (h (m_freq md' m)) (Cmul (m_evec md' m a) (Cconj (m_evec md' m b))))).
Proof.
  intros n mass D md md' M M'. split; [exact (modes_perm n mass D md md' M M')|]. split; [exact (modes_equal n mass D md md' M M')|].
  exact (modes_fun n mass D md md' M M').
Qed.
Print Assumptions C92_modes.

(** C92.  Two tables of modes of the same matrices at the same q-points, with the same weights,
    whichever eigenvectors they hold: the density of states is the same (the same numbers, or
    the same error), and so is every partial density of states, plain or neutron-weighted.
    Without mode widths: see C92_gradients_differ. *)
Theorem C92_dos : forall e e' mass D, same_points e e' -> table_modes e mass D -> table_modes e' mass D ->
  (forall k bins wmin meth, calculate_dos k bins (et e) None wmin meth = calculate_dos k bins (et e') None wmin meth) /\
  (forall k bins element masses wmin meth w src,
     calculate_pdos_weighted k bins e element masses None wmin meth w src = calculate_pdos_weighted k bins e' element masses None wmin meth w src).
Proof. intros e e' mass D P M M'. split; [exact (dos_same e e' mass D P M M')|exact (pdos_weighted_same e e' mass D P M M')]. Qed.
Print Assumptions C92_dos.

(** C92.  So is the Debye-Waller factor, with or without symmetry. *)
Theorem C92_debye_waller : forall e e' mass D, same_points e e' -> table_modes e mass D -> table_modes e' mass D ->
  forall chunk x kB temp fmin ops, related same_dw (calculate_debye_waller chunk e x kB temp fmin ops) (calculate_debye_waller chunk e' x kB temp fmin ops).
Proof. exact dw_same. Qed.
Print Assumptions C92_debye_waller.

(** C92.  And every S(q,w) map and average over q-points made from the structure factors, with
    any of these Debye-Waller factors, any temperature and any bins. *)
Theorem C92_maps : forall e e' mass D, same_points e e' -> table_modes e mass D -> table_modes e' mass D ->
  forall x sl qpt dw dw', related_opt same_dw dw dw' ->
  related same_maps (calculate_structure_factor e x sl dw qpt) (calculate_structure_factor e' x sl dw' qpt).
Proof. exact sf_same. Qed.
Print Assumptions C92_maps.
Example C92_tables : same_points (one_atom axes) (one_atom turned) /\ table_modes (one_atom axes) (fun _ => 1) (fun _ => axes) /\
  table_modes (one_atom turned) (fun _ => 1) (fun _ => axes) /\ evec (one_atom axes) 0 0 0 1 <> evec (one_atom turned) 0 0 0 1.
Proof.
  split; [split; [reflexivity|split; reflexivity]|]. split; [apply one_atom_modes, axes_orth|]. split; [apply one_atom_modes, turned_orth|].
  intros E. apply (f_equal re) in E. cbn in E. pose proof hs2 as K. rewrite <- E in K. lra.
Qed.

(** C92.  But the structure factor of a single mode is not determined when modes share a
    frequency: two such tables, with the same frequencies, whose structure factors differ. *)
Theorem C92_mode_structure_factors_differ : exists e e' mass D x sl qpt s s',
  same_points e e' /\ table_modes e mass D /\ table_modes e' mass D /\ (forall q m, freq (et e) q m = freq (et e') q m) /\
  calculate_structure_factor e x sl None qpt = Ok s /\ calculate_structure_factor e' x sl None qpt = Ok s' /\ sf_val s 0 0 <> sf_val s' 0 0.
Proof. exact sf_depends. Qed.
Print Assumptions C92_mode_structure_factors_differ.

(** C92.  Whole calculations.  With any two solvers that return orthonormal eigenvectors, after
    any calls, for any options without the reciprocal-space sum rule: the same q-points and
    weights, and tables of modes of the same matrices, so that everything above applies.  If
    both solvers list the eigenvalues in ascending order, the frequencies are the same number
    for number. *)
Theorem C92_calculation : forall erfc reigh argsort chunk ceigh ceigh' d mass born diel cs cs' junk junk' o r r',
  csolves ceigh -> csolves ceigh' -> p_asr o <> Some Reciprocal ->
  result erfc reigh ceigh argsort chunk junk o (after erfc reigh ceigh argsort chunk (new_fc d mass born diel) cs) = Ok r ->
  result erfc reigh ceigh' argsort chunk junk' o (after erfc reigh ceigh' argsort chunk (new_fc d mass born diel) cs') = Ok r' ->
  let n := M_dynmat.n_atoms d in
  fst (fst r) = fst (fst r') /\ same_points (table_of n r) (table_of n r') /\
  (exists A, table_modes (table_of n r) (fun _ => 1) A /\ table_modes (table_of n r') (fun _ => 1) A) /\
  (csorts ceigh -> csorts ceigh' -> forall q m, (q < length (fst (fst r)))%nat -> (m < 3 * n)%nat ->
     freq (et (table_of n r)) q m = freq (et (table_of n r')) q m).
Proof. exact two_calculations. Qed.
Print Assumptions C92_calculation.
Example C92_solvers : forall erfc reigh argsort chunk junk, csolves (with_vectors axes) /\ csolves (with_vectors turned) /\
  csorts (with_vectors axes) /\ csorts (with_vectors turned) /\ p_asr at_quarter <> Some Reciprocal /\
  (exists r, result erfc reigh (with_vectors axes) argsort chunk junk at_quarter (new_fc crossing (fun _ => 1) None L_nac.unit_cell3) = Ok r) /\
  (exists r, result erfc reigh (with_vectors turned) argsort chunk junk at_quarter (new_fc crossing (fun _ => 1) None L_nac.unit_cell3) = Ok r).
Proof.
  intros. split; [apply with_vectors_solves, axes_orth|]. split; [apply with_vectors_solves, turned_orth|]. split; [apply with_vectors_sorts|].
  split; [apply with_vectors_sorts|]. split; [discriminate|]. split; eexists; apply quarter_modes.
Qed.

(** C92.  Without Born charges and sum rule the frequencies at q, at q plus a lattice vector and at
    -q plus a lattice vector are the same, in whichever calculations and with whichever solvers
    they are found (with the same choice of reducing q-points). *)
Theorem C92_equivalent_qpts : forall erfc reigh argsort chunk ceigh ceigh' d mass diel cs cs' junk junk' o o' qpts qpts' w w' ms ms',
  csolves ceigh -> csolves ceigh' -> p_asr o = None -> p_asr o' = None -> p_reduce o = p_reduce o' ->
  result erfc reigh ceigh argsort chunk junk o (after erfc reigh ceigh argsort chunk (new_fc d mass None diel) cs) = Ok (qpts, w, ms) ->
  result erfc reigh ceigh' argsort chunk junk' o' (after erfc reigh ceigh' argsort chunk (new_fc d mass None diel) cs') = Ok (qpts', w', ms') ->
  forall k k' q q' md md' G, nth_error qpts k = Some q -> nth_error qpts' k' = Some q' -> nth_error ms k = Some md -> nth_error ms' k' = Some md' ->
  q' = vadd q (zvec G) \/ q' = vadd (vopp q) (zvec G) ->
  Permutation (map (m_freq md) (seq 0 (3 * M_dynmat.n_atoms d))) (map (m_freq md') (seq 0 (3 * M_dynmat.n_atoms d))) /\
  (csorts ceigh -> csorts ceigh' -> forall m, (m < 3 * M_dynmat.n_atoms d)%nat -> m_freq md m = m_freq md' m).
Proof. exact equivalent_frequencies. Qed.
Print Assumptions C92_equivalent_qpts.

(** C92.  The gradients of the frequencies, from which the widths of adaptive broadening are made, do
    depend on the solver: force constants and a q-point where two branches cross, for which one
    correct solver gives a gradient that is not zero and another gives zero for all of them. *)
Theorem C92_gradients_differ : forall erfc reigh argsort chunk junk, exists ceigh ceigh' d mass diel o,
  csolves ceigh /\ csolves ceigh' /\ csorts ceigh /\ csorts ceigh' /\ exists qpts w md md' g g',
  result erfc reigh ceigh argsort chunk junk o (new_fc d mass None diel) = Ok (qpts, w, [md]) /\
  result erfc reigh ceigh' argsort chunk junk o (new_fc d mass None diel) = Ok (qpts, w, [md']) /\
  m_grad md = Some g /\ m_grad md' = Some g' /\ g 0%nat 0%nat <> 0 /\ forall m l, (m < 3 * M_dynmat.n_atoms d)%nat -> (l < 3)%nat -> g' m l = 0.
Proof. exact gradients_depend. Qed.
Print Assumptions C92_gradients_differ.

(** C92.  Only their sums over the modes of each frequency are determined. *)
Theorem C92_gradient_sums : forall n mass D md md', modes_of n mass D md -> modes_of n mass D md' ->
  forall (h : R -> R) (g : nat -> nat -> nat -> C) l,
  Sum (seq 0 n) (fun m => h (m_freq md m) * re (mode_gradient n (m_evec md m) (m_freq md m) g l))
  = Sum (seq 0 n) (fun m => h (m_freq md' m) * re (mode_gradient n (m_evec md' m) (m_freq md' m) g l)).
Proof. exact modes_gradients. Qed.
Print Assumptions C92_gradient_sums.
