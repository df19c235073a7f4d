(** C94: results do not depend on how the crystal is described. *)
From Coq Require Import Permutation.
From Verif Require Import Base Cpx Vec3 M_grid M_cell M_qpts M_path M_broad M_dos M_sf M_dynmat M_dipole M_asr M_calc S_dynmat S_dipole S_asr S_calc S_unique S_origin S_frame
  L_nac L_calc4 L_origin L_frame L_frame3 L_frame4 L_frame5.
Open Scope R_scope.

(** C94.  The origin of the fractional coordinates does not matter: with all atoms moved by one
    vector, every call gives exactly the same q-points, weights, frequencies, eigenvectors and mode
    gradients, or the same error, for all options, with or without Born charges, and
    with either acoustic sum rule correction, whatever the eigensolver does. *)
Theorem C94_origin : forall erfc reigh ceigh argsort chunk s junk o d mass born diel,
  snd (call erfc reigh ceigh argsort chunk junk o (new_fc (moved s d) mass born diel))
  = snd (call erfc reigh ceigh argsort chunk junk o (new_fc d mass born diel)).
Proof. exact call_moved. Qed.
Print Assumptions C94_origin.

(** C94.  Nor does it for structure factors. *)
Theorem C94_origin_structure_factors : forall s e x sl dw qpt,
  calculate_structure_factor e (moved_atoms s x) sl dw qpt = calculate_structure_factor e x sl dw qpt.
Proof. exact sf_moved. Qed.
Print Assumptions C94_origin_structure_factors.

(** C94.  Two descriptions of one crystal (other order of the atoms, other origin, other order
    and choice of the cells of the supercell and, without Born charges, atoms in other unit cells
    and another orientation), each after any history of calls and with an eigensolver of its own.
    The frequencies at each q-point are the same with the same multiplicities, mode by mode the
    same if the solvers sort; the density of states is the same, the partial densities
    of states are those of the same atoms, and the Debye-Waller factors (with the same symmetry
    operations or none) are the same matrices in the turned axes.
    Missing: sum rule corrections and, with Born charges, turns and atoms in other cells. *)
Theorem C94_description_partial : forall erfc reigh reigh' argsort argsort' chunk chunk' ceigh ceigh' F d d' mass mass' born born' diel diel',
  redescribes F d d' mass mass' -> same_charges F (M_dynmat.n_atoms d) born born' diel diel' -> home_first d -> home_first d' -> search_complete d -> search_complete d' -> det3 (zrows (f_sc d)) <> 0 ->
  fc_symmetric d -> fc_symmetric d' -> symmetric3 diel -> symmetric3 diel' -> csolves ceigh -> csolves ceigh' ->
  forall cs cs' junk junk' o r r', p_asr o = None ->
  result erfc reigh ceigh argsort chunk junk o (after erfc reigh ceigh argsort chunk (new_fc d mass born diel) cs) = Ok r ->
  result erfc reigh' ceigh' argsort' chunk' junk' o (after erfc reigh' ceigh' argsort' chunk' (new_fc d' mass' born' diel') cs') = Ok r' ->
  let n := M_dynmat.n_atoms d in let e := table_of n r in let e' := table_of n r' in
  fst (fst r) = fst (fst r') /\ same_points e e' /\
  (forall q, (q < length (fst (fst r)))%nat -> Permutation (map (freq (et e) q) (seq 0 (3 * n))) (map (freq (et e') q) (seq 0 (3 * n)))) /\
  (csorts ceigh -> csorts ceigh' -> forall q m, (q < length (fst (fst r)))%nat -> (m < 3 * n)%nat -> freq (et e) q m = freq (et e') q m) /\
  (forall k bins wmin meth, calculate_dos k bins (et e) None wmin meth = calculate_dos k bins (et e') None wmin meth) /\
  (forall k bins wmin meth sec sec' l, related_opt (same_sections F n) sec sec' -> calculate_pdos k bins e None wmin meth sec = Ok l ->
     exists l', calculate_pdos k bins e' None wmin meth sec' = Ok l' /\ same_atoms F n l l') /\
  (forall chk x x' sl sl' kB temp fmin ops ops', redescribes_xtal F n x x' sl sl' -> related_opt (Forall2 (same_op F n)) ops ops' ->
     related (turned_dw F) (calculate_debye_waller chk e x kB temp fmin ops) (calculate_debye_waller chk e' x' kB temp fmin ops')).
Proof. exact same_results. Qed.
Print Assumptions C94_description_partial.

(** C94.  The spectra made of the structure factors are the same too (same_maps: the same sums
    over the modes of equal frequency), with Debye-Waller factors in the turned axes.  Atoms moved to
    other unit cells need q-points close to a lattice vector to be exactly one, when
    calculations are reduced to the first zone. *)
Theorem C94_maps_partial : forall erfc reigh reigh' argsort argsort' chunk chunk' ceigh ceigh' F d d' mass mass' born born' diel diel',
  redescribes F d d' mass mass' -> same_charges F (M_dynmat.n_atoms d) born born' diel diel' -> home_first d -> home_first d' -> search_complete d -> search_complete d' -> det3 (zrows (f_sc d)) <> 0 ->
  fc_symmetric d -> fc_symmetric d' -> symmetric3 diel -> symmetric3 diel' -> csolves ceigh -> csolves ceigh' ->
  forall cs cs' junk junk' o r r', p_asr o = None ->
  result erfc reigh ceigh argsort chunk junk o (after erfc reigh ceigh argsort chunk (new_fc d mass born diel) cs) = Ok r ->
  result erfc reigh' ceigh' argsort' chunk' junk' o (after erfc reigh' ceigh' argsort' chunk' (new_fc d' mass' born' diel') cs') = Ok r' ->
  let n := M_dynmat.n_atoms d in let e := table_of n r in let e' := table_of n r' in
  (p_reduce o = false \/ (forall i, (i < n)%nat -> fr_T F i = (0,0,0)%Z) \/ (forall q, In q (fst (fst r)) -> is_gamma q = true -> exists g, q = zvec g)) ->
  forall x x' sl sl' dw dw', redescribes_xtal F n x x' sl sl' -> related_opt (turned_dw F) dw dw' ->
  related same_maps (calculate_structure_factor e x sl dw (fun k => nth k (fst (fst r)) vzero)) (calculate_structure_factor e' x' sl' dw' (fun k => nth k (fst (fst r')) vzero)).
Proof. exact same_maps_seen. Qed.
Print Assumptions C94_maps_partial.

(** C94.  The reciprocal cell turns with the cell, so that a crystal made from turned cell vectors is
    one [redescribes_xtal] speaks of. *)
Theorem C94_reciprocal_cell : forall m G, orthogonal G -> cell_volume m <> 0 -> reciprocal_cell (turned_rows m G) = turned_rows (reciprocal_cell m) G.
Proof. exact recip_turn. Qed.
Print Assumptions C94_reciprocal_cell.

(** Two atoms on springs of six strengths, at 0 and 1/4 of the cell; described again with the atoms
    exchanged, the origin moved by -1/4, one atom in the next cell and a quarter turn. *)
Example C94_case : redescribes other pair1 pair2 mass1 mass2 /\ same_charges other (M_dynmat.n_atoms pair1) None None unit_cell3 unit_cell3 /\
  home_first pair1 /\ home_first pair2 /\ search_complete pair1 /\ search_complete pair2 /\
  det3 (zrows (f_sc pair1)) <> 0 /\ fc_symmetric pair1 /\ fc_symmetric pair2 /\ symmetric3 unit_cell3 /\ csolves cdiag /\
  forall erfc reigh argsort chunk junk,
  (exists r, result erfc reigh cdiag argsort chunk junk (at_gamma None true) (after erfc reigh cdiag argsort chunk (new_fc pair1 mass1 None unit_cell3) []) = Ok r) /\
  (exists r, result erfc reigh cdiag argsort chunk junk (at_gamma None true) (after erfc reigh cdiag argsort chunk (new_fc pair2 mass2 None unit_cell3) []) = Ok r).
Proof.
  pose proof unit_orth as U. assert (H0 : 0 <= 1/4 < 1) by lra. assert (H1 : 0 <= 3/4 < 1) by lra. assert (H2 : 0 <= 0 < 1) by lra.
  split; [exact other_redescribes|]. split; [exact Logic.I|]. split; [reflexivity|]. split; [reflexivity|].
  split; [exact (springs_complete k1 unit_cell3 0 (1/4) H2 H0 U)|]. split; [exact (springs_complete k2 quarter_turn 0 (3/4) H2 H1 turn_orth)|].
  split; [apply (springs_det k1 unit_cell3 0)|]. split; [apply (springs_sym k1 unit_cell3 0)|]. split; [apply (springs_sym k2 quarter_turn 0)|]. split; [reflexivity|]. split; [exact cdiag_solves|].
  intros. split; [exact (springs_run k1 unit_cell3 0 (1/4) H2 H0 U erfc reigh argsort chunk junk mass1 None Logic.I)|exact (springs_run k2 quarter_turn 0 (3/4) H2 H1 turn_orth erfc reigh argsort chunk junk mass2 None Logic.I)].
Qed.

(** The first pair with a charge on one atom, calculated with dipoles; described again with the atoms exchanged and moved by 1/2. *)
Example C94_charged_case : redescribes exchanged pair1 pair3 mass1 mass2 /\ same_charges exchanged (M_dynmat.n_atoms pair1) (Some charge1) (Some charge3) unit_cell3 unit_cell3 /\
  home_first pair3 /\ search_complete pair3 /\ fc_symmetric pair3 /\
  forall erfc reigh argsort chunk junk,
  (exists r, result erfc reigh cdiag argsort chunk junk (at_gamma None true) (after erfc reigh cdiag argsort chunk (new_fc pair1 mass1 (Some charge1) unit_cell3) []) = Ok r) /\
  (exists r, result erfc reigh cdiag argsort chunk junk (at_gamma None true) (after erfc reigh cdiag argsort chunk (new_fc pair3 mass2 (Some charge3) unit_cell3) []) = Ok r).
Proof.
  pose proof unit_orth as U. assert (H0 : 0 <= 1/4 < 1) by lra. assert (H1 : 0 <= 3/4 < 1) by lra. assert (H2 : 0 <= 0 < 1) by lra. assert (H3 : 0 <= 1/2 < 1) by lra.
  set (k3 := fun a => nth a [4; 5; 6; 1; 2; 3] 0).
  split; [exact exchanged_redescribes|]. split; [exact exchanged_charges|]. split; [reflexivity|].
  split; [exact (springs_complete k3 unit_cell3 (3/4) (1/2) H1 H3 U)|]. split; [apply (springs_sym k3 unit_cell3 (3/4))|].
  intros. split; [refine (springs_run k1 unit_cell3 0 (1/4) H2 H0 U erfc reigh argsort chunk junk mass1 (Some charge1) _)|refine (springs_run k3 unit_cell3 (3/4) (1/2) H1 H3 U erfc reigh argsort chunk junk mass2 (Some charge3) _)];
    exists 2; [left|right]; split; reflexivity.
Qed.

(** The same two descriptions for structure factors, with scattering lengths 3 and 5. *)
Example C94_maps_case : redescribes_xtal other 2
  (M_sf.mkX mass1 (fun i => nth i (f_atom_r pair1) vzero) (reciprocal_cell (f_cell pair1)))
  (M_sf.mkX mass2 (fun i => nth i (f_atom_r pair2) vzero) (reciprocal_cell (f_cell pair2)))
  (fun i => nth i [3; 5] 0) (fun i => nth i [5; 3] 0).
Proof. exact other_xtal. Qed.
