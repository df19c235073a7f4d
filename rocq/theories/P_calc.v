(** C16: results do not depend on earlier calls.  C64: setters between calls.  C65: whole
    calculations. *)
From Verif Require Import Base Cpx Vec3 M_grid M_cell M_qpts M_dynmat M_dipole M_struct M_asr M_calc
  S_qpts S_dynmat S_dipole S_asr S_calc L_nac L_chain L_asr6 L_calc L_calc2 L_calc3 L_calc4 L_calc5 L_calc6 L_calc7 L_calc8 L_calc9 L_calc10 L_tight3 L_acoustic3.
Open Scope R_scope.

(** C16.  After any calls cs, whatever their options and whether they succeeded or not, one more
    call gives what the same call gives on a new object: the same q-points, weights, frequencies,
    eigenvectors and gradients, or the same error.  This holds whatever the uninitialised memory
    held each time (j in one call, j' in the other). *)
Theorem C16_history : forall erfc reigh ceigh argsort chunk d mass born diel cs j j' o,
  result erfc reigh ceigh argsort chunk j o (after erfc reigh ceigh argsort chunk (new_fc d mass born diel) cs)
  = result erfc reigh ceigh argsort chunk j' o (new_fc d mass born diel).
Proof. exact history. Qed.
Print Assumptions C16_history.

(** Two calls whose dipole parameters differ: data for the first are not used in the second. *)
Example C16_example : forall erfc reigh ceigh argsort chunk j j' j'',
  let o p := mkOpts [vzero; (1/4, 0, 0)] None None true p true false true false in
  let x := ion 1 3 in
  result erfc reigh ceigh argsort chunk j' (o 2) (after erfc reigh ceigh argsort chunk x [(j, o 1)])
  = result erfc reigh ceigh argsort chunk j'' (o 2) x.
Proof. intros. apply C16_history. Qed.

(** C16 fails for the warning.  Two atoms, each tied to its own place, have no three acoustic
    modes: asr='realspace' then warns that nothing was corrected.  The same call made again on
    the same object does not warn, though again nothing was corrected.  This is so for every
    eigensolver that solves. *)
Theorem C16_warning_refuted : forall erfc reigh ceigh argsort chunk mass junk junk',
  (0 < chunk)%nat -> solves reigh -> (forall n A, ceigh n A <> None) ->
  let x := new_fc tied mass None unit_cell3 in
  let o := at_gamma (Some Realspace) false in
  warnings erfc reigh ceigh argsort chunk junk o x = [RealspaceUncorrected] /\
  warnings erfc reigh ceigh argsort chunk junk' o (next erfc reigh ceigh argsort chunk x (junk, o)) = [].
Proof. exact warned_once. Qed.
Print Assumptions C16_warning_refuted.
Example C16_warning_example : solves rdiag. Proof. exact rdiag_solves. Qed.

(** C64 fails.  Force constants assigned after one successful call with asr='realspace' have no
    effect at all on any later call with asr='realspace'. *)
Theorem C64_force_constants_ignored_refuted : forall erfc reigh ceigh argsort chunk x junk0 o0 r junk o fc',
  p_asr o0 = Some Realspace -> result erfc reigh ceigh argsort chunk junk0 o0 x = Ok r -> p_asr o = Some Realspace ->
  result erfc reigh ceigh argsort chunk junk o (set_force_constants (next erfc reigh ceigh argsort chunk x (junk0, o0)) fc')
  = result erfc reigh ceigh argsort chunk junk o (next erfc reigh ceigh argsort chunk x (junk0, o0)).
Proof. exact setter_ignored. Qed.
Print Assumptions C64_force_constants_ignored_refuted.

(** One atom held by a spring 1; after a call the spring is set to 4.  The next call gives other
    modes than a new object with spring 4.  ([rdiag], [cdiag]: solvers for diagonal matrices,
    which meet the contracts.) *)
Theorem C64_force_constants_refuted : forall erfc argsort chunk junk junk' junk'', (0 < chunk)%nat -> sorts argsort ->
  let x := new_fc (held 1) (fun _ => 1) None unit_cell3 in
  let o := at_gamma (Some Realspace) false in
  let res := result erfc rdiag cdiag argsort chunk in
  exists r r', res junk' o (set_force_constants (next erfc rdiag cdiag argsort chunk x (junk, o)) (f_fc (held 4))) = Ok r /\
    res junk'' o (new_fc (held 4) (fun _ => 1) None unit_cell3) = Ok r' /\ r <> r'.
Proof. exact fc_stale. Qed.
Print Assumptions C64_force_constants_refuted.
Example C64_contracts : solves rdiag /\ csolves cdiag /\ sorts isort.
Proof. exact (conj rdiag_solves (conj cdiag_solves isort_sorts)). Qed.

(** One ion of charge 1 in dielectric 1; after a call with the dipole part the charge is set to 2.
    The next call gives other modes than a new object with charge 2, whatever the solver. *)
Theorem C64_born_refuted : forall erfc reigh ceigh argsort chunk junk junk' junk'' r r', csolves ceigh ->
  let o := at_gamma None true in
  result erfc reigh ceigh argsort chunk junk' o (set_born (next erfc reigh ceigh argsort chunk (ion 1 1) (junk, o)) (fun _ => iso 2)) = Ok r ->
  result erfc reigh ceigh argsort chunk junk'' o (ion 2 1) = Ok r' -> r <> r'.
Proof. exact born_stale. Qed.
Print Assumptions C64_born_refuted.

(** The same for the dielectric tensor. *)
Theorem C64_dielectric_refuted : forall erfc reigh ceigh argsort chunk junk junk' junk'' r r', csolves ceigh ->
  let o := at_gamma None true in
  result erfc reigh ceigh argsort chunk junk' o (set_dielectric (next erfc reigh ceigh argsort chunk (ion 1 1) (junk, o)) (iso 2)) = Ok r ->
  result erfc reigh ceigh argsort chunk junk'' o (ion 1 2) = Ok r' -> r <> r'.
Proof. exact diel_stale. Qed.
Print Assumptions C64_dielectric_refuted.
(** All four calls can succeed. *)
Example C64_calls_succeed : forall erfc reigh argsort chunk junk,
  let o := at_gamma None true in let res := result erfc reigh cdiag argsort chunk junk o in
  let y := next erfc reigh cdiag argsort chunk (ion 1 1) (junk, o) in
  (exists r, res (set_born y (fun _ => iso 2)) = Ok r) /\ (exists r, res (ion 2 1) = Ok r) /\
  (exists r, res (set_dielectric y (iso 2)) = Ok r) /\ (exists r, res (ion 1 2) = Ok r).
Proof.
  intros erfc reigh argsort chunk junk o res y. unfold y, o, res. rewrite ion_next, !fresh_ion.
  repeat split; apply ion_runs; try lra; auto.
Qed.

(** C65.  There is a way L of sharing each force constant equally among near images, every
    closest one included, such that after any calls, and for any options with asr=None, the modes
    returned at each q-point are orthonormal eigenvectors, with frequencies, of the mass-weighted
    matrix at that q-point: the Fourier sum of the force constants, plus (with Born charges and
    dipole on) the dipole-dipole part and, where the q-point is a lattice vector and splitting is
    on, the part for the direction of approach.  (A q-point within 1e-8 or so of a lattice
    vector is treated as gamma if q-points are reduced.)  The q-points are those asked for, with
    the inserted gamma points if any.
    Partial: crystals for which the image search is wide enough, see C10; and exact arithmetic. *)
Theorem C65_modes_partial : forall erfc reigh ceigh argsort chunk d mass born diel,
  home_first d -> search_complete d -> det3 (zrows (f_sc d)) <> 0 -> fc_symmetric d -> symmetric3 diel -> csolves ceigh ->
  exists L, shares_images d L /\
  forall cs junk o qpts w ms, p_asr o = None ->
    result erfc reigh ceigh argsort chunk junk o (after erfc reigh ceigh argsort chunk (new_fc d mass born diel) cs) = Ok (qpts, w, ms) ->
    qpts = the_qpts (new_fc d mass born diel) o /\ length ms = length qpts /\
    forall k q, nth_error qpts k = Some q -> exists md, nth_error ms k = Some md /\
      modes_of (3 * n_atoms d) mass
        (whole_matrix erfc d born diel (p_dipole o) (p_param o) L (if (p_reduce o && is_gamma q)%bool then vzero else q)
           (if (p_splitting o && is_gamma q)%bool then Some (approach qpts k) else None)) md.
Proof. exact modes_fourier. Qed.
Print Assumptions C65_modes_partial.
Example C65_example : forall erfc reigh argsort chunk k0 k1 junk,
  home_first (chain k0 k1) /\ search_complete (chain k0 k1) /\ det3 (zrows (f_sc (chain k0 k1))) <> 0 /\ fc_symmetric (chain k0 k1) /\
  symmetric3 unit_cell3 /\ csolves cdiag /\
  exists r, result erfc reigh cdiag argsort chunk junk (at_gamma None false) (new_fc (chain k0 k1) (fun _ => 1) None unit_cell3) = Ok r.
Proof.
  intros. split; [reflexivity|]. split; [apply chain_complete|]. split; [cbn; lra|]. split; [apply chain_sym|]. split; [reflexivity|].
  split; [exact cdiag_solves|apply chain_runs].
Qed.

(** C65.  No mode is missing and none is returned twice: the mass-weighted matrix is the sum over
    the modes of w|w| times the projection on the eigenvector, and so the w|w| add up to its
    trace.  Partial as above. *)
Theorem C65_complete_partial : forall erfc reigh ceigh argsort chunk d mass born diel,
  home_first d -> search_complete d -> det3 (zrows (f_sc d)) <> 0 -> fc_symmetric d -> symmetric3 diel -> csolves ceigh -> (forall i, (i < n_atoms d)%nat -> 0 < mass i) ->
  exists L, shares_images d L /\
  forall cs junk o qpts w ms, p_asr o = None ->
    result erfc reigh ceigh argsort chunk junk o (after erfc reigh ceigh argsort chunk (new_fc d mass born diel) cs) = Ok (qpts, w, ms) ->
    forall k q md, nth_error qpts k = Some q -> nth_error ms k = Some md ->
    let n := (3 * n_atoms d)%nat in
    let D := whole_matrix erfc d born diel (p_dipole o) (p_param o) L (if (p_reduce o && is_gamma q)%bool then vzero else q)
               (if (p_splitting o && is_gamma q)%bool then Some (approach qpts k) else None) in
    (forall a b, (a < n)%nat -> (b < n)%nat -> Cscal (1 / sqrt (mass (a / 3)%nat * mass (b / 3)%nat)) (D a b)
       = Csum (seq 0 n) (fun m => Cscal (m_freq md m * Rabs (m_freq md m)) (Cmul (m_evec md m a) (Cconj (m_evec md m b))))) /\
    sumn n (fun m => m_freq md m * Rabs (m_freq md m)) = sumn n (fun a => re (D a a) / mass (a / 3)%nat).
Proof. exact modes_spectral. Qed.
Print Assumptions C65_complete_partial.

(** C65 with asr='realspace'.  After any calls the result is exactly that of a new object holding
    the corrected force constants, calculated with asr=None: q-points, weights, frequencies,
    eigenvectors and gradients, or the same error.  (The correction itself is C15.) *)
Theorem C65_realspace : forall erfc reigh ceigh argsort chunk d mass born diel cs junk junk' o w fc', p_asr o = Some Realspace ->
  enforce_realspace_asr reigh argsort chunk d = Ok (w, fc') ->
  result erfc reigh ceigh argsort chunk junk o (after erfc reigh ceigh argsort chunk (new_fc d mass born diel) cs)
  = result erfc reigh ceigh argsort chunk junk' (without_asr o) (new_fc (with_fc d fc') mass born diel).
Proof. exact realspace_same. Qed.
Print Assumptions C65_realspace.

(** And so its modes are those of the corrected force constants.  Partial as above, and for
    corrections that keep the symmetry of the force constants, see C15. *)
Theorem C65_realspace_modes_partial : forall erfc reigh ceigh argsort chunk d mass born diel,
  home_first d -> search_complete d -> det3 (zrows (f_sc d)) <> 0 -> symmetric3 diel -> csolves ceigh ->
  forall w fc', enforce_realspace_asr reigh argsort chunk d = Ok (w, fc') -> fc_symmetric (with_fc d fc') ->
  exists L, shares_images d L /\
  forall cs junk o qpts wt ms, p_asr o = Some Realspace ->
    result erfc reigh ceigh argsort chunk junk o (after erfc reigh ceigh argsort chunk (new_fc d mass born diel) cs) = Ok (qpts, wt, ms) ->
    qpts = the_qpts (new_fc d mass born diel) o /\ length ms = length qpts /\
    forall k q, nth_error qpts k = Some q -> exists md, nth_error ms k = Some md /\
      modes_of (3 * n_atoms d) mass
        (whole_matrix erfc (with_fc d fc') born diel (p_dipole o) (p_param o) L (if (p_reduce o && is_gamma q)%bool then vzero else q)
           (if (p_splitting o && is_gamma q)%bool then Some (approach qpts k) else None)) md.
Proof. exact realspace_modes. Qed.
Print Assumptions C65_realspace_modes_partial.
Example C65_realspace_example : forall erfc k junk, let reigh := tabulated (spring k) (spring_ev k) even_v in
  solves reigh /\ sorts isort /\ csolves cdiag /\ (exists fc', enforce_realspace_asr reigh isort 100 (sprung k) = Ok (true, fc')) /\
  exists r, result erfc reigh cdiag isort 100 junk (at_gamma (Some Realspace) false) (new_fc (chain k (- k)) (fun _ => 1) None unit_cell3) = Ok r.
Proof.
  intros erfc k junk reigh. pose proof (tabulated_solves _ _ _ (spring_system k)) as Hs. split; [exact Hs|]. split; [exact isort_sorts|]. split; [exact cdiag_solves|].
  split; [apply sprung_runs|exact (chain_realspace erfc reigh isort k junk Hs isort_sorts)].
Qed.

(** C65 with asr='reciprocal'.  One matrix, the correction made from the matrix G at gamma
    (dipole part included, without a direction), is added to the matrix at every q-point, and the
    modes are those of the sum; without a correction (a warning is given) the matrix stays as it
    is.  Partial as above, and for corrections that are Hermitian: see C15 for those that are
    not. *)
Theorem C65_reciprocal_partial : forall erfc reigh ceigh argsort chunk d mass born diel,
  home_first d -> search_complete d -> det3 (zrows (f_sc d)) <> 0 -> symmetric3 diel -> csolves ceigh -> fc_symmetric d ->
  let n := (3 * n_atoms d)%nat in
  exists L, shares_images d L /\
  forall cs junk o qpts wt ms, p_asr o = Some Reciprocal ->
    result erfc reigh ceigh argsort chunk junk o (after erfc reigh ceigh argsort chunk (new_fc d mass born diel) cs) = Ok (qpts, wt, ms) ->
    qpts = the_qpts (new_fc d mass born diel) o /\ length ms = length qpts /\
    exists G, (forall a b, (a < n)%nat -> (b < n)%nat -> G a b = whole_matrix erfc d born diel (p_dipole o) (p_param o) L vzero None a b) /\
    forall corr, match enforce_reciprocal_asr ceigh argsort n G with None => forall a b, corr a b = Czero | Some r => corr = r end ->
    (forall a b, (a < n)%nat -> (b < n)%nat -> corr b a = Cconj (corr a b)) ->
    forall k q, nth_error qpts k = Some q -> exists md, nth_error ms k = Some md /\
      modes_of n mass
        (fun a b => Cadd (whole_matrix erfc d born diel (p_dipole o) (p_param o) L (if (p_reduce o && is_gamma q)%bool then vzero else q)
           (if (p_splitting o && is_gamma q)%bool then Some (approach qpts k) else None) a b) (corr a b)) md.
Proof. exact reciprocal_modes. Qed.
Print Assumptions C65_reciprocal_partial.
(** The chain; the corrections of the solver used here are diagonal, and so Hermitian. *)
Example C65_reciprocal_example : forall erfc reigh argsort chunk k0 k1 junk,
  (exists r, result erfc reigh cdiag argsort chunk junk (at_gamma (Some Reciprocal) false) (new_fc (chain k0 k1) (fun _ => 1) None unit_cell3) = Ok r) /\
  forall n G corr, enforce_reciprocal_asr cdiag argsort n G = Some corr -> forall a b, corr b a = Cconj (corr a b).
Proof.
  intros. split; [apply chain_reciprocal|]. intros n G corr E a b. destruct (cdiag_correction argsort n G corr E) as (f & F). rewrite !F, (Nat.eqb_sym b a).
  destruct (Nat.eqb_spec a b) as [->|]; apply C_eq; cbn; ring.
Qed.

(** C65.  The calculation raises only if the number of weights is not that of the q-points, if
    asr='realspace' and some cell of the supercell is not found, or if the eigensolver does not
    converge. *)
Theorem C65_only_errors : forall erfc reigh ceigh argsort chunk junk o x e, result erfc reigh ceigh argsort chunk junk o x = Err e ->
  (e = BadWeights /\ exists w, p_weights o = Some w /\ match w with WFloat l => length l | WInt l => length l end <> length (p_qpts o)) \/
  (exists s, e = AsrError s /\ p_asr o = Some Realspace /\ supercell_relative_idx chunk (f_origins (o_d x)) (f_sc (o_d x)) = Err s) \/
  (e = NotConverged /\ exists M, ceigh (3 * n_atoms (o_d x))%nat M = None).
Proof. exact only_errors. Qed.
Print Assumptions C65_only_errors.
Example C65_error_example : forall erfc reigh ceigh argsort chunk junk x,
  result erfc reigh ceigh argsort chunk junk (mkOpts [vzero] (Some (WFloat [])) None true 1 true false true false) x = Err BadWeights.
Proof. reflexivity. Qed.

(** C65.  The weights returned are those given, one for each q-point given, with that of a
    doubled gamma point split between its two copies (integer weights are halved towards 0, see
    C08); without weights all are equal.  Any other number of weights is refused. *)
Theorem C65_weights : forall erfc reigh ceigh argsort chunk junk o x qpts w ms,
  result erfc reigh ceigh argsort chunk junk o x = Ok (qpts, w, ms) ->
  match p_weights o with
  | None => w = repeat (1 / INR (length qpts)) (length qpts)
  | Some (WFloat v) => length v = length (p_qpts o) /\
      w = concat (map (fun i => if (inserts x o && interior_gamma (p_qpts o) i)%bool then [nth i v 0 / 2; nth i v 0 / 2] else [nth i v 0]) (seq 0 (length v)))
  | Some (WInt v) => length v = length (p_qpts o) /\
      w = concat (map (fun i => if (inserts x o && interior_gamma (p_qpts o) i)%bool then [IZR (Z.quot (nth i v 0%Z) 2); IZR (Z.quot (nth i v 0%Z) 2)] else [IZR (nth i v 0%Z)]) (seq 0 (length v)))
  end.
Proof. exact result_weights. Qed.
Print Assumptions C65_weights.
Theorem C65_wrong_weights : forall erfc reigh ceigh argsort chunk junk o x v, p_weights o = Some v ->
  match v with WFloat l => length l | WInt l => length l end <> length (p_qpts o) ->
  result erfc reigh ceigh argsort chunk junk o x = Err BadWeights.
Proof. exact wrong_weights. Qed.
Print Assumptions C65_wrong_weights.
