(** C15: the acoustic sum rule corrections (asr='realspace' and asr='reciprocal'). *)
From Verif Require Import Base Cpx Vec3 M_grid M_cell M_qpts M_dynmat S_dynmat M_struct M_asr S_asr L_conv L_asr L_asr2 L_asr3 L_asr4 L_asr5 L_asr6.
From Verif Require Import L_dynmat2.
Open Scope R_scope.

(** Real-space correction.  Whenever it is applied there is an orthonormal eigen-system of the
    supercell matrix, three of its modes with the largest total displacement (each over half
    the number of atoms), and a tolerance of 1e-8 times the smallest eigenvalue magnitude, so
    that the correction subtracts (tolerance + eigenvalue) times the outer product of those
    modes and nothing else.  If those modes are the same in every cell, they become modes of
    the gamma matrix with eigenvalue minus the tolerance, everything orthogonal to them at
    gamma is left alone, and the force constants keep their symmetry.
    Partial: not exactly zero but minus the tolerance; the modes found need not be the same in
    every cell (see [C15_degenerate_refuted]). *)
Theorem C15_realspace_partial : forall d chunk eigh argsort fc',
  (0 < chunk)%nat -> zdet3 (f_sc d) <> 0%Z -> (Z.abs (zdet3 (f_sc d)) < 2 ^ 48)%Z ->
  home_first d -> distinct_cells d -> fc_symmetric d -> sorts argsort -> solves eigh ->
  let n3 := (3 * n_atoms d)%nat in
  let N := n_cells d in
  enforce_realspace_asr eigh argsort chunk d = Ok (true, fc') ->
  exists A ev v ac tol, supercell_matrix d A /\ eigen_system (n3 * N) A ev v /\
    (length ac = 3%nat /\ NoDup ac /\
     (forall a, In a ac -> (a < n3 * N)%nat /\ 1 / 2 * INR (n_atoms d * N) < total_displacement_sq (n_atoms d * N) (fun i => v i a)) /\
     forall a k, In a ac -> (k < n3 * N)%nat -> ~ In k ac -> total_displacement_sq (n_atoms d * N) (fun i => v i k) <= total_displacement_sq (n_atoms d * N) (fun i => v i a)) /\
    ((forall m, (m < n3 * N)%nat -> tol <= 1 / 10 ^ 8 * Rabs (ev m)) /\ exists m, (m < n3 * N)%nat /\ tol = 1 / 10 ^ 8 * Rabs (ev m)) /\
    (forall c a b, (c < N)%nat -> (a < n3)%nat -> (b < n3)%nat ->
       fc' c a b = f_fc d c a b - Sum ac (fun k => (tol + ev k) * (v (c * n3 + a)%nat k * v b k))) /\
    ((forall k, In k ac -> same_in_cells d (fun i => v i k)) ->
       (forall k, In k ac -> eigenvector n3 (gamma_matrix N (f_fc d)) (ev k) (fun a => v a k) /\ eigenvector n3 (gamma_matrix N fc') (- tol) (fun a => v a k)) /\
       (forall f, (forall k, In k ac -> sumn n3 (fun b => v b k * f b) = 0) ->
          forall a, (a < n3)%nat -> sumn n3 (fun b => gamma_matrix N fc' a b * f b) = sumn n3 (fun b => gamma_matrix N (f_fc d) a b * f b)) /\
       fc_symmetric (with_fc d fc')).
Proof. intros d chunk eigh argsort fc' H1 H2 H3 H4 H5 H6 H7 H8 n3 N. exact (corrected d chunk eigh argsort H1 H2 H3 H4 H5 H6 H7 fc' H8). Qed.
Print Assumptions C15_realspace_partial.

(** Otherwise the force constants are returned as they were (with a warning). *)
Theorem C15_uncorrected : forall d chunk eigh argsort fc', enforce_realspace_asr eigh argsort chunk d = Ok (false, fc') -> fc' = f_fc d.
Proof. intros d chunk eigh argsort fc' E. destruct (enforce_inv d chunk eigh argsort false fc' E) as [(_ & H)|(H & _)]; [exact H|discriminate]. Qed.
Print Assumptions C15_uncorrected.

(** Force constants that already obey the sum rule are not changed. *)
Theorem C15_obeyed_kept : forall d chunk eigh argsort w fc',
  (0 < chunk)%nat -> zdet3 (f_sc d) <> 0%Z -> (Z.abs (zdet3 (f_sc d)) < 2 ^ 48)%Z ->
  home_first d -> distinct_cells d -> fc_symmetric d -> sorts argsort -> solves eigh -> sum_rule d ->
  enforce_realspace_asr eigh argsort chunk d = Ok (w, fc') ->
  forall c a b, (c < n_cells d)%nat -> (a < 3 * n_atoms d)%nat -> (b < 3 * n_atoms d)%nat -> fc' c a b = f_fc d c a b.
Proof. intros d chunk eigh argsort w fc' H1 H2 H3 H4 H5 H6 H7 H8 H9. exact (kept d chunk eigh argsort H1 H2 H3 H4 H5 H6 H7 w fc' H8 H9). Qed.
Print Assumptions C15_obeyed_kept.

(** What a soft vector of the corrected gamma matrix means for the interpolated phonons: the
    mass-weighted matrix at gamma takes sqrt(mass)*e to -(tol/mass) times itself, atom by atom.
    With tol = 0 it is an eigenvector with frequency zero.  Partial: supercells for
    which the image search is wide enough (no force constant is dropped, see C10). *)
Theorem C15_interpolated_gamma_partial : forall d fc' junk mass e tol,
  home_first d -> search_complete d -> (forall i, (i < n_atoms d)%nat -> 0 < mass i) ->
  eigenvector (3 * n_atoms d) (gamma_matrix (n_cells d) fc') (- tol) e ->
  forall a, (a < 3 * n_atoms d)%nat ->
    Csum (seq 0 (3 * n_atoms d)) (fun b => Cmul (mass_weight mass (interp_dyn_mat (with_fc d fc') junk vzero) a b) (RtoC (sqrt (mass (b / 3)%nat) * e b)))
    = Cscal (- (tol / mass (a / 3)%nat)) (RtoC (sqrt (mass (a / 3)%nat) * e a)).
Proof. exact interp_soft. Qed.
Print Assumptions C15_interpolated_gamma_partial.

(** The correction does not make translations force-free: for two atoms in one cell with
    stiffness [10,-12;-12,17] along each axis, the force sum that should vanish goes from -2 to
    less than -3.12. *)
Theorem C15_translation_refuted : exists d ev v,
  home_first d /\ distinct_cells d /\ fc_symmetric d /\ eigen_system 6 (f_fc d 0%nat) ev v /\
  sumn 1 (fun c => sumn 2 (fun k => f_fc d c 0%nat (3 * k + 0)%nat)) = -2 /\
  forall eigh argsort chunk, (0 < chunk)%nat -> sorts argsort ->
    (forall A, (forall i j, (i < 6)%nat -> (j < 6)%nat -> A i j = f_fc d 0%nat i j) -> eigh 6%nat A = Some (ev, v)) ->
    exists fc', enforce_realspace_asr eigh argsort chunk d = Ok (true, fc') /\ sumn 1 (fun c => sumn 2 (fun k => fc' c 0%nat (3 * k + 0)%nat)) < -312 / 100.
Proof.
  exists one_cell, stiff_ev, mixv. split; [exact one_cell_home|]. split; [exact one_cell_distinct|]. split; [exact one_cell_sym|]. split; [exact stiff_system|]. split; [six; cbn; ring|].
  intros eigh argsort chunk H1 H2 H3. destruct (translation_force eigh argsort chunk H1 H2 H3) as (fc' & E & X). exists fc'. split; [exact E|]. rewrite X. lra.
Qed.
Print Assumptions C15_translation_refuted.

(** With modes of equal eigenvalue elsewhere in the zone the eigensolver may mix them with the
    acoustic ones; then the gamma eigenvalues after the correction are -0.12 k, not about 0.
    Here: one atom per cell, two cells, each atom bound to its own site with stiffness k. *)
Theorem C15_degenerate_refuted : forall k, 0 < k -> exists d v,
  home_first d /\ distinct_cells d /\ fc_symmetric d /\ n_atoms d = 1%nat /\ n_cells d = 2%nat /\
  let A0 := fun i j => if Nat.eqb i j then k else 0 in
  eigen_system 6 A0 (fun _ => k) v /\
  forall eigh argsort chunk, (0 < chunk)%nat -> sorts argsort ->
    (forall A, (forall i j, (i < 6)%nat -> (j < 6)%nat -> A i j = A0 i j) -> eigh 6%nat A = Some ((fun _ => k), v)) ->
    exists fc', enforce_realspace_asr eigh argsort chunk d = Ok (true, fc') /\
      forall x, (x < 3)%nat -> eigenvector 3 (gamma_matrix 2 fc') (- ((3 / 25 + 28 / 25 * (1 / 10 ^ 8)) * k)) (fun a => if Nat.eqb a x then 1 else 0).
Proof.
  intros k K. exists (einstein k), mixv. split; [reflexivity|]. split; [exact (einstein_distinct k)|]. split; [exact (einstein_sym k)|]. split; [reflexivity|]. split; [reflexivity|]. split; [exact (diagonal_system k)|].
  intros eigh argsort chunk H1 H2 H3. exact (gamma_left eigh argsort chunk k H1 K H2 H3).
Qed.
Print Assumptions C15_degenerate_refuted.

(** Reciprocal-space correction, when the columns of the acoustic modes are real: the m-th
    mode gets eigenvalue -m*5e-15, and everything orthogonal to the three is left alone. *)
Theorem C15_reciprocal_partial : forall eigh argsort n3 G ev v corr,
  sorts argsort -> eigh n3 (herm_upper G) = Some (ev, v) -> ceigen_system n3 G ev v ->
  enforce_reciprocal_asr eigh argsort n3 G = Some corr ->
  exists ac, length ac = 3%nat /\ NoDup ac /\
    (forall k, In k ac -> (k < n3)%nat /\ 1 / 2 * INR (n3 / 3) < com_disp_sq (n3 / 3) (fun i => v i k)) /\
    (forall a k, In a ac -> (k < n3)%nat -> ~ In k ac -> com_disp_sq (n3 / 3) (fun i => v i k) <= com_disp_sq (n3 / 3) (fun i => v i a)) /\
    ((forall k i, In k ac -> (i < n3)%nat -> im (v i k) = 0) ->
      (forall m, (m < 3)%nat -> ceigenvector n3 (fun a b => Cadd (G a b) (corr a b)) (- (5 / 10 ^ 15 * INR m)) (fun i => v i (nth m ac 0%nat))) /\
      (forall f, (forall k, In k ac -> Csum (seq 0 n3) (fun b => Cmul (Cconj (v b k)) (f b)) = Czero) ->
         forall a, (a < n3)%nat -> Csum (seq 0 n3) (fun b => Cmul (Cadd (G a b) (corr a b)) (f b)) = Csum (seq 0 n3) (fun b => Cmul (G a b) (f b)))).
Proof. exact recip_facts. Qed.
Print Assumptions C15_reciprocal_partial.

(** The outer product of the reciprocal-space correction has no complex conjugate: with
    eigenvectors multiplied by i, which are eigenvectors as well, the correction doubles the
    acoustic eigenvalues instead of cancelling them. *)
Theorem C15_reciprocal_phase_refuted : forall k, exists v,
  let G := fun i j => if Nat.eqb i j then RtoC k else Czero in
  ceigen_system 3 G (fun _ => k) v /\
  forall eigh argsort, sorts argsort -> eigh 3%nat (herm_upper G) = Some ((fun _ => k), v) ->
    exists corr, enforce_reciprocal_asr eigh argsort 3 G = Some corr /\
      forall x, (x < 3)%nat -> exists m, (m < 3)%nat /\ ceigenvector 3 (fun a b => Cadd (G a b) (corr a b)) (2 * k + 5 / 10 ^ 15 * INR m) (fun a => if Nat.eqb a x then Cone else Czero).
Proof. intros k. exists phase_v. split; [exact (cdiag_system k)|]. intros eigh argsort H1 H2. exact (phase_doubles eigh argsort k H1 H2). Qed.
Print Assumptions C15_reciprocal_phase_refuted.

(** The hypotheses are met by two atoms joined by a spring, by the stiff pair above, and the
    contracts by an insertion sort and a tabulated eigensolver. *)
Example C15_case : forall k,
  sorts isort /\ solves (tabulated (spring k) (spring_ev k) even_v) /\ sum_rule (sprung k) /\ home_first (sprung k) /\ distinct_cells (sprung k) /\ fc_symmetric (sprung k) /\
  exists fc', enforce_realspace_asr (tabulated (spring k) (spring_ev k) even_v) isort 100 (sprung k) = Ok (true, fc').
Proof.
  intros k. split; [exact isort_sorts|]. split; [exact (tabulated_solves _ _ _ (spring_system k))|]. split; [exact (sprung_rule k)|]. split; [reflexivity|]. split; [exact (sprung_distinct k)|]. split; [exact (sprung_sym k)|]. exact (sprung_runs k).
Qed.
Example C15_stiff_case :
  solves (tabulated stiff stiff_ev mixv) /\ home_first one_cell /\ distinct_cells one_cell /\ fc_symmetric one_cell /\ search_complete one_cell /\
  (forall k, In k [0;1;2]%nat -> same_in_cells one_cell (fun i => mixv i k)) /\
  exists fc', enforce_realspace_asr (tabulated stiff stiff_ev mixv) isort 100 one_cell = Ok (true, fc').
Proof.
  split; [exact (tabulated_solves _ _ _ stiff_system)|]. split; [reflexivity|]. split; [exact one_cell_distinct|]. split; [exact one_cell_sym|]. split; [exact (orth_complete one_cell one_cell_home one_cell_orthogonal one_cell_inside)|]. split.
  - intros k _ c a C1 A. change (n_cells one_cell) with 1%nat in C1. assert (c = 0)%nat as -> by lia. reflexivity.
  - destruct (translation_force (tabulated stiff stiff_ev mixv) isort 100 ltac:(lia) isort_sorts (tabulated_runs _ _ _)) as (fc' & E & _). exists fc'. exact E.
Qed.
