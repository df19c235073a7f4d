(** Property theorems C06, C10, C11 (force constants without the dipole part;
    P_dipole treats the dipole part). *)
From Verif Require Import Base Cpx Vec3 M_grid M_cell M_dynmat S_dynmat L_dynmat2 L_near L_wide L_grad L_chain.
Open Scope R_scope.

(** C06: D(q + G) = D(q) for every integer G. *)
Theorem C06_short_range_periodic : forall d junk q (G : Z3) a b,
  interp_dyn_mat d junk (vadd q (zvec G)) a b = interp_dyn_mat d junk q a b.
Proof. exact interp_periodic. Qed.
Print Assumptions C06_short_range_periodic.

(** C06: D(-q) is the complex conjugate of D(q). *)
Theorem C06_short_range_time_reversal : forall d junk q a b,
  interp_dyn_mat d junk (vopp q) a b = Cconj (interp_dyn_mat d junk q a b).
Proof. exact interp_conj. Qed.
Print Assumptions C06_short_range_time_reversal.

(** C06: symmetric force constants give a Hermitian matrix, provided the image
    search range is wide enough (always so for compact supercells, see
    [C10_compact_search_complete]). *)
Theorem C06_short_range_hermitian : forall d junk q a b,
  home_first d -> search_complete d -> fc_symmetric d ->
  (a < 3 * n_atoms d)%nat -> (b < 3 * n_atoms d)%nat ->
  interp_dyn_mat d junk q b a = Cconj (interp_dyn_mat d junk q a b).
Proof. exact interp_hermitian. Qed.
Print Assumptions C06_short_range_hermitian.

(** C06.  The eigensolver reads the upper triangle only; what it diagonalises is the
    whole mass-weighted matrix. *)
Theorem C06_solver_sees_full_matrix : forall d junk mass q a b,
  home_first d -> search_complete d -> fc_symmetric d ->
  (a < 3 * n_atoms d)%nat -> (b < 3 * n_atoms d)%nat ->
  herm_upper (mass_weight mass (interp_dyn_mat d junk q)) a b = mass_weight mass (interp_dyn_mat d junk q) a b.
Proof. exact solver_full_matrix. Qed.
Print Assumptions C06_solver_sees_full_matrix.

(** The hypotheses hold for a 2x1x1 supercell, and the matrix is the textbook
    k0 + k1 cos(2 pi q). *)
Example C06_example : forall k0 k1 junk q1,
  home_first (chain k0 k1) /\ search_complete (chain k0 k1) /\ fc_symmetric (chain k0 k1) /\
  interp_dyn_mat (chain k0 k1) junk (q1, 0, 0) 1 1 = RtoC (k0 + k1 * cos (2 * PI * q1)).
Proof.
  intros. split; [reflexivity|]. split; [apply chain_complete|]. split; [apply chain_sym|].
  exact (chain_dyn k0 k1 junk (q1, 0, 0) 1 1 ltac:(lia) ltac:(lia)).
Qed.

(** C10, orthogonal supercells: the interpolated matrix is the Fourier sum in
    which each force constant is shared equally among all lattice vectors that
    are its periodic images near the home atom; there is always at least one
    and none is listed twice. *)
Theorem C10_orthogonal_shared_equally_partial : forall d junk,
  home_first d -> orthogonal_supercell d -> inside_supercell d ->
  exists L : nat -> nat -> nat -> list Z3,
    (forall nc i j, (nc < n_cells d)%nat -> (i < n_atoms d)%nat -> (j < n_atoms d)%nat ->
       L nc i j <> [] /\ NoDup (L nc i j) /\
       (forall r, In r (L nc i j) <->
          same_mod_supercell (f_sc d) (nth nc (f_origins d) (0,0,0)%Z) r /\
          near_image d i j r)) /\
    (forall q a b, (a < 3 * n_atoms d)%nat -> (b < 3 * n_atoms d)%nat ->
       interp_dyn_mat d junk q a b = fourier_sum d L q a b).
Proof. exact interp_fourier. Qed.
Print Assumptions C10_orthogonal_shared_equally_partial.

(** C10, any supercell for which the search range is wide enough: the same Fourier
    sum, there is always at least one image, and every closest periodic image is among the
    shared ones. *)
Theorem C10_shared_equally_partial : forall d junk,
  home_first d -> search_complete d -> det3 (zrows (f_sc d)) <> 0 ->
  exists L : nat -> nat -> nat -> list Z3,
    (forall nc i j, (nc < n_cells d)%nat -> (i < n_atoms d)%nat -> (j < n_atoms d)%nat ->
       L nc i j <> [] /\ NoDup (L nc i j) /\
       (forall r, In r (L nc i j) <->
          same_mod_supercell (f_sc d) (nth nc (f_origins d) (0,0,0)%Z) r /\ near_image d i j r) /\
       (forall r, closest_image d (nth nc (f_origins d) (0,0,0)%Z) i j r -> In r (L nc i j))) /\
    (forall q a b, (a < 3 * n_atoms d)%nat -> (b < 3 * n_atoms d)%nat ->
       interp_dyn_mat d junk q a b = fourier_sum d L q a b).
Proof. exact fourier_shared. Qed.
Print Assumptions C10_shared_equally_partial.

(** C10, the same crystals, of any shape: at gamma the matrix is the plain sum of the force
    constants: nothing lost, nothing counted twice. *)
Theorem C10_gamma_sum_partial : forall d junk a b,
  home_first d -> search_complete d -> (a < 3 * n_atoms d)%nat -> (b < 3 * n_atoms d)%nat ->
  interp_dyn_mat d junk vzero a b = RtoC (sumn (n_cells d) (fun nc => f_fc d nc a b)).
Proof. exact gamma_sum_general. Qed.
Print Assumptions C10_gamma_sum_partial.

(** C10, every crystal and every pair of atoms: whatever the shape of the supercell, some
    periodic image of each atom is near.  What can fail is only the search, see
    C10_skewed_supercell_refuted. *)
Theorem C10_near_image_exists : forall d s i j,
  exists r, same_mod_supercell (f_sc d) s r /\ near_image d i j r.
Proof. exact near_image_exists. Qed.
Print Assumptions C10_near_image_exists.
Example C10_slanted : home_first slanted /\ search_complete slanted /\ det3 (zrows (f_sc slanted)) <> 0 /\ ~ orthogonal_supercell slanted.
Proof. split; [reflexivity|]. split; [exact slanted_complete|]. split; [cbn; lra|exact slanted_not_orthogonal]. Qed.

(** C10, orthogonal supercells: at gamma the matrix is the plain sum of the
    force constants: nothing lost, nothing counted twice. *)
Theorem C10_orthogonal_gamma_sum_partial : forall d junk a b,
  home_first d -> orthogonal_supercell d -> inside_supercell d ->
  (a < 3 * n_atoms d)%nat -> (b < 3 * n_atoms d)%nat ->
  interp_dyn_mat d junk vzero a b = RtoC (sumn (n_cells d) (fun nc => f_fc d nc a b)).
Proof. exact gamma_sum. Qed.
Print Assumptions C10_orthogonal_gamma_sum_partial.

Theorem C10_orthogonal_search_complete : forall d,
  home_first d -> orthogonal_supercell d -> inside_supercell d -> search_complete d.
Proof. exact orth_complete. Qed.
Print Assumptions C10_orthogonal_search_complete.

(** The search is wide enough for every supercell that is not too slanted. *)
Theorem C10_compact_search_complete : forall d,
  home_first d -> compact_supercell d -> inside_supercell d -> search_complete d.
Proof. exact compact_complete. Qed.
Print Assumptions C10_compact_search_complete.

(** These are all boxes; three equal edges with equal angles of 48.2 to 111.7 degrees, so cubes
    and the primitive cells of face-centred and body-centred lattices; and one edge perpendicular
    to two others that are reduced (the projection of each on the other is at most half of it),
    so hexagonal cells with angles of 60 or 120 degrees, and monoclinic cells. *)
Theorem C10_compact_shapes : forall d a b c, sc_vecs d = (a, b, c) -> 0 < dot a a -> 0 < dot b b -> 0 < dot c c ->
  (dot a b = 0 /\ dot a c = 0 /\ dot b c = 0) \/
  (exists t, -37/100 <= t <= 2/3 /\ dot a a = dot b b /\ dot b b = dot c c /\ dot a b = t * dot a a /\ dot a c = t * dot a a /\ dot b c = t * dot a a) \/
  (dot a c = 0 /\ dot b c = 0 /\ 2 * Rabs (dot a b) <= dot a a /\ 2 * Rabs (dot a b) <= dot b b) \/
  (dot a b = 0 /\ dot b c = 0 /\ 2 * Rabs (dot a c) <= dot a a /\ 2 * Rabs (dot a c) <= dot c c) -> compact_supercell d.
Proof. exact compact_shapes. Qed.
Print Assumptions C10_compact_shapes.
(** The primitive cell of rock salt. *)
Example C10_face_centred : home_first face_centred /\ compact_supercell face_centred /\ inside_supercell face_centred.
Proof. exact (conj eq_refl (conj face_compact face_inside)). Qed.

Example C10_example : forall k0 k1, home_first (chain k0 k1) /\
  orthogonal_supercell (chain k0 k1) /\ inside_supercell (chain k0 k1) /\
  sumn (n_cells (chain k0 k1)) (fun nc => f_fc (chain k0 k1) nc 0 0) = k0 + k1.
Proof.
  intros. split; [reflexivity|]. split; [apply chain_orth|]. split; [apply chain_inside|].
  unfold sumn, Sum. cbn. ring.
Qed.

(** C10 is false for skewed supercells: with supercell edges a, 10a+3b, c on a
    cubic cell and the three cells at 0, 4a+b, 7a+2b (one of each class, all
    inside the supercell), the force constant of the middle cell never enters:
    the matrix is zero at every q although the force constants sum to 1. *)
Theorem C10_skewed_supercell_refuted : exists d : fcdata,
  home_first d /\ n_cells d = 3%nat /\ n_atoms d = 1%nat /\
  det3 (zrows (f_sc d)) = 3 /\
  (forall x y, In x (f_origins d) -> In y (f_origins d) ->
     same_mod_supercell (f_sc d) x y -> x = y) /\
  (forall junk q a b, (a < 3)%nat -> (b < 3)%nat -> interp_dyn_mat d junk q a b = Czero) /\
  sumn (n_cells d) (fun nc => f_fc d nc 0 0) = 1.
Proof.
  exists skew. split; [reflexivity|]. split; [reflexivity|]. split; [reflexivity|].
  split; [cbn; ring|]. split; [exact skew_classes|]. split; [exact skew_dropped|].
  unfold sumn, Sum. cbn. ring.
Qed.
Print Assumptions C10_skewed_supercell_refuted.

(** C11: the gradient matrix is the derivative of the interpolated matrix: for
    every path q + t*delta (fractional), the derivative at every t is the
    gradient's component along the Cartesian image of delta. *)
Theorem C11_dyn_mat_gradient : forall d junk q delta t a b,
  det3 (f_cell d) <> 0 ->
  Cderiv (fun s => interp_dyn_mat d junk (vadd q (vscal s delta)) a b) t
    (along (fun l => interp_dyn_mat_grad d junk (vadd q (vscal t delta)) a b l)
           (vmul delta (reciprocal_cell (f_cell d)))).
Proof. exact interp_deriv. Qed.
Print Assumptions C11_dyn_mat_gradient.

(** C11: for a real mode the mode gradient is the gradient of its frequency
    (and is real), along every differentiable eigenvector branch. *)
Theorem C11_mode_gradient_real_mode_partial : forall d junk mass q delta e lam,
  det3 (f_cell d) <> 0 ->
  home_first d -> search_complete d -> fc_symmetric d ->
  mode_curve (3 * n_atoms d)
    (fun t => mass_weight mass (interp_dyn_mat d junk (vadd q (vscal t delta)))) e lam ->
  0 < lam 0 ->
  Cderiv (fun t => RtoC (freq_of_eval (lam t))) 0
    (along (mode_gradient (3 * n_atoms d) (e 0) (freq_of_eval (lam 0))
             (mass_weight_grad mass (interp_dyn_mat_grad d junk q)))
           (vmul delta (reciprocal_cell (f_cell d)))).
Proof. exact mode_gradient_pos. Qed.
Print Assumptions C11_mode_gradient_real_mode_partial.

Example C11_example : forall junk, let q := (1/4, 0, 0) in let delta := (1, 0, 0) in
  det3 (f_cell (chain 2 1)) <> 0 /\ home_first (chain 2 1) /\
  search_complete (chain 2 1) /\ fc_symmetric (chain 2 1) /\
  mode_curve 3
    (fun t => mass_weight (fun _ => 1) (interp_dyn_mat (chain 2 1) junk (vadd q (vscal t delta))))
    ex (fun t => 2 + 1 * cos (2 * PI * comp (vadd q (vscal t delta)) 0)) /\
  0 < 2 + 1 * cos (2 * PI * comp (vadd q (vscal 0 delta)) 0).
Proof.
  intros. split; [apply chain_det|]. split; [reflexivity|]. split; [apply chain_complete|].
  split; [apply chain_sym|]. split; [apply chain_curve|].
  pose proof (COS_bound (2 * PI * comp (vadd q (vscal 0 delta)) 0)). lra.
Qed.

(** C11 is false for imaginary modes, whose frequency is reported as a
    negative number: the returned gradient [G] has the opposite sign to the
    derivative of the reported frequency, and is not zero. *)
Theorem C11_imaginary_mode_sign_refuted : forall junk,
  exists d q delta e (lam : R -> R),
    n_atoms d = 1%nat /\
    mode_curve 3
      (fun t => mass_weight (fun _ => 1) (interp_dyn_mat d junk (vadd q (vscal t delta)))) e lam /\
    lam 0 < 0 /\
    let G := along (mode_gradient 3 (e 0) (freq_of_eval (lam 0))
                (mass_weight_grad (fun _ => 1) (interp_dyn_mat_grad d junk q)))
              (vmul delta (reciprocal_cell (f_cell d))) in
    Cderiv (fun t => RtoC (freq_of_eval (lam t))) 0 (Copp G) /\ G <> Copp G.
Proof. exact chain_imaginary_ex. Qed.
Print Assumptions C11_imaginary_mode_sign_refuted.
