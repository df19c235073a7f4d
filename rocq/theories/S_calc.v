(** Words for whole calculations (C16, C64, C65). *)
From Verif Require Import Base Cpx Vec3 M_grid M_dynmat M_dipole M_calc S_dynmat S_asr.
Open Scope R_scope.

Definition hermitian (A : nat -> nat -> C) : Prop := forall i j, A j i = Cconj (A i j).
(** Contract of a Hermitian eigensolver: when it converges, the columns are orthonormal
    eigenvectors. *)
Definition csolves (eigh : nat -> (nat -> nat -> C) -> option ((nat -> R) * (nat -> nat -> C))) : Prop :=
  forall n A ev v, hermitian A -> eigh n A = Some (ev, v) -> ceigen_system n A ev v.

(** The modes are those of the matrix D with masses [mass]: n orthonormal eigenvectors of the
    mass-weighted matrix, with frequency w for eigenvalue w^2, or -w for eigenvalue -w^2. *)
Definition modes_of (n : nat) (mass : nat -> R) (D : nat -> nat -> C) (md : modes) : Prop :=
  (forall m, (m < n)%nat ->
     ceigenvector n (fun a b => Cscal (1 / sqrt (mass (a / 3)%nat * mass (b / 3)%nat)) (D a b))
       (m_freq md m * Rabs (m_freq md m)) (m_evec md m)) /\
  corthonormal n (fun i m => m_evec md m i).

(** For the pair of atoms i, j, the lattice vectors among which force constant nc is shared:
    all its near images, among them every closest one, each once, and at least one. *)
Definition shares_images (d : fcdata) (L : nat -> nat -> nat -> list Z3) : Prop :=
  forall nc i j, (nc < n_cells d)%nat -> (i < n_atoms d)%nat -> (j < n_atoms d)%nat ->
    L nc i j <> [] /\ NoDup (L nc i j) /\
    (forall r, In r (L nc i j) <-> same_mod_supercell (f_sc d) (nth nc (f_origins d) (0,0,0)%Z) r /\ near_image d i j r) /\
    (forall r, closest_image d (nth nc (f_origins d) (0,0,0)%Z) i j r -> In r (L nc i j)).
(** The matrix whose modes are wanted: the Fourier sum of the force constants shared among L,
    plus, with Born charges and dipole on, the dipole-dipole part for [param] and, where there
    is a direction of approach, the non-analytic part for it. *)
Definition whole_matrix (erfc : R -> R) (d : fcdata) (born : option (nat -> M3)) (diel : M3) (dipole : bool) (param : R)
    (L : nat -> nat -> nat -> list Z3) (q : V3) (dir : option V3) (a b : nat) : C :=
  match born with
  | Some bo =>
      if dipole then
        Cadd (Cadd (fourier_sum d L q a b)
                   (dipole_correction (f_cell d) (f_atom_r d) bo diel (dipole_init erfc (f_cell d) (f_atom_r d) bo diel param) q a b))
             (match dir with Some v => gamma_correction (f_cell d) bo diel v a b | None => Czero end)
      else fourier_sum d L q a b
  | None => fourier_sum d L q a b
  end.

(** Gamma points are doubled: there are Born charges, and dipole, splitting and insert_gamma are on. *)
Definition inserts (x : fcobj) (o : options) : bool :=
  match o_born x with Some _ => (p_dipole o && p_splitting o && p_insert o)%bool | None => false end.

(** The same options without a sum rule. *)
Definition without_asr (o : options) : options :=
  mkOpts (p_qpts o) (p_weights o) None (p_dipole o) (p_param o) (p_splitting o) (p_insert o) (p_reduce o) (p_grads o).
