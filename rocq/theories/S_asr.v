(** Words for the acoustic sum rule (C15). *)
From Verif Require Import Base Cpx Vec3 M_grid M_dynmat S_dynmat.
Open Scope R_scope.

(** A v = lambda v, for real matrices of size n *)
Definition eigenvector (n : nat) (A : nat -> nat -> R) (l : R) (v : nat -> R) : Prop := forall i, (i < n)%nat -> sumn n (fun j => A i j * v j) = l * v i.
Definition orthonormal (n : nat) (v : nat -> nat -> R) : Prop :=
  forall m k, (m < n)%nat -> (k < n)%nat -> sumn n (fun i => v i m * v i k) = if Nat.eqb m k then 1 else 0.
(** Contract of a real eigensolver on one matrix: columns of v are orthonormal eigenvectors. *)
Definition eigen_system (n : nat) (A : nat -> nat -> R) (ev : nat -> R) (v : nat -> nat -> R) : Prop :=
  (forall m, (m < n)%nat -> eigenvector n A (ev m) (fun i => v i m)) /\ orthonormal n v.
Definition solves (eigh : nat -> (nat -> nat -> R) -> option ((nat -> R) * (nat -> nat -> R))) : Prop :=
  forall n A ev v, (forall i j, A i j = A j i) -> eigh n A = Some (ev, v) -> eigen_system n A ev v.
(** Complex Hermitian matrices *)
Definition ceigenvector (n : nat) (A : nat -> nat -> C) (l : R) (v : nat -> C) : Prop := forall i, (i < n)%nat -> Csum (seq 0 n) (fun j => Cmul (A i j) (v j)) = Cscal l (v i).
Definition corthonormal (n : nat) (v : nat -> nat -> C) : Prop :=
  forall m k, (m < n)%nat -> (k < n)%nat -> Csum (seq 0 n) (fun i => Cmul (Cconj (v i m)) (v i k)) = if Nat.eqb m k then Cone else Czero.
Definition ceigen_system (n : nat) (A : nat -> nat -> C) (ev : nat -> R) (v : nat -> nat -> C) : Prop :=
  (forall m, (m < n)%nat -> ceigenvector n A (ev m) (fun i => v i m)) /\ corthonormal n v.
(** Contract of np.argsort: all indices, by increasing value *)
Definition sorts (argsort : list R -> list nat) : Prop :=
  forall w, Permutation (argsort w) (seq 0 (length w)) /\
    forall i j, (i < j < length w)%nat -> nth (nth i (argsort w) 0%nat) w 0 <= nth (nth j (argsort w) 0%nat) w 0.

(** No two listed cells are the same cell of the supercell. *)
Definition distinct_cells (d : fcdata) : Prop :=
  forall k k', (k < n_cells d)%nat -> (k' < n_cells d)%nat -> same_mod_supercell (f_sc d) (nth k (f_origins d) (0,0,0)%Z) (nth k' (f_origins d) (0,0,0)%Z) -> k = k'.
(** A uniform displacement of all atoms along x, y or z causes no force. *)
Definition sum_rule (d : fcdata) : Prop :=
  forall a x, (a < 3 * n_atoms d)%nat -> (x < 3)%nat -> sumn (n_cells d) (fun c => sumn (n_atoms d) (fun k => f_fc d c a (3 * k + x)%nat)) = 0.
(** Force constants summed over the supercell: the gamma-point matrix before mass weighting *)
Definition gamma_matrix (n : nat) (fc : nat -> nat -> nat -> R) (a b : nat) : R := sumn n (fun c => fc c a b).
(** A is the square force-constant matrix of the whole supercell: the entry for component a of
    cell c and component b of cell c' is the stored force constant of b in the cell that is c'
    seen from c, and a in the home cell. *)
Definition supercell_matrix (d : fcdata) (A : nat -> nat -> R) : Prop :=
  let n3 := (3 * n_atoms d)%nat in
  let o k := nth k (f_origins d) (0,0,0)%Z in
  forall c c' k a b, (c < n_cells d)%nat -> (c' < n_cells d)%nat -> (k < n_cells d)%nat -> (a < n3)%nat -> (b < n3)%nat ->
    same_mod_supercell (f_sc d) (o k) (zadd3 (o c') (zopp3 (o c))) -> A (c * n3 + a)%nat (c' * n3 + b)%nat = f_fc d k b a.
(** The vector is the same in every cell of the supercell. *)
Definition same_in_cells (d : fcdata) (e : nat -> R) : Prop := forall c a, (c < n_cells d)%nat -> (a < 3 * n_atoms d)%nat -> e (c * (3 * n_atoms d) + a)%nat = e a.
(** Square of the summed displacement of n atoms *)
Definition total_displacement_sq (n : nat) (e : nat -> R) : R := sumn 3 (fun x => (sumn n (fun k => e (3 * k + x)%nat)) ^ 2).
