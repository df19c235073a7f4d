(** Specification vocabulary for the Fourier-interpolation properties
    (C06, C10, C11).  Independent of the image search and phase code. *)
From Verif Require Import Base Cpx Vec3 M_grid M_dynmat.
Open Scope R_scope.

(** Two cells are the same cell of the periodic supercell. *)
Definition same_mod_supercell (sc : Z3 * Z3 * Z3) (r s : Z3) : Prop :=
  exists m : Z3, s = zadd3 r (zmul3 m sc).

(** Cartesian position of atom j in the cell at lattice vector r. *)
Definition atom_pos (d : fcdata) (r : Z3) (j : nat) : V3 :=
  vmul (vadd (zvec r) (nth j (f_atom_r d) vzero)) (f_cell d).

(** Lattice vector r is an accepted image for the pair (i in the home cell, j):
    the vector between the two atoms is no more than (0.1% over) half way to
    each of the 26 neighbouring supercell points. *)
Definition neighbour (f : Z3) : Prop :=
  f <> (0,0,0)%Z /\ let '(x, y, z) := f in (-1 <= x <= 1 /\ -1 <= y <= 1 /\ -1 <= z <= 1)%Z.
Definition near_image (d : fcdata) (i j : nat) (r : Z3) : Prop :=
  forall f, neighbour f ->
    let w := vmul (zvec f) (sc_vecs d) in
    Rabs (dot (vsub (atom_pos d (0,0,0)%Z i) (atom_pos d r j)) w)
    <= (1/2 + 1/1000) * dot w w.

(** Lattice vector r is a closest periodic image of cell s for the pair (i, j). *)
Definition closest_image (d : fcdata) (s : Z3) (i j : nat) (r : Z3) : Prop :=
  same_mod_supercell (f_sc d) s r /\
  forall r', same_mod_supercell (f_sc d) s r' ->
    norm (vsub (atom_pos d (0,0,0)%Z i) (atom_pos d r j)) <= norm (vsub (atom_pos d (0,0,0)%Z i) (atom_pos d r' j)).

Definition in_search_range (m : Z3) : Prop :=
  let '(x, y, z) := m in (-2 <= x <= 2 /\ -2 <= y <= 2 /\ -2 <= z <= 2)%Z.

(** The supercell search range is wide enough for this crystal. *)
Definition search_complete (d : fcdata) : Prop :=
  forall nc i j m, (nc < n_cells d)%nat -> (i < n_atoms d)%nat -> (j < n_atoms d)%nat ->
    near_image d i j (zadd3 (nth nc (f_origins d) (0,0,0)%Z) (zmul3 m (f_sc d))) ->
    in_search_range m.

(** Force constants between i in the home cell and j in cell r equal those
    between j in the home cell and i in cell -r (equality of mixed second
    derivatives plus lattice periodicity). [p] names the cell at -r. *)
Definition fc_symmetric (d : fcdata) : Prop :=
  exists p : nat -> nat,
    (forall nc, (nc < n_cells d)%nat -> (p nc < n_cells d)%nat /\ p (p nc) = nc /\
       same_mod_supercell (f_sc d) (zopp3 (nth nc (f_origins d) (0,0,0)%Z))
         (nth (p nc) (f_origins d) (0,0,0)%Z)) /\
    (forall nc a b, (nc < n_cells d)%nat -> (a < 3 * n_atoms d)%nat ->
       (b < 3 * n_atoms d)%nat -> f_fc d nc a b = f_fc d (p nc) b a).

(** The first listed cell is the home cell. *)
Definition home_first (d : fcdata) : Prop := nth 0 (f_origins d) (0,0,0)%Z = (0,0,0)%Z.

(** Supercell with mutually orthogonal, non-zero edges. *)
Definition orthogonal_supercell (d : fcdata) : Prop :=
  let '(a, b, c) := sc_vecs d in
  dot a b = 0 /\ dot b c = 0 /\ dot a c = 0 /\
  0 < dot a a /\ 0 < dot b b /\ 0 < dot c c.

(** Every atom of the supercell lies inside the supercell box: its fractional
    supercell coordinates are in [0, 1). *)
Definition inside_supercell (d : fcdata) : Prop :=
  forall nc j, (nc < n_cells d)%nat -> (j < n_atoms d)%nat ->
    exists s : V3, let '(x, y, z) := s in
      atom_pos d (nth nc (f_origins d) (0,0,0)%Z) j = vmul s (sc_vecs d) /\
      0 <= x < 1 /\ 0 <= y < 1 /\ 0 <= z < 1.

(** Fourier sum in which force constant [nc] is shared equally among the
    lattice vectors [L nc i j]. *)
Definition fourier_sum (d : fcdata) (L : nat -> nat -> nat -> list Z3)
  (q : V3) (a b : nat) : C :=
  Csum (seq 0 (n_cells d)) (fun nc =>
    Csum (L nc (a / 3) (b / 3))%nat (fun r =>
      Cscal (f_fc d nc a b / INR (length (L nc (a / 3) (b / 3))%nat))
            (cis (2 * PI * dot q (zvec r))))).

(** Derivative of a complex function of a real variable. *)
Definition Cderiv (f : R -> C) (t : R) (l : C) : Prop :=
  derivable_pt_lim (fun x => re (f x)) t (re l) /\
  derivable_pt_lim (fun x => im (f x)) t (im l).

(** Directional component of a Cartesian gradient. *)
Definition along (g : nat -> C) (v : V3) : C :=
  Cadd (Cadd (Cscal (comp v 0) (g 0%nat)) (Cscal (comp v 1) (g 1%nat)))
       (Cscal (comp v 2) (g 2%nat)).

(** [e t], [lam t] is a normalised eigenvector/eigenvalue of the matrix [M t]
    for every t, and the eigenvector is differentiable at 0. *)
Definition mode_curve (n : nat) (M : R -> nat -> nat -> C) (e : R -> nat -> C)
  (lam : R -> R) : Prop :=
  (forall t j, (j < n)%nat ->
     Csum (seq 0 n) (fun k => Cmul (M t j k) (e t k)) = Cscal (lam t) (e t j)) /\
  (forall t, sumn n (fun j => Cnorm2 (e t j)) = 1) /\
  (forall j, (j < n)%nat -> exists e', Cderiv (fun t => e t j) 0 e').

(** A supercell that is not too slanted.  n1, n2, n3 are perpendicular to its faces; for a box
    each of the three sums is the square of its volume. *)
Definition compact_supercell (d : fcdata) : Prop :=
  let '(a, b, c) := sc_vecs d in
  let n1 := cross b c in let n2 := cross c a in let n3 := cross a b in
  forall n, n = n1 \/ n = n2 \/ n = n3 ->
    Rabs (dot n n1) * dot a a + Rabs (dot n n2) * dot b b + Rabs (dot n n3) * dot c c < 399/100 * (dot a n1 * dot a n1).
