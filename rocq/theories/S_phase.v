(** Words for phase conventions (C45). *)
From Verif Require Import Base Cpx Vec3 M_cell M_dos M_sf S_sf M_grid M_dynmat S_dynmat.
Open Scope R_scope.

(** Inner product of two eigenvectors of n atoms, component x of atom a. *)
Definition inner (n : nat) (e f : nat -> nat -> C) : C :=
  Csum (seq 0 n) (fun a => Csum (seq 0 3) (fun x => Cmul (Cconj (e a x)) (f a x))).
(** Matrix times eigenvector, the matrix having rows and columns 3a+x. *)
Definition applied (n : nat) (D : nat -> nat -> C) (e : nat -> nat -> C) (a x : nat) : C :=
  Csum (seq 0 n) (fun b => Csum (seq 0 3) (fun y => Cmul (D (3 * a + x)%nat (3 * b + y)%nat) (e b y))).
Definition eigenvector (n : nat) (D : nat -> nat -> C) (e : nat -> nat -> C) (lam : R) : Prop :=
  forall a x, (a < n)%nat -> (x < 3)%nat -> applied n D e a x = Cscal lam (e a x).
(** The Fourier sum of the force constants in Phonopy's convention: the phase of a term is that
    of the vector from atom a of the home cell to the atom b of cell r, not of the cell r.
    (S_dynmat.fourier_sum is the same sum with the phase of the cell.) *)
Definition atom_phase_sum (d : fcdata) (L : nat -> nat -> nat -> list Z3) (q : V3) (a b : nat) : C :=
  let r k := nth k (f_atom_r d) vzero in
  Csum (seq 0 (n_cells d)) (fun nc => Csum (L nc (a / 3) (b / 3))%nat (fun R =>
    Cscal (f_fc d nc a b / INR (length (L nc (a / 3) (b / 3))%nat))
          (cis (2 * PI * dot q (vsub (vadd (zvec R) (r (b / 3)%nat)) (r (a / 3)%nat)))))).
(** The one-phonon structure factor written with atom-phase eigenvectors: the phase of the
    atom's position at Q is already in the eigenvector,
    | sum_a b_a/sqrt(M_a) exp(-W_a(Q)) (Q . conj e_a) |^2 / (2 N |w|). *)
Definition one_phonon_atom_phase (cell : M3) (b M : nat -> R) (N : nat) (dw : option dwaller) (ev : nat -> nat -> C) (q : V3) (w : R) : R :=
  let Q := vmul q (reciprocal_cell cell) in
  Cnorm2 (Csum (seq 0 N) (fun a => Cscal (b a / sqrt (M a) * exp (- dw_exponent dw Q a)) (Csum (seq 0 3) (fun l => Cscal (comp Q l) (Cconj (ev a l)))))) / (2 * INR N * Rabs w).
