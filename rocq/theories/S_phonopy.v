(** Specification vocabulary for C67-C70: the crystal a Phonopy summary file describes. *)
From Coq Require Import String Sorted.
From Verif Require Import Base Vec3 M_grid M_dynmat M_struct M_phonopy.
Open Scope R_scope.

(** C = A B, as row vectors times matrices *)
Definition product (C A B : M3) : Prop := forall v, vmul v C = vmul (vmul v A) B.
Definition within (tol : R) (v : V3) : Prop := let '(x, y, z) := v in Rabs x <= tol /\ Rabs y <= tol /\ Rabs z <= tol.
Definition in_unit_cell (v : V3) : Prop := let '(x, y, z) := v in (0 <= x < 1) /\ (0 <= y < 1) /\ (0 <= z < 1).

(** Point s of the supercell is a copy of point r of the supercell (reduced_to counts from 1) *)
Definition copy_of (f : summary) (s r : nat) : Prop :=
  exists p, nth_error (s_sc_points f) s = Some p /\ pt_reduced p = Some (Z.of_nat (S r)).
(** Every point is a copy of itself or of an earlier point that is a copy of itself *)
Definition well_numbered (f : summary) : Prop :=
  forall s, (s < length (s_sc_points f))%nat -> exists r, (r <= s)%nat /\ copy_of f s r /\ copy_of f r r.
(** reps lists, in order, the points standing for the atoms of the primitive cell *)
Definition representatives (f : summary) (reps : list nat) : Prop :=
  StronglySorted lt reps /\ (forall r, In r reps <-> copy_of f r r) /\ length reps = length (s_points f).
Definition sc_r (f : summary) (s : nat) : V3 := nth s (map pt_r (s_sc_points f)) vzero.

(** U: vectors (rows) of the unit cell; L: of the supercell; K: the supercell in primitive cells.
    In Phonopy both matrices act on columns: (as bs cs) = (a b c) supercell_matrix,
    (ap bp cp) = (a b c) primitive_matrix. *)
Definition identity3 : M3 := ((1, 0, 0), (0, 1, 0), (0, 0, 1)).
Definition prim_matrix (f : summary) : M3 := match s_primitive_matrix f with Some p => p | None => identity3 end.
Definition lattices (f : summary) (U L : M3) (K : Z3 * Z3 * Z3) : Prop :=
  product (s_lattice f) (transpose (prim_matrix f)) U /\
  product L (transpose (zrows (s_supercell_matrix f))) U /\
  product L (zrows K) (s_lattice f) /\
  det3 U <> 0 /\ det3 (prim_matrix f) <> 0.
Definition symmetric_z (m : Z3 * Z3 * Z3) : Prop := transpose (zrows m) = zrows m.

(** No two copies of an atom coincide (within tol) modulo the supercell *)
Definition separate (f : summary) (K : Z3 * Z3 * Z3) (tol : R) : Prop :=
  forall s s' r (m : Z3), copy_of f s r -> copy_of f s' r -> s <> s' ->
  ~ within tol (vmul (vsub (vsub (sc_r f s) (sc_r f s')) (zvec m)) (zrows K)).

(** The force constant the file gives for primitive atom i and supercell point s: full force
    constants have a row for every point of the supercell, compact ones for every atom *)
Definition file_value (f : summary) (fc : fcarr) (reps : list nat) (i s a b : nat) : R :=
  fa_val fc (if Nat.eqb (fa_rows fc) (length (s_sc_points f)) then nth i reps 0%nat else i) s a b.

(** The force constant between atom i and any supercell point s, a copy of atom j, is found in the
    result between atom i and atom j of a cell such that the vector from the one to the other is
    the separation of the two points in the file, up to a translation of the supercell and an
    error e below 2 tol in fractional coordinates *)
Definition placed (f : summary) (fc : fcarr) (kfc : R) (L : M3) (reps : list nat) (tol : R) (r : result) : Prop :=
  forall i j s a b, (i < length (s_points f))%nat -> (j < length (s_points f))%nat -> (a < 3)%nat -> (b < 3)%nat ->
    copy_of f s (nth j reps 0%nat) ->
  exists n (m : Z3) e, (n < length (r_origins r))%nat /\ within (2 * tol) e /\
    vadd (vmul (vadd (vadd (vsub (nth j (r_atoms r) vzero) (nth i (r_atoms r) vzero)) (zvec (nth n (r_origins r) (0,0,0)%Z))) e) (s_lattice f)) (vmul (zvec m) L)
    = vmul (vsub (sc_r f s) (sc_r f (nth i reps 0%nat))) L /\
    r_fc r n (3 * i + a)%nat (3 * j + b)%nat = file_value f fc reps i s a b * kfc.

(** C68.  Sizes of the units in the file and of those asked for, in any common system *)
Record unit_sizes := mkU { u_len : R; u_mass : R; u_fc : R; u_e : R; o_len : R; o_mass : R; o_fc : R; o_born : R; o_diel : R }.
Definition conversion (u : unit_sizes) (k : factors) : Prop :=
  o_len u <> 0 /\ o_mass u <> 0 /\ o_fc u <> 0 /\ o_born u <> 0 /\ o_diel u <> 0 /\ u_len u <> 0 /\ u_fc u <> 0 /\ u_e u <> 0 /\
  k_len k = u_len u / o_len u /\ k_mass k = u_mass u / o_mass u /\ k_fc k = u_fc u / o_fc u /\ k_born k = u_e u / o_born u /\
  k_diel k = u_e u * u_e u / (u_len u * u_len u * u_len u * u_fc u) / o_diel u.
(** The non-analytical term for the direction q (a factor 4 pi left out) *)
Definition nac_term (volume : R) (q : V3) (Z1 Z2 eps : M3) (a b : nat) : R :=
  comp (vmul q Z1) a * comp (vmul q Z2) b / (volume * dot q (mulv eps q)).

(** C71.  A FORCE_CONSTANTS file: for every row i and column j a line with their numbers, then
    three lines of three numbers *)
Definition fc_block (v : nat -> nat -> R) (i j : nat) : list (list R) :=
  [INR (S i); INR (S j)] :: map (fun a => [v a 0%nat; v a 1%nat; v a 2%nat]) [0; 1; 2]%nat.
Definition fc_text (rows cols : nat) (v : nat -> nat -> nat -> nat -> R) : list (list R) :=
  flat_map (fun i => flat_map (fun j => fc_block (v i j) i j) (seq 0 cols)) (seq 0 rows).
(** The first line: one number is enough when there are as many rows as columns *)
Definition fc_header (rows cols : nat) (header : list Z) : Prop :=
  header = [Z.of_nat rows; Z.of_nat cols] \/ rows = cols /\ header = [Z.of_nat rows].

(** C70.  The summary has Born charges, dielectric tensor and conversion factor *)
Definition complete (f : summary) : Prop := s_born f <> None /\ s_diel f <> None /\ s_nac f <> None.
