(** What a CASTEP binary file holds and how Fortran writes it (C47, C63). *)
From Coq Require Import String Ascii.
From Verif Require Import Base S_fortran.
Open Scope Z_scope.

(** Column-major order: the first index changes fastest. *)
Definition array2 {A} (n m : nat) (a : nat -> nat -> A) : list A := flat_map (fun j => map (fun i => a i j) (seq 0 n)) (seq 0 m).
Definition array3 {A} (n m k : nat) (a : nat -> nat -> nat -> A) : list A := flat_map (fun c => array2 n m (fun i j => a i j c)) (seq 0 k).

(** The contents: reals and names as their eight bytes. *)
Record contents := {
  species : nat;                                 (* number of species *)
  per_species : nat -> nat;                      (* ions in each species *)
  lattice : nat -> nat -> list Z;                (* real_lattice(i,j): component j of vector i *)
  position : nat -> nat -> nat -> list Z;        (* ionic_positions(x, ion, species) *)
  mass : nat -> list Z; symbol : nat -> list Z;  (* by species *)
  scm : nat -> nat -> Z;                         (* supercell_matrix(i,j) *)
  cells : nat;                                   (* number of unit cells in the supercell *)
  fcs : nat -> nat -> nat -> list Z;             (* force constants(i,j,cell) *)
  origin : nat -> nat -> Z;                      (* cell_origins(x, cell) *)
  fc_row : list Z;
  born : nat -> nat -> nat -> list Z;            (* born(j,i,atom) *)
  dielectric : nat -> nat -> list Z }.

Definition ions (c : contents) : nat := list_sum (map (per_species c) (seq 0 (species c))).
Definition most (c : contents) : nat := list_max (map (per_species c) (seq 0 (species c))).

Definition ints (l : list Z) : list Z := record (concat (map big_endian l)).
Definition floats (l : list (list Z)) : list Z := record (concat l).

(** White space around a header does not matter. *)
Definition space (b : Z) : Prop := b = 32 \/ 9 <= b <= 13.
Fixpoint ascii_codes (s : string) : list Z := match s with EmptyString => [] | String a s => Z.of_nat (nat_of_ascii a) :: ascii_codes s end.
Definition titled (s : string) (p : list Z) : Prop := fits p /\ exists a b, (forall x, In x (a ++ b) -> space x) /\ p = a ++ ascii_codes s ++ b.

(** The atoms in the order of the file: (species, number in the species). *)
Definition atoms (c : contents) : list (nat * nat) := flat_map (fun s => map (fun k => (s, k)) (seq 0 (per_species c s))) (seq 0 (species c)).
(** A name padded by white space. *)
Definition padded (n p : list Z) : Prop := (exists b, (forall x, In x b -> space x) /\ p = n ++ b) /\ n <> [] /\ (forall x, In x n -> ~ space x).
(** A coordinate brought into the cell. *)
Definition in_cell (x y : R) : Prop := (0 <= y < 1)%R /\ exists k : Z, x = (y + IZR k)%R.
(** The number of cells is the determinant of the supercell matrix, up to sign. *)
Definition cells_match (c : contents) : Prop :=
  let m := scm c in
  Z.of_nat (cells c) = Z.abs (m 0%nat 0%nat * m 1%nat 1%nat * m 2%nat 2%nat + m 0%nat 1%nat * m 1%nat 2%nat * m 2%nat 0%nat + m 0%nat 2%nat * m 1%nat 0%nat * m 2%nat 1%nat
                            - m 0%nat 2%nat * m 1%nat 1%nat * m 2%nat 0%nat - m 0%nat 1%nat * m 1%nat 0%nat * m 2%nat 2%nat - m 0%nat 0%nat * m 1%nat 2%nat * m 2%nat 1%nat).

(** The items of the unit cell block; [Skip p] is any other record. *)
Inductive cell_item := Skip (p : list Z) | NumIons | Lattice | NumSpecies | NumInSpecies | Positions | Masses | Symbols.
Definition cell_titles : list string := ["END_UNIT_CELL"; "CELL%NUM_IONS"; "CELL%REAL_LATTICE"; "CELL%NUM_SPECIES"; "CELL%NUM_IONS_IN_SPECIES"; "CELL%IONIC_POSITIONS"; "CELL%SPECIES_MASS"; "CELL%SPECIES_SYMBOL"]%string.
Definition main_titles : list string := ["END"; "BEGIN_PARAMETERS_DUMP"; "BEGIN_UNIT_CELL"; "FORCE_CON"; "BORN_CHGS"; "DIELECTRIC"]%string.

Definition cell_title (i : cell_item) : string := match i with
  | Skip _ => "" | NumIons => "CELL%NUM_IONS" | Lattice => "CELL%REAL_LATTICE" | NumSpecies => "CELL%NUM_SPECIES"
  | NumInSpecies => "CELL%NUM_IONS_IN_SPECIES" | Positions => "CELL%IONIC_POSITIONS" | Masses => "CELL%SPECIES_MASS" | Symbols => "CELL%SPECIES_SYMBOL" end%string.
Definition cell_body (c : contents) (i : cell_item) : list Z := match i with
  | Skip _ => []
  | NumIons => ints [Z.of_nat (ions c)]
  | Lattice => floats (array2 3 3 (lattice c))
  | NumSpecies => ints [Z.of_nat (species c)]
  | NumInSpecies => ints (map (fun s => Z.of_nat (per_species c s)) (seq 0 (species c)))
  | Positions => floats (array3 3 (most c) (species c) (position c))
  | Masses => floats (map (mass c) (seq 0 (species c)))
  | Symbols => floats (map (symbol c) (seq 0 (species c))) end.
(** [writes_cell c items f]: f is the block of these items, ended by END_UNIT_CELL. *)
Inductive writes_cell (c : contents) : list cell_item -> list Z -> Prop :=
  | cell_end : forall p, titled "END_UNIT_CELL" p -> writes_cell c [] (record p)
  | cell_skip : forall p l f, fits p -> (forall s, In s cell_titles -> ~ titled s p) -> writes_cell c l f -> writes_cell c (Skip p :: l) (record p ++ f)
  | cell_more : forall i p l f, (forall q, i <> Skip q) -> titled (cell_title i) p -> writes_cell c l f -> writes_cell c (i :: l) (record p ++ cell_body c i ++ f).

Inductive main_item := Other (p : list Z) | Params (v : list Z) | Cell (l : list cell_item) | ForceCon | Born | Dielectric.
Definition fc_body (c : contents) : list Z :=
  let n := (3 * ions c)%nat in
  ints (array2 3 3 (scm c)) ++ floats (array3 n n (cells c) (fcs c)) ++ ints (array2 3 (cells c) (origin c)) ++ ints (fc_row c).
(** [seen]: a unit cell block came before, so that further BEGIN_UNIT_CELL records count as
    any other record. *)
Inductive writes (c : contents) : bool -> list main_item -> list Z -> Prop :=
  | w_end : forall seen p, titled "END" p -> writes c seen [] (record p)
  | w_other : forall (seen : bool) p l f, fits p -> (forall s, In s main_titles -> (seen = true -> s <> "BEGIN_UNIT_CELL"%string) -> ~ titled s p) -> writes c seen l f -> writes c seen (Other p :: l) (record p ++ f)
  | w_params : forall seen p v l f, titled "BEGIN_PARAMETERS_DUMP" p -> fits v -> writes c seen l f -> writes c seen (Params v :: l) (record p ++ record v ++ f)
  | w_cell : forall p its g l f, titled "BEGIN_UNIT_CELL" p -> writes_cell c its g -> writes c true l f -> writes c false (Cell its :: l) (record p ++ g ++ f)
  | w_fc : forall seen p l f, titled "FORCE_CON" p -> writes c seen l f -> writes c seen (ForceCon :: l) (record p ++ fc_body c ++ f)
  | w_born : forall seen p l f, titled "BORN_CHGS" p -> writes c seen l f -> writes c seen (Born :: l) (record p ++ floats (array3 3 3 (ions c) (born c)) ++ f)
  | w_diel : forall seen p l f, titled "DIELECTRIC" p -> writes c seen l f -> writes c seen (Dielectric :: l) (record p ++ floats (array2 3 3 (dielectric c)) ++ f).

(** The order dependencies: counts before the data they dimension. *)
Definition before {A} (a : A) (P : A -> Prop) (l : list A) : Prop := forall l1 b l2, l = l1 ++ b :: l2 -> P b -> In a l1.
Definition good_cell (l : list cell_item) : Prop :=
  In NumIons l /\ In Lattice l /\ In NumSpecies l /\ In NumInSpecies l /\ In Positions l /\ In Masses l /\ In Symbols l /\
  before NumSpecies (fun i => i = NumInSpecies \/ i = Masses \/ i = Symbols) l /\ before NumInSpecies (fun i => i = Positions) l.
Definition good_main (l : list main_item) : Prop :=
  (exists its, In (Cell its) l /\ good_cell its) /\ In ForceCon l /\
  forall l1 b l2, l = l1 ++ b :: l2 -> b = ForceCon \/ b = Born -> exists its, In (Cell its) l1.

(** Sizes: items of eight bytes, 32-bit integers, records below 2 GiB. *)
Definition sized (c : contents) : Prop :=
  (0 < species c)%nat /\ (forall s, (s < species c)%nat -> (0 < per_species c s)%nat) /\ (0 < cells c)%nat /\
  (forall i j, length (lattice c i j) = 8%nat) /\ (forall x a s, length (position c x a s) = 8%nat) /\ (forall s, length (mass c s) = 8%nat) /\
  (forall s, length (symbol c s) = 8%nat) /\ (forall i j a, length (fcs c i j a) = 8%nat) /\ (forall j i a, length (born c j i a) = 8%nat) /\
  (forall i j, length (dielectric c i j) = 8%nat) /\ (forall i j, int32 (scm c i j)) /\ (forall x a, int32 (origin c x a)) /\
  fc_row c <> [] /\ (forall z, In z (fc_row c) -> int32 z) /\ Z.of_nat (length (fc_row c)) * 4 < 2147483648 /\
  Z.of_nat (72 * ions c * ions c * cells c) < 2147483648 /\ Z.of_nat (24 * most c * species c) < 2147483648 /\ Z.of_nat (12 * cells c) < 2147483648.
