(** Words for .phonon files (C46, C48).  Only the interface [parser] and the record [atom] of
    the model are used. *)
From Verif Require Import Base M_phonon.
Open Scope Z_scope.

(** What the file says about one block: number, q-point, direction (LO-TO split), weight,
    frequencies, and the six numbers of each eigenvector line. *)
Record qdata := { num : Z; pt : list R; wt : R; direction : option (list R); freqs : list R; vecs : list (list R) }.
(** The lines of one block. *)
Record fblock (L : Type) := { ql : L; fls : list L; lab1 : L; lab2 : L; els : list L }.
Arguments ql {L}. Arguments fls {L}. Arguments lab1 {L}. Arguments lab2 {L}. Arguments els {L}.
Definition lines_of {L} (b : fblock L) : list L := ql b :: fls b ++ [lab1 b; lab2 b] ++ els b.
Definition says {L} (P : parser L) (na nb : nat) (b : fblock L) (d : qdata) : Prop :=
  q_id P (ql b) = Some (num d) /\ 0 <= num d /\ length (pt d) = 3%nat /\
  q_floats P (ql b) = pt d ++ wt d :: match direction d with None => [] | Some v => v end /\
  (forall v, direction d = Some v -> length v = 3%nat) /\
  length (fls b) = nb /\ Forall2 (fun l x => freq_of P l = Some x) (fls b) (freqs d) /\
  length (els b) = (na * nb)%nat /\ Forall2 (fun l x => evec_row P l = Some x /\ length x = 6%nat) (els b) (vecs d).

(** The header: [hna], [hnb], [hnq] announce the numbers of atoms, branches and q-points. *)
Record header (L : Type) := { h0 : L; hna : L; hnb : L; hnq : L; hmore : list L; hcell : L; hvec : list L; hlab : L; hat : list L; hend : L }.
Arguments h0 {L}. Arguments hna {L}. Arguments hnb {L}. Arguments hnq {L}. Arguments hmore {L}. Arguments hcell {L}. Arguments hvec {L}. Arguments hlab {L}. Arguments hat {L}. Arguments hend {L}.
Definition header_lines {L} (h : header L) : list L :=
  [h0 h; hna h; hnb h; hnq h] ++ hmore h ++ [hcell h] ++ hvec h ++ [hlab h] ++ hat h ++ [hend h].
Definition header_says {L} (P : parser L) (h : header L) (na nb nq : nat) (cell : list (list R)) (ats : list atom) : Prop :=
  (0 < na)%nat /\ (0 < nb)%nat /\
  last_int P (hna h) = Some (Z.of_nat na) /\ last_int P (hnb h) = Some (Z.of_nat nb) /\ last_int P (hnq h) = Some (Z.of_nat nq) /\
  (forall x, In x (hmore h) -> has_ucv P x = false) /\ has_ucv P (hcell h) = true /\
  length (hvec h) = 3%nat /\ Forall2 (fun l x => cell_row P l = Some x /\ length x = 3%nat) (hvec h) cell /\
  length (hat h) = na /\ Forall2 (fun l x => atom_row P l = Some x) (hat h) ats.

(** The blocks with the same number as block i. *)
Definition group (ids : list Z) (i : nat) : list nat := filter (fun j => nth j ids 0 =? nth i ids 0) (seq 0 (length ids)).
(** Blocks of the same number follow each other. *)
Definition contiguous (ids : list Z) : Prop :=
  forall i j k, (i <= j)%nat -> (j <= k)%nat -> (k < length ids)%nat -> nth i ids 0 = nth k ids 0 -> nth j ids 0 = nth i ids 0.
Definition split_at (ds : list qdata) (i : nat) : bool := match nth_error ds i with Some d => match direction d with Some _ => true | None => false end | None => false end.

(** A concrete kind of line, for the examples: what the line says is its value. *)
Inductive line := Text | Count (n : Z) | UnitCell | CellRow (v : list R) | AtomLine (a : atom) | QLine (i : Z) (v : list R) | FreqLine (x : R) | VecLine (v : list R).
Definition printed : parser line :=
  {| last_int := fun l => match l with Count n => Some n | _ => None end;
     has_ucv := fun l => match l with UnitCell => true | _ => false end;
     cell_row := fun l => match l with CellRow v => Some v | _ => None end;
     atom_row := fun l => match l with AtomLine a => Some a | _ => None end;
     q_id := fun l => match l with QLine i _ => Some i | _ => None end;
     q_floats := fun l => match l with QLine _ v => v | _ => [] end;
     freq_of := fun l => match l with FreqLine x => Some x | _ => None end;
     evec_row := fun l => match l with VecLine v => Some v | _ => None end |}.
Definition print_header (na nb nq : nat) (cell : list (list R)) (ats : list atom) : header line :=
  {| h0 := Text; hna := Count (Z.of_nat na); hnb := Count (Z.of_nat nb); hnq := Count (Z.of_nat nq); hmore := [Text; Text]; hcell := UnitCell; hvec := map CellRow cell; hlab := Text; hat := map AtomLine ats; hend := Text |}.
Definition print_block (d : qdata) : fblock line :=
  {| ql := QLine (num d) (pt d ++ wt d :: match direction d with None => [] | Some v => v end); fls := map FreqLine (freqs d); lab1 := Text; lab2 := Text; els := map VecLine (vecs d) |}.
(** One atom in a unit cube; three modes. *)
Definition cube : list (list R) := [[1; 0; 0]; [0; 1; 0]; [0; 0; 1]]%R.
Definition one_atom : list atom := [{| at_r := [0; 0; 0]%R; at_type := [83; 105]; at_mass := 28%R |}].
Definition sample (i : Z) (q w : R) (dir : option (list R)) : qdata :=
  {| num := i; pt := [q; 0; 0]%R; wt := w; direction := dir; freqs := [1; 2; 3]%R; vecs := [[1; 0; 0; 0; 0; 0]; [0; 0; 1; 0; 0; 0]; [0; 0; 0; 0; 1; 0]]%R |}.
