(** Words for .phonon_dos files (C72, C73).  Only the interfaces [parser], [dparser] and the
    records [atom] and [header] are used. *)
From Verif Require Import Base M_phonon S_phonon M_phdos.
Open Scope Z_scope.

(** What the file says about one q-point, and the lines that say it.  The gradients are the
    third word of a line of frequencies, or the fourth where the q-point has a direction. *)
Record gdata := { gpt : list R; gwt : R; gdir : list R; gfr : list R; ggr : list R }.
Record glines (L : Type) := { gq : L; gls : list L }.
Arguments gq {L}. Arguments gls {L}.
Definition gsays {L} (P : dparser L) (nb : nat) (b : glines L) (d : gdata) : Prop :=
  end_gradients P (gq b) = false /\ q_id (base P) (gq b) <> None /\ length (gpt d) = 3%nat /\
  q_floats (base P) (gq b) = gpt d ++ gwt d :: gdir d /\ ((n_words P (gq b) <= 6)%nat <-> gdir d = []) /\
  length (gls b) = nb /\ Forall2 (fun l x => freq_of (base P) l = Some x) (gls b) (gfr d) /\
  Forall2 (fun l x => word P l (match gdir d with [] => 2 | _ => 3 end)%nat = Some x) (gls b) (ggr d).

(** The parts of a file.  The last of the four counts announces the number of bins. *)
Record dfile (L : Type) := { f_head : header L; f_species : L; f_begin : L; f_blocks : list (glines L); f_end : L; f_dos : L; f_rows : list L; f_tail : list L }.
Arguments f_head {L}. Arguments f_species {L}. Arguments f_begin {L}. Arguments f_blocks {L}. Arguments f_end {L}. Arguments f_dos {L}. Arguments f_rows {L}. Arguments f_tail {L}.
Definition glines_of {L} (b : glines L) : list L := gq b :: gls b.
Definition dfile_lines {L} (x : dfile L) : list L :=
  let h := f_head x in
  [h0 h; hna h; f_species x; hnb h; hnq h] ++ hmore h ++ [hcell h] ++ hvec h ++ [hlab h] ++ hat h ++ [hend h] ++ [f_begin x] ++
  flat_map glines_of (f_blocks x) ++ [f_end x; f_dos x] ++ f_rows x ++ f_tail x.
(** The lines of the table that are not blank. *)
Definition written {L} (P : dparser L) (l : L) : bool := match table_row P l with Blank => false | _ => true end.
Definition dfile_says {L} (P : dparser L) (x : dfile L) (na nb nbins : nat) (cell : list (list R)) (ats : list atom) (ds : list gdata) (rows : list (list R)) : Prop :=
  header_says (base P) (f_head x) na nb nbins cell ats /\ (1 < nb)%nat /\ last_int (base P) (f_species x) <> None /\
  Forall2 (gsays P nb) (f_blocks x) ds /\ end_gradients P (f_end x) = true /\ begin_dos P (f_dos x) = true /\
  Forall2 (fun l v => table_row P l = Row v) (filter (written P) (f_rows x)) rows.

(** Species number k, in order of first appearance in the list of atoms, is s. *)
Definition nth_species (types : list (list Z)) (k : nat) (s : list Z) : Prop :=
  exists before after, types = before ++ s :: after /\ ~ In s before /\ length (nodup (list_eq_dec Z.eq_dec) before) = k.
Definition n_species (types : list (list Z)) : nat := length (nodup (list_eq_dec Z.eq_dec) types).
(** The table has a frequency, the total and one column for each species. *)
Definition wide_table (types : list (list Z)) (rows : list (list R)) : Prop :=
  exists w, (2 + n_species types <= w)%nat /\ forall r, In r rows -> length r = w.
(** Column c of the table in other units. *)
Definition scaled_column (c : nat) (k : R) (rows : list (list R)) : list R := map (fun r => (nth c r 0 * k)%R) rows.
(** Area under a curve given at points: values times the steps to the next point. *)
Fixpoint area (x y : list R) : R :=
  match x, y with a :: ((b :: _) as x'), v :: y' => (v * (b - a) + area x' y')%R | _, _ => 0%R end.
Definition Total : list Z := [84; 111; 116; 97; 108].

(** A concrete kind of line, for the examples. *)
Inductive dline := DText | DCount (n : Z) | DCell | DVec (v : list R) | DAtom (a : atom) | DQ (i : Z) (v : list R) | DMode (v : list R) | DEnd | DBegin | DRow (v : list R) | DBlank.
Definition printed_dos : dparser dline :=
  {| base := {| last_int := fun l => match l with DCount n => Some n | _ => None end;
                has_ucv := fun l => match l with DCell => true | _ => false end;
                cell_row := fun l => match l with DVec v => Some v | _ => None end;
                atom_row := fun l => match l with DAtom a => Some a | _ => None end;
                q_id := fun l => match l with DQ i _ => Some i | _ => None end;
                q_floats := fun l => match l with DQ _ v => v | _ => [] end;
                freq_of := fun l => match l with DMode v => nth_error v 1 | _ => None end;
                evec_row := fun _ => None |};
     n_words := fun l => match l with DQ _ v => (2 + length v)%nat | _ => 0%nat end;
     word := fun l k => match l with DMode v => nth_error v k | _ => None end;
     end_gradients := fun l => match l with DEnd => true | _ => false end;
     begin_dos := fun l => match l with DBegin => true | _ => false end;
     table_row := fun l => match l with DRow v => Row v | DBlank => Blank | _ => Bad end |}.
Definition print_dos_header (na nb nbins : nat) (cell : list (list R)) (ats : list atom) : header dline :=
  {| h0 := DText; hna := DCount (Z.of_nat na); hnb := DCount (Z.of_nat nb); hnq := DCount (Z.of_nat nbins); hmore := [DText]; hcell := DCell; hvec := map DVec cell; hlab := DText; hat := map DAtom ats; hend := DText |}.
(** Two atoms of two species, one q-point, three bins. *)
Definition salt : list atom := [{| at_r := [0; 0; 0]%R; at_type := [78; 97]; at_mass := 23%R |}; {| at_r := [1/2; 1/2; 1/2]%R; at_type := [67; 108]; at_mass := 35%R |}].
Definition salt_q : gdata := {| gpt := [1/4; 0; 0]%R; gwt := 1%R; gdir := []; gfr := [1; 2; 3; 4; 5; 6]%R; ggr := [7; 8; 9; 10; 11; 12]%R |}.
Definition salt_lines : glines dline := {| gq := DQ 1 [1/4; 0; 0; 1]%R; gls := map DMode [[1; 1; 7]; [2; 2; 8]; [3; 3; 9]; [4; 4; 10]; [5; 5; 11]; [6; 6; 12]]%R |}.
Definition salt_rows : list (list R) := [[0; 3; 1; 2]; [100; 5; 4; 1]; [200; 2; 1; 1]]%R.
(** [n] bins announced. *)
Definition salt_file (n : nat) : dfile dline :=
  {| f_head := print_dos_header 2 6 n cube salt; f_species := DCount 2; f_begin := DText; f_blocks := [salt_lines]; f_end := DEnd; f_dos := DBegin; f_rows := DBlank :: map DRow salt_rows; f_tail := [] |}.
