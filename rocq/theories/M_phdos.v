(** Model of the .phonon_dos reader, /repo/euphonic/readers/castep.py 13-118
    [read_phonon_dos_data] with 330-413 [_read_frequency_block(s)] for extra_columns [0] and
    the terminator ' END GRADIENTS', and of the two [from_castep_phonon_dos] of
    /repo/euphonic/spectra.py 551-575 and 1273-1296.
    A file is the list of its lines as in M_phonon; what Python makes of a line is the
    argument [P].  Simplifications: the unit conversions of pint are the factors [k_freq]
    (1/cm to frequencies_unit), [k_len] (angstrom to cell_vectors_unit) and [k_dos]
    (1/(1/cm) to 1/frequencies_unit); negative counts are an error; ragged tables are an
    error (np.loadtxt raises ValueError); comment lines do not occur. *)
From Verif Require Import Base M_qpts M_phonon.
Open Scope Z_scope.

(** What np.loadtxt makes of a line: nothing (blank), a row of floats, or a ValueError. *)
Inductive trow := Blank | Row (v : list R) | Bad.
Record dparser (L : Type) := {
  base : parser L;
  n_words : L -> nat;             (* len(line.split()) *)
  word : L -> nat -> option R;    (* float(line.split()[k]) *)
  end_gradients : L -> bool;      (* line == ' END GRADIENTS\n' *)
  begin_dos : L -> bool;          (* 'BEGIN DOS' in line *)
  table_row : L -> trow }.
Arguments base {L}. Arguments n_words {L}. Arguments word {L}. Arguments end_gradients {L}. Arguments begin_dos {L}. Arguments table_row {L}.

Inductive derr :=
  | Parse       (* IndexError or ValueError while parsing *)
  | Endless     (* the loop of castep.py:302 never ends *)
  | NoDos.      (* RuntimeError, castep.py:71 *)
Definition derr_of (e : perr) : derr := match e with Hang => Endless | _ => Parse end.

Section Reader.
Context {L : Type}.
Variable P : dparser L.

Record gblock := { g_id : Z; g_qpt : list R; g_weight : R; g_freqs : list R; g_grads : list R }.
(** castep.py:330-404 with extra_columns [0]: the gradients are in column 2 of the lines of
    frequencies, or 3 if the q-point line has more than six words. *)
Definition read_gradient_block (n_branches : nat) (f : list L) : res (option gblock * list L) derr :=
  let '(ql, f1) := readline f in
  match ql with
  | None => Err Parse                                     (* '' is not the terminator; re.findall gives [] *)
  | Some q =>
    if end_gradients P q then Ok (None, f1) else
    match q_id (base P) q with
    | None => Err Parse
    | Some i =>
      let fl := q_floats (base P) q in
      match nth_error fl 3 with
      | None => Err Parse
      | Some w =>
        let '(lines, f2) := readlines n_branches f1 in
        match parse_all None (freq_of (base P)) lines with
        | Err e => Err (derr_of e)
        | Ok fr =>
          let col := (1 + (if Nat.ltb 6 (n_words P q) then 0 + 1 else 0) + 1)%nat in
          match parse_all None (fun l => word P l col) lines with
          | Err e => Err (derr_of e)
          | Ok gr => Ok (Some {| g_id := i; g_qpt := firstn 3 fl; g_weight := w; g_freqs := fr; g_grads := gr |}, f2)
          end
        end
      end
    end
  end.

(** castep.py:52-68.  With one branch squeeze gives a number and np.concatenate raises; a
    q-point of fewer than three numbers cannot occur since the fourth was read. *)
Fixpoint read_gradients (fuel : nat) (n_branches : nat) (f : list L) : res (list gblock * list L) derr :=
  match fuel with
  | O => Err Endless
  | S fuel =>
    match read_gradient_block n_branches f with
    | Err e => Err e
    | Ok (None, f1) => Ok ([], f1)
    | Ok (Some b, f1) =>
      if Nat.eqb n_branches 1 then Err Parse else
      match read_gradients fuel n_branches f1 with Err e => Err e | Ok (bs, f2) => Ok (b :: bs, f2) end
    end
  end.

(** castep.py:74 [np.loadtxt(f, max_rows=n)]: at most n rows; fewer if the file ends. *)
Fixpoint load_rows (n : nat) (f : list L) : res (list (list R)) derr :=
  match n with
  | O => Ok []
  | S m =>
    (fix go (f : list L) : res (list (list R)) derr :=
       match f with
       | [] => Ok []
       | x :: r => match table_row P x with
                   | Blank => go r
                   | Bad => Err Parse
                   | Row v => match load_rows m r with Err e => Err e | Ok l => Ok (v :: l) end
                   end
       end) f
  end.
(** The table must have two dimensions: np.loadtxt gives one for a single row or column and
    [dos_data[:, 0]] then raises IndexError. *)
Definition loadtxt (n : nat) (f : list L) : res (list (list R)) derr :=
  match load_rows n f with
  | Err e => Err e
  | Ok rows => if (Nat.leb 2 (length rows) && Nat.leb 2 (length (hd [] rows)) && same_length (length (hd [] rows)) rows)%bool
               then Ok rows else Err Parse
  end.
End Reader.

(** castep.py:112-113: np.unique gives the first index of each type; sorted, these are the
    indices of atoms whose type has not been seen before. *)
Fixpoint list_Z_eqb (a b : list Z) : bool :=
  match a, b with [], [] => true | x :: a, y :: b => ((x =? y) && list_Z_eqb a b)%bool | _, _ => false end.
Fixpoint unique_types (seen : list (list Z)) (types : list (list Z)) : list (list Z) :=
  match types with
  | [] => []
  | t :: types => if existsb (list_Z_eqb t) seen then unique_types seen types else t :: unique_types (t :: seen) types
  end.

(** dos_dict: names and values in order of insertion. *)
Definition total_name : list Z := [84; 111; 116; 97; 108].
Fixpoint dict_set {A} (k : list Z) (v : A) (d : list (list Z * A)) : list (list Z * A) :=
  match d with [] => [(k, v)] | (k', v') :: d => if list_Z_eqb k k' then (k', v) :: d else (k', v') :: dict_set k v d end.
Fixpoint dict_get {A} (k : list Z) (d : list (list Z * A)) : option A :=
  match d with [] => None | (k', v) :: d => if list_Z_eqb k k' then Some v else dict_get k d end.
(** dos_data[:, i] * factor; IndexError if the table is too narrow *)
Definition column (i : nat) (factor : R) (rows : list (list R)) : res (list R) derr :=
  if Nat.ltb i (length (hd [] rows)) then Ok (map (fun r => (nth i r 0 * factor)%R) rows) else Err Parse.
Fixpoint add_species (i : nat) (names : list (list Z)) (factor : R) (rows : list (list R)) (d : list (list Z * list R)) : res (list (list Z * list R)) derr :=
  match names with
  | [] => Ok d
  | s :: names => match column (i + 2) factor rows with Err e => Err e | Ok c => add_species (S i) names factor rows (dict_set s c d) end
  end.

Record factors := { k_freq : R; k_len : R; k_dos : R }.
(** A unit is a name here; the product is the string frequencies_unit + '*' + cell_vectors_unit. *)
Inductive unit_name := U (n : nat) | UTimes (a b : unit_name) | UInv (a : unit_name).
Record phdos := { d_cell : list (list R); d_atoms : list atom; d_blocks : list gblock; d_grad_unit : unit_name;
                  d_bins : list R; d_bins_unit : unit_name; d_dos : list (list Z * list R); d_dos_unit : unit_name }.

(** castep.py:13-118.  [mode_gradients_unit] is an argument of the function and is not used. *)
Definition read_phonon_dos_data {L} (P : dparser L) (k : factors) (cell_unit freq_unit mode_gradients_unit : unit_name) (f : list L) : res phdos derr :=
  let '(_, f1) := readline f in
  let '(heads, f2) := readlines 4 f1 in
  match parse_all None (last_int (base P)) heads with
  | Err e => Err (derr_of e)
  | Ok ns =>
    match ns with
    | [na; _; nb; nbins] =>
      if ((na <? 0) || (nb <? 0) || (nbins <? 0))%bool then Err Parse else
      match read_crystal_info (base P) (Z.to_nat na) f2 with
      | Err e => Err (derr_of e)
      | Ok ((cell, ats), f3) =>
        let '(_, f4) := readline f3 in
        match read_gradients P (S (length f4)) (Z.to_nat nb) f4 with
        | Err e => Err e
        | Ok (blocks, f5) =>
          let '(line, f6) := readline f5 in
          if match line with None => false | Some x => begin_dos P x end then
            match loadtxt P (Z.to_nat nbins) f6 with
            | Err e => Err e
            | Ok rows =>
              match column 1 (k_dos k) rows with
              | Err e => Err e
              | Ok total =>
                match add_species 0 (unique_types [] (map at_type ats)) (k_dos k) rows [(total_name, total)] with
                | Err e => Err e
                | Ok dos =>
                  Ok {| d_cell := map (map (fun x => (x * k_len k)%R)) cell; d_atoms := ats;
                        d_blocks := map (fun b => {| g_id := g_id b; g_qpt := g_qpt b; g_weight := g_weight b;
                                                     g_freqs := map (fun x => (x * k_freq k)%R) (g_freqs b);
                                                     g_grads := map (fun x => (x * k_len k * k_freq k)%R) (g_grads b) |}) blocks;
                        d_grad_unit := UTimes freq_unit cell_unit;
                        d_bins := map (fun r => (nth 0 r 0 * k_freq k)%R) rows; d_bins_unit := freq_unit;
                        d_dos := dos; d_dos_unit := UInv freq_unit |}
                end
              end
            end
          else Err NoDos
        end
      end
    | _ => Err Parse
    end
  end.

(** What describes a line of a spectrum: metadata 'species' and 'label'. *)
Record line_meta := { l_species : option (list Z); l_label : list Z }.
Inductive serr := Read (e : derr) | KeyError.
(** spectra.py:551-575 [Spectrum1D.from_castep_phonon_dos]: x, y, metadata *)
Definition spectrum_of {L} (P : dparser L) (k : factors) (cu fu gu : unit_name) (f : list L) (element : option (list Z)) : res (list R * list R * line_meta) serr :=
  match read_phonon_dos_data P k cu fu gu f with
  | Err e => Err (Read e)
  | Ok d =>
    let '(name, m) := match element with None => (total_name, {| l_species := None; l_label := total_name |})
                                       | Some e => (e, {| l_species := Some e; l_label := e |}) end in
    match dict_get name (d_dos d) with None => Err KeyError | Some y => Ok (d_bins d, y, m) end
  end.
(** spectra.py:1273-1296 [Spectrum1DCollection.from_castep_phonon_dos]: x and the lines *)
Definition collection_of {L} (P : dparser L) (k : factors) (cu fu gu : unit_name) (f : list L) : res (list R * list (list R * line_meta)) serr :=
  match read_phonon_dos_data P k cu fu gu f with
  | Err e => Err (Read e)
  | Ok d => Ok (d_bins d, map (fun p => (snd p, {| l_species := if list_Z_eqb (fst p) total_name then None else Some (fst p); l_label := fst p |})) (d_dos d))
  end.
