(** Model of the .phonon reader, /repo/euphonic/readers/castep.py 121-413
    [read_phonon_data], [_read_crystal_info], [_read_frequency_block(s)].
    A file is the list of its lines; readline at the end of the file gives the empty string
    ([None]).  What Python's split, float, int and the two regular expressions make of a line
    is the argument [P]; None stands for the exception (IndexError, ValueError) raised when
    the line does not have the expected fields.
    Simplifications: units are left out; a negative number of atoms is an error; ragged rows
    are an error (NumPy >= 1.24). *)
From Verif Require Import Base M_qpts.
Open Scope Z_scope.

Record atom := { at_r : list R; at_type : list Z; at_mass : R }.
Record parser (L : Type) := {
  last_int : L -> option Z;          (* int(line.split()[-1]) *)
  has_ucv : L -> bool;               (* 'Unit cell vectors' in line *)
  cell_row : L -> option (list R);   (* [float(x) for x in line.split()[0:3]] *)
  atom_row : L -> option atom;       (* fields 1-3, 4 and 5 of line.split() *)
  q_id : L -> option Z;              (* int(re.findall(r'q-pt=\s*(\d+)', line)[0]) *)
  q_floats : L -> list R;            (* re.findall(r'-?\d+\.\d+', line) *)
  freq_of : L -> option R;           (* float(line.split()[1]) *)
  evec_row : L -> option (list R) }. (* line.split()[2:] as floats *)
Arguments last_int {L}. Arguments has_ucv {L}. Arguments cell_row {L}. Arguments atom_row {L}.
Arguments q_id {L}. Arguments q_floats {L}. Arguments freq_of {L}. Arguments evec_row {L}.

Inductive perr :=
  | Raise        (* IndexError or ValueError while parsing *)
  | Ambiguous    (* ValueError, castep.py:242: several blocks without direction *)
  | Hang.        (* the loop of castep.py:302 never ends *)

Section Reader.
Context {L : Type}.
Variable P : parser L.

Definition readline (f : list L) : option L * list L := match f with [] => (None, []) | x :: r => (Some x, r) end.
(** n times readline *)
Fixpoint readlines (n : nat) (f : list L) : list (option L) * list L :=
  match n with O => ([], f) | S n => let '(x, f1) := readline f in let '(l, f2) := readlines n f1 in (x :: l, f2) end.
(** Applying a parser to each line; the empty string gives [e]. *)
Definition parse_all {A} (e : option A) (p : L -> option A) (l : list (option L)) : res (list A) perr :=
  mapE (fun o => match (match o with None => e | Some x => p x end) with Some a => Ok a | None => Err Raise end) l.

(** castep.py:302-303: while 'Unit cell vectors' not in f.readline(): pass *)
Fixpoint find_cell (f : list L) : res (list L) perr :=
  match f with [] => Err Hang | x :: r => if has_ucv P x then Ok r else find_cell r end.

Definition same_length {A} (n : nat) (l : list (list A)) : bool := forallb (fun r => Nat.eqb (length r) n) l.
(** castep.py:274-314 [_read_crystal_info] *)
Definition read_crystal_info (n_atoms : nat) (f : list L) : res ((list (list R) * list atom) * list L) perr :=
  match find_cell f with
  | Err e => Err e
  | Ok f1 =>
    let '(c, f2) := readlines 3 f1 in
    match parse_all (Some []) (cell_row P) c with
    | Err e => Err e
    | Ok rows =>
      if negb (same_length (length (hd [] rows)) rows) then Err Raise else
      let '(_, f3) := readline f2 in
      let '(a, f4) := readlines n_atoms f3 in
      match parse_all None (atom_row P) a with
      | Err e => Err e
      | Ok ats => let '(_, f5) := readline f4 in Ok ((rows, ats), f5)
      end
    end
  end.

Record block := { b_id : Z; b_qpt : list R; b_dir : option (list R); b_weight : R; b_freqs : list R; b_evec : list (list R) }.

(** castep.py:330-404 [_read_frequency_block] with terminator '' and no extra columns *)
Definition read_frequency_block (n_branches : nat) (f : list L) : res (option block * list L) perr :=
  let '(ql, f1) := readline f in
  match ql with
  | None => Ok (None, f1)
  | Some q =>
    match q_id P q with
    | None => Err Raise
    | Some i =>
      let fl := q_floats P q in
      match nth_error fl 3 with
      | None => Err Raise
      | Some w =>
        let dir := if Nat.leb 6 (length fl) then Some (firstn 3 (skipn 4 fl)) else None in
        let '(lines, f2) := readlines n_branches f1 in
        match parse_all None (freq_of P) lines with
        | Err e => Err e
        | Ok fr => Ok (Some {| b_id := i; b_qpt := firstn 3 fl; b_dir := dir; b_weight := w; b_freqs := fr; b_evec := [] |}, f2)
        end
      end
    end
  end.

(** castep.py:197-211: labels and eigenvectors.  Row [i*n_atoms + a] of the result has the
    real and imaginary parts of the three components of mode i, atom a. *)
Definition read_evecs (read_eigenvectors : bool) (n : nat) (f : list L) : res (list (list R) * list L) perr :=
  let '(_, f1) := readlines 2 f in
  let '(lines, f2) := readlines n f1 in
  if read_eigenvectors then
    match parse_all (Some []) (evec_row P) lines with
    | Err e => Err e
    | Ok rows => if (Nat.leb 6 (length (hd [] rows)) && same_length (length (hd [] rows)) rows)%bool
                 then Ok (map (firstn 6) rows, f2) else Err Raise
    end
  else Ok ([], f2).

(** castep.py:184-230, the blocks read one after the other *)
Fixpoint read_blocks (fuel : nat) (eig : bool) (n_atoms n_branches : nat) (f : list L) : res (list block) perr :=
  match fuel with
  | O => Ok []
  | S fuel =>
    match read_frequency_block n_branches f with
    | Err e => Err e
    | Ok (None, _) => Ok []
    | Ok (Some b, f1) =>
      match read_evecs eig (n_atoms * n_branches) f1 with
      | Err e => Err e
      | Ok (ev, f2) =>
        match read_blocks fuel eig n_atoms n_branches f2 with
        | Err e => Err e
        | Ok bs => Ok ({| b_id := b_id b; b_qpt := b_qpt b; b_dir := b_dir b; b_weight := b_weight b; b_freqs := b_freqs b; b_evec := ev |} :: bs)
        end
      end
    end
  end.
End Reader.

(** One q-point of the arrays qpts, weights, freqs and eigenvecs. *)
Record row := { r_qpt : list R; r_weight : R; r_freqs : list R; r_evec : list (list R) }.
Definition row_of (b : block) : row := {| r_qpt := b_qpt b; r_weight := b_weight b; r_freqs := b_freqs b; r_evec := b_evec b |}.
(** castep.py:172-178: np.zeros *)
Definition zero_row (eig : bool) (n_atoms n_branches : nat) : row :=
  {| r_qpt := [0; 0; 0]%R; r_weight := 0%R; r_freqs := repeat 0%R n_branches;
     r_evec := if eig then repeat (repeat 0%R 6) (n_atoms * n_branches) else [] |}.
(** castep.py:212-229: assign row idx, or append *)
Fixpoint fill (idx : nat) (bs : list block) (rows : list row) : list row :=
  match bs with
  | [] => rows
  | b :: bs => fill (S idx) bs (if Nat.ltb idx (length rows) then firstn idx rows ++ row_of b :: skipn (S idx) rows else rows ++ [row_of b])
  end.

(** Sets of indices and the dictionary of them, castep.py:183-196. *)
Definition mem (i : nat) (s : list nat) : bool := existsb (Nat.eqb i) s.
Definition set_add (i : nat) (s : list nat) : list nat := if mem i s then s else s ++ [i].
Fixpoint dict_update (k : Z) (new : list nat) (d : list (Z * list nat)) : list (Z * list nat) :=
  match d with
  | [] => [(k, fold_left (fun s i => set_add i s) new [])]
  | (k', s) :: d => if k =? k' then (k', fold_left (fun s i => set_add i s) new s) :: d else (k', s) :: dict_update k new d
  end.
Fixpoint track (avg pref : bool) (idx : nat) (prev : Z) (bs : list block) (rep : list (Z * list nat)) (split : list nat) : list (Z * list nat) * list nat :=
  match bs with
  | [] => (rep, split)
  | b :: bs =>
      let split := if (pref && match b_dir b with Some _ => true | None => false end)%bool then set_add idx split else split in
      let rep := if ((avg || pref) && (b_id b =? prev))%bool then dict_update (b_id b) [(idx - 1)%nat; idx] rep else rep in
      track avg pref (S idx) (b_id b) bs rep split
  end.

(** weights[indices] = g(weights[indices]) *)
Definition at_indices (s : list nat) (g : R -> R) (ws : list R) : list R :=
  map (fun p => if mem (fst p) s then g (snd p) else snd p) (combine (seq 0 (length ws)) ws).
(** castep.py:232-249 *)
Fixpoint correct (avg pref : bool) (split : list nat) (rep : list (Z * list nat)) (ws : list R) : res (list R) perr :=
  match rep with
  | [] => Ok ws
  | (_, s) :: rep =>
      let inter := filter (fun i => mem i split) s in
      if (pref && Nat.ltb 0 (length inter) && Nat.ltb (length inter) (length s))%bool then
        if Nat.eqb (length s - length inter) 1 then correct avg pref split rep (at_indices inter (fun _ => 0%R) ws) else Err Ambiguous
      else correct avg pref split rep (if avg then at_indices s (fun w => (w / INR (length s))%R) ws else ws)
  end.

Record phonon_data := { p_cell : list (list R); p_atoms : list atom; p_rows : list row; p_weights : list R }.
(** castep.py:121-271 [read_phonon_data] *)
Definition read_phonon_data {L} (P : parser L) (eig avg pref : bool) (f : list L) : res phonon_data perr :=
  let '(_, f1) := readline f in
  let '(heads, f2) := readlines 3 f1 in
  match parse_all None (last_int P) heads with
  | Err e => Err e
  | Ok ns =>
    match ns with
    | [na; nb; nq] =>
      if ((na <? 0) || (nb <? 0) || (nq <? 0))%bool then Err Raise else
      let n_atoms := Z.to_nat na in let n_branches := Z.to_nat nb in
      match read_crystal_info P n_atoms f2 with
      | Err e => Err e
      | Ok ((cell, ats), f3) =>
        match read_blocks P (S (length f3)) eig n_atoms n_branches f3 with
        | Err e => Err e
        | Ok bs =>
          let rows := fill 0 bs (repeat (zero_row eig n_atoms n_branches) (Z.to_nat nq)) in
          let '(rep, split) := track avg pref 0 (-1) bs [] [] in
          match correct avg pref split rep (map r_weight rows) with
          | Err e => Err e
          | Ok ws => Ok {| p_cell := cell; p_atoms := ats; p_rows := rows; p_weights := ws |}
          end
        end
      end
    | _ => Err Raise
    end
  end.

(** /repo/euphonic/readers/phonopy.py 27-42 [_convert_weights] *)
Definition convert_weights (ws : list R) : list R := map (fun w => (w / Rsum ws)%R) ws.
