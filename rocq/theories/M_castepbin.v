(** Model of the .castep_bin/.check reader, /repo/euphonic/readers/castep.py 416-619
    [read_interpolation_data] and [_read_cell], on top of [read_entry] (M_fortran).
    Floats are decoded by [dec] (the eight bytes of an IEEE number).  Unit conversion
    factors are the arguments [u].  [version p] is Version(p.decode().strip()) < 17.1, None
    if that raises.  NumPy arrays are functions of their indices, given by the flat data.
    Simplification: more atoms in the species than CELL%NUM_IONS is an error here. *)
From Coq Require Import String Ascii.
From Verif Require Import Base M_fortran.
Open Scope Z_scope.

Inductive cerr :=
  | File (e : ferr)      (* from _read_entry *)
  | Unbound              (* UnboundLocalError *)
  | BadShape             (* ValueError: cannot reshape *)
  | BadType              (* TypeError: a scalar where an array is needed or vice versa *)
  | BadVersion           (* InvalidVersion *)
  | OldFile              (* ValueError, castep.py:465 *)
  | NoForceConstants.    (* RuntimeError, castep.py:517 *)

(** The bytes of a literal b'...' *)
Fixpoint codes (s : string) : bytes :=
  match s with EmptyString => [] | String a s => Z.of_nat (nat_of_ascii a) :: codes s end.
(** bytes.strip(): ASCII whitespace *)
Definition is_space (b : Z) : bool := ((b =? 32) || ((9 <=? b) && (b <=? 13)))%bool.
Fixpoint lstrip (l : bytes) : bytes := match l with b :: r => if is_space b then lstrip r else l | [] => [] end.
Definition strip (l : bytes) : bytes := rev (lstrip (rev (lstrip l))).
Fixpoint beq (a b : bytes) : bool :=
  match a, b with [], [] => true | x :: a, y :: b => ((x =? y) && beq a b)%bool | _, _ => false end.
Definition is_header (p : bytes) (s : string) : bool := beq (strip p) (codes s).

(** Reading one value of the expected kind. *)
Definition entry_raw (f : bytes) : res (bytes * bytes) cerr :=
  match read_entry Raw f with Ok (DBytes p, f') => Ok (p, f') | Ok _ => Err BadType | Err e => Err (File e) end.
Definition entry_int1 (f : bytes) : res (Z * bytes) cerr :=
  match read_entry I4 f with Ok (DInt z, f') => Ok (z, f') | Ok _ => Err BadType | Err e => Err (File e) end.
(** an int or an array of ints, as a list *)
Definition entry_intn (f : bytes) : res (list Z * bytes) cerr :=
  match read_entry I4 f with Ok (DInt z, f') => Ok ([z], f') | Ok (DInts l, f') => Ok (l, f') | Ok _ => Err BadType | Err e => Err (File e) end.
Definition entry_floats (dec : bytes -> R) (f : bytes) : res (list R * bytes) cerr :=
  match read_entry F8 f with Ok (DFloat x, f') => Ok ([dec x], f') | Ok (DFloats l, f') => Ok (map dec l, f') | Ok _ => Err BadType | Err e => Err (File e) end.
Definition entry_strs (one : bool) (f : bytes) : res (list bytes * bytes) cerr :=
  match read_entry S8 f with
  | Ok (DBytes p, f') => if one then Ok ([strip p], f') else Err BadType
  | Ok (DStrs l, f') => if one then Err BadType else Ok (map strip l, f')
  | Ok _ => Err BadType | Err e => Err (File e) end.

(** Local variables of [_read_cell]; None: not assigned. *)
Record cell_vars := { v_natoms : option Z; v_cell : option (list R); v_nspecies : option Z; v_nin : option (list Z);
  v_pos : option (list R); v_mass : option (list R); v_sym : option (list bytes) }.
Definition no_vars : cell_vars := Build_cell_vars None None None None None None None.

(** castep.py:572-598: the loop of [_read_cell]; returns the variables and the rest *)
Fixpoint read_cell_loop (dec : bytes -> R) (fuel : nat) (v : cell_vars) (f : bytes) : res (cell_vars * bytes) cerr :=
  match fuel with
  | O => Err (File EndOfFile)
  | S fuel =>
    match entry_raw f with
    | Err e => Err e
    | Ok (h, f1) =>
      if is_header h "END_UNIT_CELL" then Ok (v, f1)
      else if is_header h "CELL%NUM_IONS" then
        match entry_int1 f1 with Err e => Err e | Ok (z, f2) =>
          read_cell_loop dec fuel (Build_cell_vars (Some z) (v_cell v) (v_nspecies v) (v_nin v) (v_pos v) (v_mass v) (v_sym v)) f2 end
      else if is_header h "CELL%REAL_LATTICE" then
        match entry_floats dec f1 with Err e => Err e | Ok (l, f2) =>
          if Nat.eqb (length l) 9 then
            read_cell_loop dec fuel (Build_cell_vars (v_natoms v) (Some l) (v_nspecies v) (v_nin v) (v_pos v) (v_mass v) (v_sym v)) f2
          else Err BadShape end
      else if is_header h "CELL%NUM_SPECIES" then
        match entry_int1 f1 with Err e => Err e | Ok (z, f2) =>
          read_cell_loop dec fuel (Build_cell_vars (v_natoms v) (v_cell v) (Some z) (v_nin v) (v_pos v) (v_mass v) (v_sym v)) f2 end
      else if is_header h "CELL%NUM_IONS_IN_SPECIES" then
        match entry_intn f1 with Err e => Err e | Ok (l, f2) =>
          match v_nspecies v with None => Err Unbound | Some _ =>
            read_cell_loop dec fuel (Build_cell_vars (v_natoms v) (v_cell v) (v_nspecies v) (Some l) (v_pos v) (v_mass v) (v_sym v)) f2 end end
      else if is_header h "CELL%IONIC_POSITIONS" then
        match v_nin v with None => Err Unbound | Some nin =>
          match entry_floats dec f1 with Err e => Err e | Ok (l, f2) =>
            match v_nspecies v with None => Err Unbound | Some ns =>
              if Z.of_nat (length l) =? ns * fold_right Z.max 0 nin * 3 then
                read_cell_loop dec fuel (Build_cell_vars (v_natoms v) (v_cell v) (v_nspecies v) (v_nin v) (Some l) (v_mass v) (v_sym v)) f2
              else Err BadShape end end end
      else if is_header h "CELL%SPECIES_MASS" then
        match entry_floats dec f1 with Err e => Err e | Ok (l, f2) =>
          match v_nspecies v with None => Err Unbound | Some _ =>
            read_cell_loop dec fuel (Build_cell_vars (v_natoms v) (v_cell v) (v_nspecies v) (v_nin v) (v_pos v) (Some l) (v_sym v)) f2 end end
      else if is_header h "CELL%SPECIES_SYMBOL" then
        match v_nspecies v with None => Err Unbound | Some ns =>
          match entry_strs (ns =? 1) f1 with Err e => Err e | Ok (l, f2) =>
            read_cell_loop dec fuel (Build_cell_vars (v_natoms v) (v_cell v) (v_nspecies v) (v_nin v) (v_pos v) (v_mass v) (Some l)) f2 end end
      else read_cell_loop dec fuel v f1
    end
  end.

(** castep.py:599-619: [nat] atoms; positions [3a+i], types and masses by atom *)
Record cell := { c_natoms : nat; c_vec : nat -> nat -> R; c_r : list R; c_mass : list R; c_type : list bytes }.
(** one entry per atom: value [at] repeated for the atoms of species [at] *)
Definition repeated {A} (d : A) (vals : list A) (nin : list Z) (ns : nat) : list A :=
  flat_map (fun a => repeat (nth a vals d) (Z.to_nat (nth a nin 0))) (seq 0 ns).
Definition build_cell (v : cell_vars) : res cell cerr :=
  match v_nin v, v_natoms v, v_cell v, v_nspecies v, v_pos v, v_mass v, v_sym v with
  | Some nin, Some na, Some cv, Some ns, Some pos, Some ms, Some sy =>
      let mx := Z.to_nat (fold_right Z.max 0 nin) in
      let rows := flat_map (fun i => firstn (3 * Z.to_nat (nth i nin 0)) (skipn (3 * mx * i) pos)) (seq 0 (Z.to_nat ns)) in
      if (Nat.ltb (length nin) (Z.to_nat ns) || Nat.ltb (length ms) (Z.to_nat ns) || Nat.ltb (length sy) (Z.to_nat ns))%bool then Err BadShape else
      if Nat.ltb (3 * Z.to_nat na) (length rows) then Err BadShape else
      Ok {| c_natoms := Z.to_nat na;
            c_vec := fun i j => nth (3 * j + i) cv 0%R;
            c_r := rows ++ repeat 0%R (3 * Z.to_nat na - length rows);
            c_mass := repeated 0%R ms nin (Z.to_nat ns);
            c_type := repeated [] sy nin (Z.to_nat ns) |}
  | _, _, _, _, _, _, _ => Err Unbound
  end.
Definition read_cell (dec : bytes -> R) (f : bytes) : res (cell * bytes) cerr :=
  match read_cell_loop dec (length f) no_vars f with
  | Err e => Err e
  | Ok (v, f') => match build_cell v with Ok c => Ok (c, f') | Err e => Err e end
  end.

(** np.linalg.det of the integer supercell matrix, row-major *)
Definition detZ (m : nat -> nat -> Z) : Z :=
  m 0%nat 0%nat * (m 1%nat 1%nat * m 2%nat 2%nat - m 1%nat 2%nat * m 2%nat 1%nat)
  - m 0%nat 1%nat * (m 1%nat 0%nat * m 2%nat 2%nat - m 1%nat 2%nat * m 2%nat 0%nat)
  + m 0%nat 2%nat * (m 1%nat 0%nat * m 2%nat 1%nat - m 1%nat 1%nat * m 2%nat 0%nat).

Record fcdata := { f_sc : nat -> nat -> Z; f_ncells : nat; f_fc : nat -> nat -> nat -> R; f_origin : nat -> nat -> Z }.
(** castep.py:480-494, the FORCE_CON branch *)
Definition read_fc (dec : bytes -> R) (n_atoms : nat) (f : bytes) : res (fcdata * bytes) cerr :=
  match entry_intn f with Err e => Err e | Ok (sc, f1) =>
  if negb (Nat.eqb (length sc) 9) then Err BadShape else
  let scm := fun i j => nth (3 * j + i) sc 0 in
  let nc := Z.to_nat (Z.abs (detZ scm)) in
  let n := (3 * n_atoms)%nat in
  match entry_floats dec f1 with Err e => Err e | Ok (fc, f2) =>
  if negb (Nat.eqb (length fc) (nc * n * n)) then Err BadShape else
  match entry_intn f2 with Err e => Err e | Ok (ors, f3) =>
  if negb (Nat.eqb (length ors) (nc * 3)) then Err BadShape else
  match entry_intn f3 with Err e => Err e | Ok (_, f4) =>
  Ok ({| f_sc := scm; f_ncells := nc;
         f_fc := fun c i j => nth (c * (n * n) + j * n + i) fc 0%R;
         f_origin := fun c i => nth (3 * c + i) ors 0 |}, f4)
  end end end end.

(** Local variables of [read_interpolation_data]. *)
Record main_vars := { m_cell : option cell; m_fc : option fcdata; m_born : option (list R); m_diel : option (list R) }.
Definition no_main : main_vars := Build_main_vars None None None None.

(** castep.py:451-501 *)
Fixpoint main_loop (dec : bytes -> R) (version : bytes -> option bool) (fuel : nat) (v : main_vars) (f : bytes) : res main_vars cerr :=
  match fuel with
  | O => Err (File EndOfFile)
  | S fuel =>
    match entry_raw f with
    | Err e => Err e
    | Ok (h, f1) =>
      if is_header h "END" then Ok v
      else if is_header h "BEGIN_PARAMETERS_DUMP" then
        match entry_raw f1 with Err e => Err e | Ok (p, f2) =>
          match version p with None => Err BadVersion | Some true => Err OldFile | Some false => main_loop dec version fuel v f2 end end
      else if is_header h "BEGIN_UNIT_CELL" then
        match m_cell v with
        | Some _ => main_loop dec version fuel v f1
        | None => match read_cell dec f1 with Err e => Err e | Ok (c, f2) =>
                    main_loop dec version fuel (Build_main_vars (Some c) (m_fc v) (m_born v) (m_diel v)) f2 end
        end
      else if is_header h "FORCE_CON" then
        match m_cell v with None => Err Unbound | Some c =>
          match read_fc dec (c_natoms c) f1 with Err e => Err e | Ok (d, f2) =>
            main_loop dec version fuel (Build_main_vars (m_cell v) (Some d) (m_born v) (m_diel v)) f2 end end
      else if is_header h "BORN_CHGS" then
        match m_cell v with None => Err Unbound | Some c =>
          match entry_floats dec f1 with Err e => Err e | Ok (l, f2) =>
            if Nat.eqb (length l) (c_natoms c * 9) then
              main_loop dec version fuel (Build_main_vars (m_cell v) (m_fc v) (Some l) (m_diel v)) f2
            else Err BadShape end end
      else if is_header h "DIELECTRIC" then
        match entry_floats dec f1 with Err e => Err e | Ok (l, f2) =>
          if Nat.eqb (length l) 9 then
            main_loop dec version fuel (Build_main_vars (m_cell v) (m_fc v) (m_born v) (Some l)) f2
          else Err BadShape end
      else main_loop dec version fuel v f1
    end
  end.

(** The unit conversion factors of castep.py:505-531. *)
Record units := { u_len : R; u_mass : R; u_fc : R; u_born : R; u_diel : R }.
Definition frac (x : R) : R := (x - IZR (Int_part x))%R.

(** The dictionary returned, castep.py:502-534.  The keys born and dielectric may be
    missing. *)
Record interp := { i_natoms : nat; i_cell : nat -> nat -> R; i_r : list R; i_mass : list R; i_type : list bytes;
  i_fc : nat -> nat -> nat -> R; i_sc : nat -> nat -> Z; i_ncells : nat; i_origins : nat -> nat -> Z;
  i_born : option (nat -> nat -> nat -> R); i_diel : option (nat -> nat -> R) }.

Definition read_interpolation_data (dec : bytes -> R) (version : bytes -> option bool) (u : units) (f : bytes) : res interp cerr :=
  match main_loop dec version (length f) no_main f with
  | Err e => Err e
  | Ok v =>
    match m_cell v with
    | None => Err Unbound
    | Some c =>
      match m_fc v with
      | None => Err NoForceConstants
      | Some d =>
        Ok {| i_natoms := c_natoms c; i_cell := fun i j => (c_vec c i j * u_len u)%R; i_r := map frac (c_r c);
              i_mass := map (fun m => (m * u_mass u)%R) (c_mass c); i_type := c_type c;
              i_fc := fun a i j => (f_fc d a i j * u_fc u)%R; i_sc := f_sc d; i_ncells := f_ncells d; i_origins := f_origin d;
              i_born := match m_born v with None => None | Some l => Some (fun a i j => (nth (9 * a + 3 * i + j) l 0 * u_born u)%R) end;
              i_diel := match m_born v with
                        | None => None
                        | Some _ => match m_diel v with None => None | Some l => Some (fun i j => (nth (3 * j + i) l 0 * u_diel u)%R) end
                        end |}
      end
    end
  end.
