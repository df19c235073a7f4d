(** Model of writing and reading objects as dictionaries and JSON files:
    /repo/euphonic/io.py 12-119 and the to_dict/from_dict methods of crystal.py 279-327,
    qpoint_frequencies.py 331-374, qpoint_phonon_modes.py 606-659, structure_factor.py 341-387,
    debye_waller.py 85-132, force_constants.py 1663-1722, spectra.py 143-144, 490-548,
    1075-1105, 1787-1829.
    An object is the list of its attributes in the order of its class.  A dictionary is a list
    of keys and values; the order of keys (sort_keys) does not matter to any reader and is
    kept.  pint: [print] is str of a unit, [parse] is ureg of a string.  Numbers go through the
    text of the file unchanged (Python prints floats so that they read back exactly). *)
From Coq Require Import String.
From Verif Require Import Base Cpx.
Open Scope string_scope.

Inductive sc := Fl (x : R) | It (k : Z) | St (s : string) | Cx (z : C).
Inductive dtype := DFloat | DInt | DStr | DComplex128 | DComplex64.
Inductive pyv (U : Type) :=
  | PArr (dt : dtype) (last_contiguous : bool) (dims : list nat) (data : list sc)   (* numpy.ndarray, elements in row-major order *)
  | PQty (mag : pyv U) (u : U)
  | PScal (x : sc)
  | PList (l : list (pyv U))
  | PTup (l : list (pyv U))
  | PDict (l : list (string * pyv U))
  | PNone
  | PObj (l : list (string * pyv U)).                                               (* has to_dict *)
Arguments PArr {U}. Arguments PQty {U}. Arguments PScal {U}. Arguments PList {U}. Arguments PTup {U}. Arguments PDict {U}. Arguments PNone {U}. Arguments PObj {U}.
Inductive json := JNull | JScal (x : sc) | JList (l : list json) | JDict (l : list (string * json)).
Inductive jerr :=
  | ViewError            (* ValueError: last axis must be contiguous to change dtype *)
  | NotSerialisable      (* TypeError from json.dump *)
  | BadArray             (* ValueError from np.array, .view or .squeeze *)
  | KeyError (k : string)
  | BadUnit
  | NotDict.

Section Json.
Context {U : Type}.
Notation pyv := (pyv U).
Notation dict := (list (string * pyv)).
Variables (print : U -> string) (parse : string -> option U).

Definition prod_dims (d : list nat) : nat := fold_right Nat.mul 1%nat d.
(** ndarray.tolist() *)
Fixpoint tolist (dims : list nat) (data : list sc) : pyv :=
  match dims with
  | [] => PScal (hd (Fl 0) data)
  | n :: d => PList (map (fun i => tolist d (firstn (prod_dims d) (skipn (i * prod_dims d) data))) (seq 0 n))
  end.
(** np.array of nested lists: None where numpy raises (ragged lists, or anything else than
    numbers and strings inside) *)
Fixpoint dims_eqb (a b : list nat) : bool := match a, b with [], [] => true | x :: a, y :: b => (Nat.eqb x y && dims_eqb a b)%bool | _, _ => false end.
Fixpoint np_array (v : pyv) : option (list nat * list sc) :=
  match v with
  | PScal x => Some ([], [x])
  | PList l | PTup l =>
      match (fix go (l : list pyv) : option (option (list nat) * list sc) :=
        match l with
        | [] => Some (None, [])
        | v :: r =>
            match np_array v, go r with
            | Some (d, x), Some (None, y) => Some (Some d, (x ++ y)%list)
            | Some (d, x), Some (Some d', y) => if dims_eqb d d' then Some (Some d, (x ++ y)%list) else None
            | _, _ => None
            end
        end) l with
      | Some (None, _) => Some ([0%nat], [])
      | Some (Some d, x) => Some (length l :: d, x)
      | None => None
      end
  | _ => None
  end.
Definition dtype_of (data : list sc) : dtype :=
  match data with It _ :: _ => DInt | St _ :: _ => DStr | Cx _ :: _ => DComplex128 | _ => DFloat end.
(** val.view(np.float64).reshape(val.shape + (2,)) *)
Definition split_complex (data : list sc) : list sc := flat_map (fun x => match x with Cx z => [Fl (re z); Fl (im z)] | _ => [x; Fl 0] end) data.
(** .view(np.complex128) of an array whose last axis has extent 2, then squeeze(axis=-1) *)
Fixpoint join_complex (data : list sc) : option (list sc) :=
  match data with
  | [] => Some []
  | Fl a :: Fl b :: r => match join_complex r with Some l => Some (Cx (mkC a b) :: l) | None => None end
  | _ => None
  end.

(** io.py:51-76 [_obj_to_dict], with to_dict of nested objects *)
Fixpoint to_dict (o : pyv) : pyv :=
  match o with
  | PObj attrs => PDict ((fix go (l : dict) : dict :=
      match l with
      | [] => []
      | (attr, val) :: r =>
          match val with
          | PNone => []
          | PDict [] => if String.eqb attr "metadata" then [] else [(attr, val)]
          | PQty m u => [(attr, m); ((attr ++ "_unit")%string, PScal (St (print u)))]
          | PObj _ => [(attr, to_dict val)]
          | _ => [(attr, val)]
          end ++ go r
      end%list) attrs)
  | _ => o
  end.
(** io.py:12-25 [_to_json_dict] *)
Fixpoint to_json_dict (key : string) (v : pyv) : res pyv jerr :=
  match v with
  | PArr DComplex128 c dims data => if c then Ok (tolist (dims ++ [2%nat])%list (split_complex data)) else Err ViewError
  | PArr _ _ dims data => Ok (tolist dims data)
  | PDict l => if String.eqb key "metadata" then Ok v else
      match (fix go (l : dict) : res dict jerr :=
        match l with
        | [] => Ok []
        | (k, x) :: r => match to_json_dict k x with Err e => Err e | Ok x' => match go r with Err e => Err e | Ok r' => Ok ((k, x') :: r') end end
        end) l with Ok l' => Ok (PDict l') | Err e => Err e end
  | _ => Ok v
  end.
(** json.dump *)
Fixpoint dump (v : pyv) : res json jerr :=
  match v with
  | PScal (Cx _) => Err NotSerialisable
  | PScal x => Ok (JScal x)
  | PNone => Ok JNull
  | PList l | PTup l =>
      match (fix go (l : list pyv) : res (list json) jerr :=
        match l with [] => Ok [] | x :: r => match dump x with Err e => Err e | Ok j => match go r with Err e => Err e | Ok js => Ok (j :: js) end end end) l with
      | Ok js => Ok (JList js) | Err e => Err e end
  | PDict l =>
      match (fix go (l : dict) : res (list (string * json)) jerr :=
        match l with [] => Ok [] | (k, x) :: r => match dump x with Err e => Err e | Ok j => match go r with Err e => Err e | Ok js => Ok ((k, j) :: js) end end end) l with
      | Ok js => Ok (JDict js) | Err e => Err e end
  | _ => Err NotSerialisable
  end.
(** json.loads *)
Fixpoint loads (j : json) : pyv :=
  match j with
  | JNull => PNone
  | JScal x => PScal x
  | JList l => PList (map loads l)
  | JDict l => PDict ((fix go (l : list (string * json)) : dict := match l with [] => [] | (k, x) :: r => (k, loads x) :: go r end) l)
  end.
(** io.py:99-108 [_obj_to_json_file]; cls and version are the two added strings *)
Definition to_json_file (cls version : string) (o : pyv) : res json jerr :=
  match to_json_dict "" (to_dict o) with
  | Ok (PDict l) => dump (PDict (l ++ [("__euphonic_class__", PScal (St cls)); ("__euphonic_version__", PScal (St version))])%list)
  | Ok _ => Err NotDict
  | Err e => Err e
  end.

Inductive hint := Tuples | Complex.
(** io.py:28-48 [_from_json_dict].  (tuple of a string, which no file written here has, is an
    error.) *)
Definition to_tuple (v : pyv) : option pyv := match v with PList l => Some (PTup l) | _ => None end.
Fixpoint all_some {A} (l : list (option A)) : option (list A) := match l with [] => Some [] | Some x :: r => match all_some r with Some s => Some (x :: s) | None => None end | None :: _ => None end.
Definition from_json_list (h : option hint) (v : pyv) (l : list pyv) : res pyv jerr :=
  match h with
  | Some Tuples => match all_some (map to_tuple l) with Some t => Ok (PList t) | None => Err BadArray end
  | Some Complex =>
      match np_array v with
      | Some (dims, data) => if Nat.eqb (last dims 0%nat) 2 then match join_complex data with Some z => Ok (PArr DComplex128 true (removelast dims) z) | None => Err BadArray end else Err BadArray
      | None => Err BadArray
      end
  | None => match np_array v with Some (dims, data) => Ok (PArr (dtype_of data) true dims data) | None => Err BadArray end
  end.
Fixpoint from_json_dict (types : string -> option hint) (key : string) (v : pyv) : res pyv jerr :=
  match v with
  | PList l => from_json_list (types key) v l
  | PDict l => if String.eqb key "metadata" then Ok v else
      match (fix go (l : dict) : res dict jerr :=
        match l with
        | [] => Ok []
        | (k, x) :: r => match from_json_dict types k x with Err e => Err e | Ok x' => match go r with Err e => Err e | Ok r' => Ok ((k, x') :: r') end end
        end) l with Ok l' => Ok (PDict l') | Err e => Err e end
  | _ => Ok v
  end.

Fixpoint lookup (k : string) (d : dict) : option pyv := match d with [] => None | (k', v) :: r => if String.eqb k k' then Some v else lookup k r end.
Definition remove_key (k : string) (d : dict) : dict := filter (fun p => negb (String.eqb k (fst p))) d.
(** io.py:79-96 [_process_dict] *)
Definition set_missing (d : dict) (k : string) : dict := match lookup k d with Some _ => d | None => (d ++ [(k, PNone)])%list end.
Fixpoint quantities (ks : list string) (d : dict) : res dict jerr :=
  match ks with
  | [] => Ok d
  | k :: ks =>
      match lookup k d with
      | None => Err (KeyError k)
      | Some PNone => quantities ks (remove_key k d ++ [(k, PNone)])%list
      | Some v =>
          match lookup (k ++ "_unit") d with
          | Some (PScal (St s)) => match parse s with Some u => quantities ks (remove_key (k ++ "_unit") (remove_key k d) ++ [(k, PQty v u)])%list | None => Err BadUnit end
          | Some _ => Err BadUnit
          | None => Err (KeyError (k ++ "_unit"))
          end
      end
  end.
Definition process_dict (d : dict) (qs opt : list string) : res dict jerr := quantities qs (fold_left set_missing opt d).

(** The arguments handed to a constructor, in order *)
Fixpoint arguments (names : list string) (d : dict) : res dict jerr :=
  match names with
  | [] => Ok []
  | k :: ks => match lookup k d with None => Err (KeyError k) | Some v => match arguments ks d with Ok r => Ok ((k, v) :: r) | Err e => Err e end end
  end.
(** crystal.py:305-327, and crystal.py:61-79: an empty atom_r read as shape (0,) is given its
    shape (0, 3); n_atoms is its length *)
Definition crystal_attrs := ["cell_vectors"; "n_atoms"; "atom_r"; "atom_type"; "atom_mass"].
Definition repair (v : pyv) : pyv := match v with PArr _ _ [0%nat] _ => PArr DFloat true [0%nat; 3%nat] [] | _ => v end.
Definition len_of (v : pyv) : Z := match v with PArr _ _ (n :: _) _ => Z.of_nat n | _ => 0%Z end.
Definition crystal_from_dict (d : pyv) : res pyv jerr :=
  match d with
  | PDict d =>
      match process_dict d ["cell_vectors"; "atom_mass"] [] with
      | Err e => Err e
      | Ok d =>
          match lookup "cell_vectors" d, lookup "atom_r" d, lookup "atom_type" d, lookup "atom_mass" d with
          | Some c, Some r, Some t, Some m => Ok (PObj [("cell_vectors", c); ("n_atoms", PScal (It (len_of r))); ("atom_r", repair r); ("atom_type", t); ("atom_mass", m)])
          | None, _, _, _ => Err (KeyError "cell_vectors") | _, None, _, _ => Err (KeyError "atom_r") | _, _, None, _ => Err (KeyError "atom_type") | _, _, _, None => Err (KeyError "atom_mass")
          end
      end
  | _ => Err NotDict
  end.
(** The other classes: whether there is a crystal, the quantities, the optional keys, the
    constructor's arguments after the crystal, and the type_dict of from_json_file *)
Record klass := { k_crystal : bool; k_quantities : list string; k_optional : list string; k_arguments : list string; k_types : string -> option hint }.
Definition no_types (k : string) : option hint := None.
Definition tick_types (k : string) : option hint := if String.eqb k "x_tick_labels" then Some Tuples else None.
Definition QpointFrequencies := {| k_crystal := true; k_quantities := ["frequencies"]; k_optional := ["weights"]; k_arguments := ["qpts"; "frequencies"; "weights"]; k_types := no_types |}.
Definition QpointPhononModes := {| k_crystal := true; k_quantities := ["frequencies"]; k_optional := ["weights"]; k_arguments := ["qpts"; "frequencies"; "eigenvectors"; "weights"];
  k_types := fun k => if String.eqb k "eigenvectors" then Some Complex else None |}.
Definition StructureFactor := {| k_crystal := true; k_quantities := ["frequencies"; "structure_factors"; "temperature"]; k_optional := ["weights"; "temperature"];
  k_arguments := ["qpts"; "frequencies"; "structure_factors"; "weights"; "temperature"]; k_types := no_types |}.
Definition DebyeWaller := {| k_crystal := true; k_quantities := ["debye_waller"; "temperature"]; k_optional := ["temperature"]; k_arguments := ["debye_waller"; "temperature"]; k_types := no_types |}.
Definition ForceConstants := {| k_crystal := true; k_quantities := ["force_constants"; "born"; "dielectric"]; k_optional := ["born"; "dielectric"];
  k_arguments := ["force_constants"; "sc_matrix"; "cell_origins"; "born"; "dielectric"]; k_types := no_types |}.
Definition Spectrum1D := {| k_crystal := false; k_quantities := ["x_data"; "y_data"]; k_optional := ["x_tick_labels"; "metadata"]; k_arguments := ["x_data"; "y_data"; "x_tick_labels"; "metadata"]; k_types := tick_types |}.
(** Spectrum1DCollection has the same table as Spectrum1D, Spectrum2DCollection as Spectrum2D. *)
Definition Spectrum2D := {| k_crystal := false; k_quantities := ["x_data"; "y_data"; "z_data"]; k_optional := ["x_tick_labels"; "metadata"];
  k_arguments := ["x_data"; "y_data"; "z_data"; "x_tick_labels"; "metadata"]; k_types := tick_types |}.
Definition from_dict (k : klass) (d : pyv) : res dict jerr :=
  match d with
  | PDict d =>
      let rest c := match process_dict d (k_quantities k) (k_optional k) with Err e => Err e | Ok d' => match arguments (k_arguments k) d' with Ok a => Ok (c ++ a)%list | Err e => Err e end end in
      if k_crystal k then
        match lookup "crystal" d with
        | None => Err (KeyError "crystal")
        | Some c => match crystal_from_dict c with Err e => Err e | Ok c => rest [("crystal", c)] end
        end
      else rest []
  | _ => Err NotDict
  end.
(** io.py:111-119 [_obj_from_json_file] *)
Definition from_json_file (k : klass) (j : json) : res dict jerr :=
  match from_json_dict (k_types k) "" (loads j) with Ok d => from_dict k d | Err e => Err e end.
Definition crystal_from_json_file (j : json) : res pyv jerr :=
  match from_json_dict no_types "" (loads j) with Ok d => crystal_from_dict d | Err e => Err e end.
End Json.
