(** Words for writing and reading objects (C18).  Only the type [pyv] of Python values is used. *)
From Coq Require Import String.
From Verif Require Import Base Cpx M_json.
Open Scope list_scope.

Section Words.
Context {U : Type}.
Notation pyv := (pyv U).
Definition not_complex (x : sc) : Prop := match x with Cx _ => False | _ => True end.
Definition complex (x : sc) : Prop := match x with Cx _ => True | _ => False end.
(** The same value in fresh memory: arrays keep shape and elements; the element type is what
    numpy finds for these elements. *)
Fixpoint again (v : pyv) : pyv :=
  match v with PArr _ _ dims data => PArr (dtype_of data) true dims data | PQty m u => PQty (again m) u | _ => v end.
(** Number of elements of a shape; shapes whose only zero extent, if any, is the last one. *)
Fixpoint size (dims : list nat) : nat := match dims with [] => 1 | n :: d => n * size d end.
Fixpoint no_inner_zero (dims : list nat) : Prop := match dims with [] | [_] => True | n :: d => (0 < n)%nat /\ no_inner_zero d end.
(** An array of numbers or strings *)
Definition plain_array (dims : list nat) (v : pyv) : Prop :=
  exists dt c data, v = PArr dt c dims data /\ dt <> DComplex128 /\ length data = size dims /\ Forall not_complex data.
(** Such an array, or a number: what a Quantity may hold *)
Definition magnitude (v : pyv) : Prop := (exists n d, no_inner_zero (n :: d) /\ plain_array (n :: d) v) \/ (exists x, v = PScal x /\ not_complex x).
(** Values a JSON file can hold as they are *)
Inductive plain : pyv -> Prop :=
  | plain_scalar x : not_complex x -> plain (PScal x)
  | plain_none : plain PNone
  | plain_list l : Forall plain l -> plain (PList l)
  | plain_dict l : Forall (fun p => plain (snd p)) l -> plain (PDict l).
Definition tick_labels (l : list (Z * string)) : pyv := PList (map (fun p => PTup [PScal (It (fst p)); PScal (St (snd p))]) l).
(** A Crystal of n atoms *)
Definition crystal_obj (cell : pyv) (cu : U) (n : nat) (r t mass : pyv) (mu : U) : pyv :=
  PObj [("cell_vectors"%string, PQty cell cu); ("n_atoms"%string, PScal (It (Z.of_nat n))); ("atom_r"%string, r); ("atom_type"%string, t); ("atom_mass"%string, PQty mass mu)].
(** Optional values *)
Definition or_none {A} (f : A -> pyv) (o : option A) : pyv := match o with Some x => f x | None => PNone end.
End Words.
(** What the parts of a Crystal of n atoms must be *)
Definition crystal_parts {U} (n : nat) (cell r t mass : pyv U) : Prop :=
  plain_array [3%nat; 3%nat] cell /\ plain_array [n; 3%nat] r /\ plain_array [n] t /\ plain_array [n] mass.
(** The objects, as the attributes their to_dict methods write (see the files cited in M_json) *)
Section Objects.
Context {U : Type}.
Notation pyv := (pyv U).
Definition optional_quantity (o : option (pyv * U)) : pyv := or_none (fun x => PQty (fst x) (snd x)) o.
Definition again_optional (o : option (pyv * U)) : pyv := or_none (fun x => PQty (again (fst x)) (snd x)) o.
Definition frequencies_obj (c : pyv) (nq : nat) (q f w : pyv) : pyv := PObj [("crystal", c); ("n_qpts", PScal (It (Z.of_nat nq))); ("qpts", q); ("frequencies", f); ("weights", w)]%string.
Definition modes_obj (c : pyv) (nq : nat) (q f e w : pyv) : pyv := PObj [("crystal", c); ("n_qpts", PScal (It (Z.of_nat nq))); ("qpts", q); ("frequencies", f); ("eigenvectors", e); ("weights", w)]%string.
Definition structure_factor_obj (c : pyv) (nq : nat) (q f s w t : pyv) : pyv := PObj [("crystal", c); ("n_qpts", PScal (It (Z.of_nat nq))); ("qpts", q); ("frequencies", f); ("structure_factors", s); ("weights", w); ("temperature", t)]%string.
Definition debye_waller_obj (c d t : pyv) : pyv := PObj [("crystal", c); ("debye_waller", d); ("temperature", t)]%string.
Definition force_constants_obj (c f : pyv) (nc : nat) (sc co b e : pyv) : pyv :=
  PObj [("crystal", c); ("force_constants", f); ("n_cells_in_sc", PScal (It (Z.of_nat nc))); ("sc_matrix", sc); ("cell_origins", co); ("born", b); ("dielectric", e)]%string.
Definition spectrum1d_obj (x y l m : pyv) : pyv := PObj [("x_data", x); ("y_data", y); ("x_tick_labels", l); ("metadata", m)]%string.
Definition spectrum2d_obj (x y z l m : pyv) : pyv := PObj [("x_data", x); ("y_data", y); ("z_data", z); ("x_tick_labels", l); ("metadata", m)]%string.
(** Empty metadata is left out and read as None, which the constructor turns into {} again. *)
Definition metadata_read (md : list (string * pyv)) : pyv := match md with [] => PNone | _ => PDict md end.
(** Written without error, and read back as these constructor arguments; also without a file *)
Definition round_trips (print : U -> string) (parse : string -> option U) (k : klass) (o : pyv) (same fresh : list (string * pyv)) : Prop :=
  from_dict parse k (to_dict print o) = Ok same /\
  forall cls version, exists j, to_json_file print cls version o = Ok j /\ from_json_file parse k j = Ok fresh.
End Objects.
