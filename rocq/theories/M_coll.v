(** Model of metadata and of the spectrum collections:
    /repo/euphonic/spectra.py [SpectrumCollectionMixin] 684-1105, Spectrum1D.__add__
    458-469, Spectrum1DCollection 1108-1237, Spectrum2DCollection.from_spectra 1925-1968.
    One spectrum's intensity array is a list of numbers: y_data of Spectrum1D, or z_data
    of Spectrum2D read row by row, so the same definitions serve both collections;
    [axes] are the bin axes ([x] or [x; y]).
    Simplifications: all data are in the displayed units and these agree between
    spectra (unit handling is in M_units.v); in [from_spectra] arrays of different
    lengths are refused (numpy would stretch arrays of length one); metadata values are
    integers and strings, as documented; booleans, floats and None are not covered.
    A Python dict is an association list; only look-ups matter, and keys are unique
    ([wf_dict] in S_coll.v). *)
From Coq Require Import String.
From Verif Require Import Base M_qpts M_path M_bins.
Open Scope R_scope.

Inductive value := VInt (z : Z) | VStr (s : string).
Definition value_eqb (a b : value) : bool :=
  match a, b with
  | VInt x, VInt y => Z.eqb x y
  | VStr x, VStr y => String.eqb x y
  | _, _ => false
  end.
Notation dict := (list (string * value)).

Fixpoint lookup (k : string) (d : dict) : option value :=
  match d with
  | [] => None
  | (k', v) :: d' => if String.eqb k k' then Some v else lookup k d'
  end.
Definition has_key (k : string) (d : dict) : bool := match lookup k d with Some _ => true | None => false end.
(** (k, v) in d.items() *)
Definition has_item (kv : string * value) (d : dict) : bool :=
  match lookup (fst kv) d with Some v => value_eqb (snd kv) v | None => false end.
(** d[k] = v *)
Fixpoint dict_set (d : dict) (kv : string * value) : dict :=
  match d with
  | [] => [kv]
  | (k', v') :: d' => if String.eqb (fst kv) k' then (k', snd kv) :: d' else (k', v') :: dict_set d' kv
  end.
(** a | b, and a.update(b) *)
Definition dict_union (a b : dict) : dict := fold_left dict_set b a.

Inductive cerr :=
  | LineDataInside      (* AssertionError, spectra.py:989 *)
  | ReduceEmpty         (* TypeError: reduce() of empty iterable, spectra.py:992-994 *)
  | IndexOut            (* IndexError from numpy or list indexing *)
  | SliceOut            (* IndexError, spectra.py:844 *)
  | WrongLineCount      (* ValueError, spectra.py:1031 *)
  | NoSpectra           (* IndexError, spectra.py:1210, 1927 *)
  | Different           (* AssertionError, spectra.py:1226-1229, 1948-1956 *)
  | NoMatch.            (* ValueError, spectra.py:973 *)

Definition bind {A B E} (x : res A E) (f : A -> res B E) : res B E := match x with Ok a => f a | Err e => Err e end.

(** Collection metadata: the entries other than 'line_data', and 'line_data'. *)
Record cmeta := mkM { top : dict; line_data : option (list dict) }.

(** spectra.py:978-1005 [_combine_metadata].  The order of the entries that Python's set
    intersection produces is not specified; here it is that of the first dictionary. *)
Definition combine_metadata (ms : list dict) : res cmeta cerr :=
  if existsb (has_key "line_data") ms then Err LineDataInside
  else match ms with
  | [] => Err ReduceEmpty
  | m :: rest =>
      let common := filter (fun kv => forallb (has_item kv) rest) m in
      let lines := map (filter (fun kv => negb (has_key (fst kv) common))) ms in
      if existsb (fun d => match d with [] => false | _ => true end) lines
      then Ok (mkM common (Some lines)) else Ok (mkM common None)
  end.

(** A single spectrum (Spectrum1D or Spectrum2D) and a collection. *)
Record spec := mkS { s_axes : list (list R); s_data : list R; s_ticks : option ticks; s_meta : dict }.
Record coll := mkColl { c_axes : list (list R); c_lines : list (list R); c_ticks : option ticks; c_meta : cmeta }.

(** spectra.py:789-790 [__len__] *)
Definition clen (c : coll) : nat := length (c_lines c).

(** The constructors' metadata check, spectra.py:1017-1034 [_check_metadata] *)
Definition mk_coll (axes : list (list R)) (lines : list (list R)) (t : option ticks) (m : cmeta) : res coll cerr :=
  match line_data m with
  | Some l => if Nat.eqb (length l) (length lines) then Ok (mkColl axes lines t m) else Err WrongLineCount
  | None => Ok (mkColl axes lines t m)
  end.

(** spectra.py:891-902 [iter_metadata] *)
Definition iter_metadata (c : coll) : list dict :=
  match line_data (c_meta c) with
  | None => repeat (top (c_meta c)) (clen c)
  | Some l => map (fun d => dict_union (top (c_meta c)) d) l
  end.

(** spectra.py:1007-1015 [_tidy_metadata] *)
Definition tidy_metadata (c : coll) : res dict cerr :=
  bind (combine_metadata (match line_data (c_meta c) with Some l => l | None => repeat [] (clen c) end))
       (fun m => Ok (top m)).

(** np.sum(data, axis=0) of an array with [n] columns *)
Definition column_sums (n : nat) (lines : list (list R)) : list R :=
  map (fun i => Sum lines (fun l => nth i l 0)) (seq 0 n).
Definition width (lines : list (list R)) : nat := match lines with [] => 0%nat | l :: _ => length l end.

(** spectra.py:763-786 [sum] *)
Definition csum (c : coll) : res spec cerr :=
  bind (tidy_metadata c) (fun t =>
    Ok (mkS (c_axes c) (column_sums (width (c_lines c)) (c_lines c)) (c_ticks c) (dict_union (top (c_meta c)) t))).

(** Python / numpy integer indexing *)
Definition py_index (n : nat) (i : Z) : option nat :=
  if ((- Z.of_nat n <=? i) && (i <? Z.of_nat n))%Z%bool
  then Some (Z.to_nat (if (i <? 0)%Z then (i + Z.of_nat n)%Z else i)) else None.
Definition take {A} (d : A) (l : list A) (i : Z) : res A cerr :=
  match py_index (length l) i with Some k => Ok (nth k l d) | None => Err IndexOut end.

(** spectra.py:811-824 [__getitem__] with an integer *)
Definition get_int (c : coll) (i : Z) : res spec cerr :=
  bind (take [] (c_lines c) i) (fun line =>
  bind (take [] (iter_metadata c) i) (fun m =>
  Ok (mkS (c_axes c) line (c_ticks c) m))).

(** ... with a sequence of integers, spectra.py:846-850, 869-870 *)
Definition get_list (c : coll) (is : list Z) : res coll cerr :=
  bind (mapE (take [] (c_lines c)) is) (fun lines =>
  bind (mapE (take [] (iter_metadata c)) is) (fun ms =>
  bind (combine_metadata ms) (fun m =>
  mk_coll (c_axes c) lines (c_ticks c) m))).

(** slice.indices: Python's PySlice_AdjustIndices for a step <> 0, as a list of positions *)
Definition slice_bounds (n : Z) (start stop : option Z) (step : Z) : Z * Z :=
  let lower := (if step <? 0 then -1 else 0)%Z in
  let upper := (if step <? 0 then n - 1 else n)%Z in
  let adj := (fun v => if v <? 0 then Z.max (v + n) lower else Z.min v upper)%Z in
  (match start with None => (if step <? 0 then upper else lower)%Z | Some a => adj a end,
   match stop with None => (if step <? 0 then lower else upper)%Z | Some b => adj b end).
Fixpoint walk (fuel : nat) (i stop step : Z) : list nat :=
  match fuel with
  | O => []
  | S f => if (if step <? 0 then stop <? i else i <? stop)%Z
           then Z.to_nat i :: walk f (i + step)%Z stop step else []
  end.
Definition slice_positions (n : nat) (start stop : option Z) (step : Z) : list nat :=
  let '(a, b) := slice_bounds (Z.of_nat n) start stop step in walk n a b step.

(** ... with a slice (step <> 0), spectra.py:841-845, 867-868 *)
Definition get_slice (c : coll) (start stop : option Z) (step : Z) : res coll cerr :=
  if match stop with Some b => (Z.of_nat (clen c) <=? b)%Z | None => false end then Err SliceOut
  else
    let pick := fun A (d : A) l => map (fun k => nth k l d) (slice_positions (length l) start stop step) in
    let lines := pick _ [] (c_lines c) in
    bind (combine_metadata (pick _ [] (iter_metadata c))) (fun m =>
    mk_coll (c_axes c) lines (c_ticks c) m).

(** np.allclose with its default tolerances *)
Definition all_close (a b : list R) : bool :=
  (Nat.eqb (length a) (length b) && forallb (fun p => isclose (1 / 10 ^ 8) (fst p) (snd p)) (combine a b))%bool.
Definition same_axes (a b : list (list R)) : bool :=
  (Nat.eqb (length a) (length b) && forallb (fun p => all_close (fst p) (snd p)) (combine a b))%bool.
Definition tick_eqb (p q : Z * string) : bool := (Z.eqb (fst p) (fst q) && String.eqb (snd p) (snd q))%bool.
Fixpoint list_eqb {A} (eqb : A -> A -> bool) (l m : list A) : bool :=
  match l, m with
  | [], [] => true
  | a :: l', b :: m' => (eqb a b && list_eqb eqb l' m')%bool
  | _, _ => false
  end.
Definition ticks_eqb (a b : option ticks) : bool :=
  match a, b with
  | None, None => true
  | Some a, Some b => list_eqb tick_eqb a b
  | _, _ => false
  end.

(** spectra.py:1208-1237 and 1925-1968 [from_spectra] *)
Definition from_spectra (l : list spec) : res coll cerr :=
  match l with
  | [] => Err NoSpectra
  | s0 :: rest =>
      if forallb (fun s => (same_axes (s_axes s) (s_axes s0) && ticks_eqb (s_ticks s) (s_ticks s0)
                            && Nat.eqb (length (s_data s)) (length (s_data s0)))%bool) rest
      then bind (combine_metadata (map s_meta l)) (fun m =>
           mk_coll (s_axes s0) (map s_data l) (s_ticks s0) m)
      else Err Different
  end.

(** Iterating a collection, collections.abc.Sequence.__iter__: c[0], c[1], ... *)
Definition elements (c : coll) : res (list spec) cerr := mapE (fun i => get_int c (Z.of_nat i)) (seq 0 (clen c)).

(** spectra.py:876-889 [__add__] of collections *)
Definition cadd (a b : coll) : res coll cerr :=
  bind (elements a) (fun la => bind (elements b) (fun lb => from_spectra (la ++ lb))).
(** spectra.py:458-469 [Spectrum1D.__add__] *)
Definition sadd (a b : spec) : res spec cerr := bind (from_spectra [a; b]) csum.

(** spectra.py:904-930 [_select_indices] *)
Definition select_indices (c : coll) (sel : list (string * value)) : list nat :=
  filter (fun i => forallb (fun kv => has_item kv (nth i (iter_metadata c) [])) sel) (seq 0 (length (iter_metadata c))).

(** itertools.product over the values, zipped with the keys, spectra.py:966-969 *)
Fixpoint combinations (kvs : list (string * list value)) : list (list (string * value)) :=
  match kvs with
  | [] => [[]]
  | (k, vs) :: rest => flat_map (fun v => map (fun r => (k, v) :: r) (combinations rest)) vs
  end.

(** spectra.py:932-976 [select]; single values are one-element lists (ensure_sequence, 959-963) *)
Definition select (c : coll) (kvs : list (string * list value)) : res coll cerr :=
  match flat_map (select_indices c) (combinations kvs) with
  | [] => Err NoMatch
  | is => get_list c (map Z.of_nat is)
  end.

(** toolz.groupby: a dict from key to list, keys in order of first appearance *)
Definition key_eqb (a b : list (option value)) : bool :=
  list_eqb (fun x y => match x, y with
                       | None, None => true
                       | Some u, Some v => value_eqb u v
                       | _, _ => false end) a b.
Fixpoint group_insert {K} (eqb : K -> K -> bool) (k : K) (i : nat) (g : list (K * list nat)) : list (K * list nat) :=
  match g with
  | [] => [(k, [i])]
  | (k', l) :: g' => if eqb k k' then (k', l ++ [i]) :: g' else (k', l) :: group_insert eqb k i g'
  end.
Definition group_indices (keys : list string) (ms : list dict) : list (list (option value) * list nat) :=
  fold_left (fun g i => group_insert key_eqb (map (fun k => lookup k (nth i ms [])) keys) i g) (seq 0 (length ms)) [].

(** spectra.py:1036-1075 [group_by] *)
Definition group_by (c : coll) (keys : list string) : res coll cerr :=
  bind (mapE (fun g => bind (get_list c (map Z.of_nat (snd g))) csum) (group_indices keys (iter_metadata c)))
       from_spectra.
