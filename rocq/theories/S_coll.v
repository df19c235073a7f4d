(** Specification words for spectrum collections (C31, C32, C34, C58). *)
From Coq Require Import String.
From Verif Require Import Base M_bins M_coll.
Open Scope R_scope.

(** A dictionary has unique keys, and a spectrum's own metadata has no 'line_data'. *)
Definition wf_dict (d : dict) : Prop := NoDup (map fst d) /\ ~ In "line_data"%string (map fst d).
(** Same entries, in any order. *)
Definition same_entries (d e : dict) : Prop := forall kv, In kv d <-> In kv e.

(** A collection as its documentation describes it: at least one spectrum, equal
    lengths, one 'line_data' entry per spectrum, no key both at the top and in a line. *)
Definition wf_coll (c : coll) : Prop :=
  c_lines c <> [] /\
  (forall l m, In l (c_lines c) -> In m (c_lines c) -> length l = length m) /\
  wf_dict (top (c_meta c)) /\
  match line_data (c_meta c) with
  | None => True
  | Some ds => length ds = length (c_lines c) /\
      forall d, In d ds -> wf_dict d /\ forall k, In k (map fst d) -> ~ In k (map fst (top (c_meta c)))
  end.

(** Spectra that can share a collection: equal axes, ticks and lengths, proper metadata. *)
Definition alike (a b : spec) : Prop :=
  s_axes a = s_axes b /\ s_ticks a = s_ticks b /\ length (s_data a) = length (s_data b).
Definition alike_all (l : list spec) : Prop :=
  (forall a b, In a l -> In b l -> alike a b) /\ forall a, In a l -> wf_dict (s_meta a).

(** [col[i]] for a position counted from the front: the spectrum found there. *)
Definition at_pos (c : coll) (i : nat) (s : spec) : Prop := get_int c (Z.of_nat i) = Ok s.

(** Column-wise sum of the lines at given positions. *)
Definition summed (c : coll) (is : list nat) (d : list R) : Prop :=
  forall j, nth j d 0 = Sum is (fun i => nth j (nth i (c_lines c) []) 0).

(** Entry [kv] is in the metadata of spectrum [i]. *)
Definition entry (c : coll) (i : nat) (kv : string * value) : Prop := exists s, at_pos c i s /\ In kv (s_meta s).

(** Spectra [i] and [j] carry the same values for the keys. *)
Definition agree (c : coll) (keys : list string) (i j : nat) : Prop :=
  forall k v, In k keys -> (entry c i (k, v) <-> entry c j (k, v)).

(** Spectrum [i] matches a selection: for every key one of the offered values. *)
Definition matches (c : coll) (kvs : list (string * list value)) (i : nat) : Prop :=
  forall k vs, In (k, vs) kvs -> exists v, In v vs /\ entry c i (k, v).

(** The collection [r] holds the spectra of [c] at the positions [is], in that order. *)
Definition picks (c r : coll) (is : list nat) : Prop :=
  clen r = length is /\ c_axes r = c_axes c /\ c_ticks r = c_ticks c /\
  forall j, (j < length is)%nat -> exists s s', at_pos c (nth j is 0%nat) s /\ at_pos r j s' /\
    s_axes s' = s_axes s /\ s_ticks s' = s_ticks s /\ s_data s' = s_data s /\ same_entries (s_meta s') (s_meta s).

(** Python's l[start:stop:step] as positions, from the language definition: the
    positions a, a+step, a+2*step, ... before the stop, where missing or negative
    bounds are replaced and out-of-range bounds clipped. *)
Definition from_end (n v : Z) : Z := if (v <? 0)%Z then (v + n)%Z else v.
Definition python_positions (n : nat) (start stop : option Z) (step : Z) : list nat :=
  let N := Z.of_nat n in
  if (0 <? step)%Z then
    let a := match start with None => 0%Z | Some v => Z.max 0 (from_end N v) end in
    let b := match stop with None => N | Some v => Z.min N (from_end N v) end in
    filter (fun i => let z := Z.of_nat i in ((a <=? z) && (z <? b) && ((z - a) mod step =? 0))%Z%bool) (seq 0 n)
  else
    let a := match start with None => (N - 1)%Z | Some v => Z.min (N - 1) (from_end N v) end in
    let b := match stop with None => (-1)%Z | Some v => Z.max (-1) (from_end N v) end in
    rev (filter (fun i => let z := Z.of_nat i in ((z <=? a) && (b <? z) && ((a - z) mod (- step) =? 0))%Z%bool) (seq 0 n)).
