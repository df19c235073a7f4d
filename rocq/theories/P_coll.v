(** C31, C32, C34, C58: collections of spectra. *)
From Coq Require Import String Sorted.
From Verif Require Import Base M_qpts M_bins M_coll S_coll L_coll L_coll2 L_coll3 L_coll4 L_tight2.
Open Scope R_scope.

(** C31.  Putting spectra with any metadata in a collection and reading an element back
    gives the data and the metadata it had. *)
Theorem C31_round_trip : forall ss, ss <> [] -> alike_all ss ->
  exists c, from_spectra ss = Ok c /\ clen c = length ss /\
  forall i s, nth_error ss i = Some s -> exists s', at_pos c i s' /\
    s_axes s' = s_axes s /\ s_ticks s' = s_ticks s /\ s_data s' = s_data s /\ same_entries (s_meta s') (s_meta s).
Proof. exact round_trip. Qed.
Print Assumptions C31_round_trip.

(** C31.  The combined metadata is unambiguous: the top level holds exactly the entries
    common to all, and no key is both there and in a line. *)
Theorem C31_unambiguous : forall ss c, alike_all ss -> from_spectra ss = Ok c ->
  (forall kv, In kv (top (c_meta c)) <-> forall s, In s ss -> In kv (s_meta s)) /\
  (forall ds d k, line_data (c_meta c) = Some ds -> In d ds -> In k (map fst d) -> ~ In k (map fst (top (c_meta c)))).
Proof. exact unambiguous. Qed.
Print Assumptions C31_unambiguous.

(** C31.  The metadata of spectrum i are its own entries, and those of the collection
    that it does not override: an entry of the spectrum wins over a collection entry with
    the same key. *)
Theorem C31_own_entries_win : forall (c : coll) ds i s, line_data (c_meta c) = Some ds -> length ds = clen c -> NoDup (map fst (top (c_meta c))) ->
  (forall d, In d ds -> NoDup (map fst d)) -> (i < clen c)%nat -> at_pos c i s ->
  forall kv, In kv (s_meta s) <-> In kv (nth i ds []) \/ In kv (top (c_meta c)) /\ ~ In (fst kv) (map fst (nth i ds [])).
Proof. exact line_entries. Qed.
Print Assumptions C31_own_entries_win.

(** C32.  [sum()] adds all spectra and keeps the common metadata. *)
Theorem C32_sum : forall c, wf_coll c -> exists s, csum c = Ok s /\
  s_axes s = c_axes c /\ s_ticks s = c_ticks c /\
  length (s_data s) = width (c_lines c) /\ summed c (seq 0 (clen c)) (s_data s) /\ wf_dict (s_meta s) /\
  forall kv, In kv (s_meta s) <-> forall i, (i < clen c)%nat -> entry c i kv.
Proof. exact csum_ok. Qed.
Print Assumptions C32_sum.

(** C32.  [group_by] partitions the spectra by their values for the keys (a missing key
    being a value of its own): every position is in exactly one group, groups are not
    empty, two spectra share a group iff they agree, and each resulting spectrum is the
    sum of its group with the metadata common to it; groups come in the order in which
    they first occur. *)
Theorem C32_group_by_partitions : forall c keys, wf_coll c ->
  exists g groups, group_by c keys = Ok g /\ wf_coll g /\ clen g = length groups /\
  c_axes g = c_axes c /\ c_ticks g = c_ticks c /\
  Permutation (concat groups) (seq 0 (clen c)) /\ (forall l, In l groups -> l <> []) /\
  (forall a b i j, (a < length groups)%nat -> (b < length groups)%nat -> In i (nth a groups []) -> In j (nth b groups []) ->
     (a = b <-> agree c keys i j)) /\
  (forall k, (k < length groups)%nat -> exists s, at_pos g k s /\ length (s_data s) = width (c_lines c) /\
     summed c (nth k groups []) (s_data s) /\
     forall kv, In kv (s_meta s) <-> forall i, In i (nth k groups []) -> entry c i kv) /\
  forall a b j, (a < b)%nat -> (b < length groups)%nat -> In j (nth b groups []) -> exists i, In i (nth a groups []) /\ (i < j)%nat.
Proof. exact group_spec. Qed.
Print Assumptions C32_group_by_partitions.

(** C32.  Hence the sum over the groups is the sum of the collection. *)
Theorem C32_groups_sum_to_whole : forall c keys, wf_coll c ->
  exists g sg sc, group_by c keys = Ok g /\ csum g = Ok sg /\ csum c = Ok sc /\
  s_data sg = s_data sc /\ s_axes sg = s_axes sc /\ s_ticks sg = s_ticks sc.
Proof. exact group_total. Qed.
Print Assumptions C32_groups_sum_to_whole.

(** C32.  [select] returns exactly the spectra with one of the offered values for every
    key, each once; in their order when one value per key is offered. *)
Theorem C32_select : forall c kvs, wf_coll c -> (forall k vs, In (k, vs) kvs -> NoDup vs) ->
  (exists i, (i < clen c)%nat /\ matches c kvs i) ->
  exists r is, select c kvs = Ok r /\ wf_coll r /\ picks c r is /\ NoDup is /\
  (forall i, In i is <-> (i < clen c)%nat /\ matches c kvs i) /\
  ((forall k vs, In (k, vs) kvs -> length vs = 1%nat) -> StronglySorted lt is).
Proof. exact select_spec. Qed.
Print Assumptions C32_select.

(** C32.  Without a match an error is raised (rather than an empty collection). *)
Theorem C32_select_no_match : forall c kvs, wf_coll c -> (forall i, (i < clen c)%nat -> ~ matches c kvs i) ->
  select c kvs = Err NoMatch.
Proof. exact select_none. Qed.
Print Assumptions C32_select_no_match.

(** C32, refuted as stated: with several values the order of the collection is not
    kept, and a value listed twice returns its spectra twice. *)
Theorem C32_select_order_refuted : wf_coll three /\
  exists r, select three [("s"%string, [VStr "Na"; VStr "K"])] = Ok r /\ c_lines r = [[3; 4]; [1; 2]; [5; 6]].
Proof. split; [exact three_wf|exact select_order]. Qed.
Print Assumptions C32_select_order_refuted.
Theorem C32_select_once_refuted : wf_coll three /\
  exists r, select three [("s"%string, [VStr "Na"; VStr "Na"])] = Ok r /\ c_lines r = [[3; 4]; [3; 4]].
Proof. split; [exact three_wf|exact select_twice]. Qed.
Print Assumptions C32_select_once_refuted.

Example C32_nonvacuous : wf_coll three /\ (exists i, (i < clen three)%nat /\ matches three [("s"%string, [VStr "K"%string])] i) /\
  map snd (group_indices ["s"%string] (iter_metadata three)) = [[0; 2]; [1]]%nat.
Proof.
  split; [exact three_wf|]. split.
  - exists 2%nat. split; [cbn; lia|]. intros k vs [E|[]]. injection E as <- <-. eexists. split; [left; reflexivity|].
    eexists. split; [reflexivity|]. left. reflexivity.
  - reflexivity.
Qed.

(** C34.  Integer indices: from the front and from the back within range, IndexError otherwise. *)
Theorem C34_integer_index : forall c i, wf_coll c -> (- Z.of_nat (clen c) <= i < Z.of_nat (clen c))%Z ->
  exists s, get_int c i = Ok s /\ at_pos c (Z.to_nat (from_end (Z.of_nat (clen c)) i)) s.
Proof. exact index_ok. Qed.
Print Assumptions C34_integer_index.
Theorem C34_position : forall c i s, wf_coll c -> (i < clen c)%nat ->
  at_pos c i s <-> s = mkS (c_axes c) (nth i (c_lines c) []) (c_ticks c) (nth i (iter_metadata c) []).
Proof. exact at_pos_iff. Qed.
Print Assumptions C34_position.
Theorem C34_integer_out_of_range : forall c i, (i < - Z.of_nat (clen c) \/ Z.of_nat (clen c) <= i)%Z -> get_int c i = Err IndexOut.
Proof. exact index_out. Qed.
Print Assumptions C34_integer_out_of_range.

(** C34.  A sequence of positions picks those spectra in that order. *)
Theorem C34_sequence_index : forall c is, wf_coll c -> is <> [] -> (forall i, In i is -> (i < clen c)%nat) ->
  exists r, get_list c (map Z.of_nat is) = Ok r /\ wf_coll r /\ picks c r is /\
    c_lines r = map (fun i => nth i (c_lines c) []) is /\
    (forall kv, In kv (top (c_meta r)) <-> forall i, In i is -> In kv (nth i (iter_metadata c) [])).
Proof. exact get_list_ok. Qed.
Print Assumptions C34_sequence_index.

(** C34 (partial: non-empty slices with a stop below the length).  Slices pick the
    elements list slicing picks. *)
Theorem C34_slice_partial : forall c start stop step, wf_coll c -> step <> 0%Z ->
  match stop with Some b => (b < Z.of_nat (clen c))%Z | None => True end ->
  python_positions (clen c) start stop step <> [] ->
  exists r, get_slice c start stop step = Ok r /\ wf_coll r /\ picks c r (python_positions (clen c) start stop step).
Proof. exact slice_ok. Qed.
Print Assumptions C34_slice_partial.

(** C34, refuted: [col[a:len(col)]] always raises, although list slicing gives the
    elements from [a] on, [col[0:len(col)]] being the whole collection; and an empty
    slice raises instead of being empty. *)
Theorem C34_full_slice_refuted : forall c start step,
  get_slice c start (Some (Z.of_nat (clen c))) step = Err SliceOut /\
  python_positions (clen c) (Some 0%Z) (Some (Z.of_nat (clen c))) 1 = seq 0 (clen c).
Proof. intros c start step. split; [apply slice_out; lia|apply whole_slice]. Qed.
Print Assumptions C34_full_slice_refuted.
Theorem C34_long_slice_refuted : forall c start stop step, (Z.of_nat (clen c) <= stop)%Z ->
  get_slice c start (Some stop) step = Err SliceOut.
Proof. exact slice_out. Qed.
Print Assumptions C34_long_slice_refuted.
Theorem C34_empty_slice_refuted : forall c start stop step, wf_coll c -> step <> 0%Z ->
  match stop with Some b => (b < Z.of_nat (clen c))%Z | None => True end ->
  python_positions (clen c) start stop step = [] -> get_slice c start stop step = Err ReduceEmpty.
Proof. exact slice_empty. Qed.
Print Assumptions C34_empty_slice_refuted.

Example C34_nonvacuous : wf_coll three /\ python_positions (clen three) (Some (-3)%Z) (Some 2%Z) 1 = [0; 1]%nat /\
  python_positions (clen three) None None (-2) = [2; 0]%nat /\ python_positions (clen three) (Some 1%Z) (Some 1%Z) 1 = [].
Proof. split; [exact three_wf|]. repeat split; reflexivity. Qed.

(** C58.  Adding collections puts the spectra of the second after those of the first. *)
Theorem C58_adding_collections : forall a b, wf_coll a -> wf_coll b -> c_axes a = c_axes b -> c_ticks a = c_ticks b ->
  width (c_lines a) = width (c_lines b) ->
  exists c, cadd a b = Ok c /\ wf_coll c /\ clen c = (clen a + clen b)%nat /\ c_lines c = c_lines a ++ c_lines b /\
  c_axes c = c_axes a /\ c_ticks c = c_ticks a /\
  (forall i kv, (i < clen a)%nat -> (entry c i kv <-> entry a i kv)) /\
  (forall i kv, (i < clen b)%nat -> (entry c (clen a + i) kv <-> entry b i kv)).
Proof. exact add_collections. Qed.
Print Assumptions C58_adding_collections.

(** C58.  Adding spectra adds the intensities and keeps the common metadata. *)
Theorem C58_adding_spectra : forall a b, alike a b -> wf_dict (s_meta a) -> wf_dict (s_meta b) ->
  exists s, sadd a b = Ok s /\ s_axes s = s_axes a /\ s_ticks s = s_ticks a /\ length (s_data s) = length (s_data a) /\
  (forall j, nth j (s_data s) 0 = nth j (s_data a) 0 + nth j (s_data b) 0) /\
  forall kv, In kv (s_meta s) <-> In kv (s_meta a) /\ In kv (s_meta b).
Proof. exact add_spectra. Qed.
Print Assumptions C58_adding_spectra.

(** C58, refuted: spectra on different axes are refused.  Axes are compared with an
    absolute tolerance of 1e-8 whatever their unit, so small ones are mixed. *)
Theorem C58_different_axes_refuted : exists a b s, s_axes a = [[0; 1 / 10 ^ 9]] /\ s_axes b = [[0; 9 / 10 ^ 9]] /\
  wf_dict (s_meta a) /\ wf_dict (s_meta b) /\ sadd a b = Ok s /\ s_axes s = s_axes a.
Proof. exact tiny_axes_mixed. Qed.
Print Assumptions C58_different_axes_refuted.

Example C58_nonvacuous : wf_coll three /\ exists c, cadd three three = Ok c /\ length (c_lines c) = 6%nat.
Proof.
  split; [exact three_wf|]. destruct (add_collections three three three_wf three_wf eq_refl eq_refl eq_refl) as (c & E & _ & _ & L & _).
  exists c. split; [exact E|]. rewrite L. reflexivity.
Qed.
