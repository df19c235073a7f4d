(** Lemmas about M_text.v. *)
From Coq Require Import String.
From Verif Require M_dos.
From Verif Require Import Base M_qpts M_path M_bins M_coll M_text S_plot L_plot.
Open Scope R_scope.

Definition line_data_ok (c : coll) : Prop := forall l, line_data (c_meta c) = Some l -> List.length l = clen c.

Lemma nth_error_tag {A} (l : list A) j d : nth_error l j = Some d ->
  nth_error (map (fun p => ((fst p + 2)%nat, fst p, snd p)) (combine (seq 0 (List.length l)) l)) j = Some ((j + 2)%nat, j, d).
Proof.
  assert (G : forall k, nth_error l j = Some d -> nth_error (map (fun p => ((fst p + 2)%nat, fst p, snd p)) (combine (seq k (List.length l)) l)) j = Some ((k + j + 2)%nat, (k + j)%nat, d)).
  { revert j. induction l as [|a l IH]; intros j k H; [destruct j; discriminate|].
    destruct j as [|j]; cbn [List.length seq combine map nth_error fst snd] in *.
    - injection H as ->. rewrite Nat.add_0_r. reflexivity.
    - rewrite (IH j (S k) H). replace (S k + j)%nat with (k + S j)%nat by lia. reflexivity. }
  exact (G 0%nat).
Qed.
Lemma length_tag {A} (l : list A) : List.length (map (fun p => ((fst p + 2)%nat, fst p, snd p)) (combine (seq 0 (List.length l)) l)) = List.length l.
Proof. rewrite map_length, combine_length, seq_length. lia. Qed.

Lemma hstack_row b lines i : (i < List.length b)%nat -> nth i (hstack_columns b lines) [] = nth i b 0 :: map (fun l => nth i l 0) lines.
Proof.
  intros Hi. unfold hstack_columns. set (g := fun i : nat => nth i b 0 :: map (fun l => nth i l 0) lines).
  rewrite (nth_indep _ [] (g 0%nat)) by (rewrite map_length, seq_length; exact Hi). rewrite map_nth, seq_nth by exact Hi. reflexivity.
Qed.
Lemma width_is n lines : lines <> [] -> (forall y, In y lines -> List.length y = n) -> width lines = n.
Proof. destruct lines as [|y l]; [congruence|]. intros _ H. apply H. left. reflexivity. Qed.

Lemma text_file xu yu c x n : c_axes c = [x] -> c_lines c <> [] -> (forall y, In y (c_lines c) -> List.length y = n) ->
  List.length x = n \/ List.length x = S n -> line_data_ok c ->
  exists f b, to_text_file xu yu c = Ok f /\ shown_at x n b /\ tf_xunit f = xu /\ tf_yunit f = yu /\
    List.length (tf_rows f) = n /\
    (forall i, (i < n)%nat -> List.length (nth i (tf_rows f) []) = S (clen c) /\ nth 0 (nth i (tf_rows f) []) 0 = nth i b 0) /\
    List.length (tf_columns f) = clen c /\
    forall j, (j < clen c)%nat -> exists col d, nth_error (tf_columns f) j = Some (col, j, d) /\
      (forall i, (i < n)%nat -> nth (col - 1) (nth i (tf_rows f) []) 0 = nth i (nth j (c_lines c) []) 0) /\
      nth_error (iter_metadata c) j = Some (dict_union (tf_common f) d).
Proof.
  intros Ax Ne Hl Lx Ld. destruct (centres_exist x n Lx) as [b Eb]. pose proof (centres_shown _ _ _ Eb) as Sh. pose proof (proj1 Sh) as Lb.
  unfold to_text_file. rewrite Ax, (width_is n _ Ne Hl). cbn [hd]. rewrite Eb. eexists. exists b. split; [reflexivity|].
  cbn [tf_xunit tf_yunit tf_common tf_columns tf_rows]. split; [exact Sh|]. split; [reflexivity|]. split; [reflexivity|].
  assert (Row : forall i, (i < n)%nat -> nth i (hstack_columns b (c_lines c)) [] = nth i b 0 :: map (fun l => nth i l 0) (c_lines c)).
  { intros i Hi. apply hstack_row. lia. }
  split; [unfold hstack_columns; rewrite map_length, seq_length; exact Lb|].
  split; [intros i Hi; rewrite Row by exact Hi; cbn [List.length nth]; rewrite map_length; split; reflexivity|].
  rewrite length_tag. unfold iter_metadata, line_data_ok in *. 
  set (line := match line_data (c_meta c) with Some l => l | None => map (fun _ => []) (c_lines c) end).
  assert (Ll : List.length line = clen c) by (unfold line; destruct (line_data (c_meta c)) as [l|]; [apply Ld; reflexivity|apply map_length]).
  split; [exact Ll|]. intros j Hj.
  destruct (nth_error line j) as [d|] eqn:Ej; [|apply nth_error_None in Ej; lia].
  exists (j + 2)%nat, d. split; [apply nth_error_tag; exact Ej|]. split.
  - intros i Hi. rewrite Row by exact Hi. replace (j + 2 - 1)%nat with (S j) by lia. cbn [nth].
    rewrite (nth_indep _ 0 ((fun l => nth i l 0) [])) by (rewrite map_length; exact Hj). rewrite (map_nth (fun l => nth i l 0)). reflexivity.
  - unfold line in Ej. destruct (line_data (c_meta c)) as [l|].
    + rewrite nth_error_map, Ej. reflexivity.
    + rewrite nth_error_map in Ej. destruct (nth_error (c_lines c) j); [|discriminate]. injection Ej as <-. rewrite nth_error_repeat by exact Hj. reflexivity.
Qed.

Lemma filter_all {A} (f : A -> bool) l : (forall a, In a l -> f a = true) -> filter f l = l.
Proof. induction l as [|a l IH]; intros H; cbn; [reflexivity|]. rewrite (H a) by (left; reflexivity). f_equal. apply IH. intros b I. apply H. right. exact I. Qed.
Lemma filter_none {A} (f : A -> bool) l : (forall a, In a l -> f a = false) -> filter f l = [].
Proof. induction l as [|a l IH]; intros H; cbn; [reflexivity|]. rewrite (H a) by (left; reflexivity). apply IH. intros b I. apply H. right. exact I. Qed.
Lemma has_key_in k v (d : dict) : In (k, v) d -> has_key k d = true.
Proof.
  unfold has_key. induction d as [|[k' v'] d IH]; [intros []|]. cbn [lookup]. destruct (String.eqb_spec k k'); [reflexivity|].
  intros [E|I]; [congruence|]. apply IH. exact I.
Qed.
Lemma combine_one m : has_key "line_data" m = false -> combine_metadata [m] = Ok (mkM m None).
Proof.
  intros H. unfold combine_metadata. cbn [existsb]. rewrite H. cbn [orb].
  rewrite (filter_all (fun kv => forallb (has_item kv) [])) by reflexivity. cbn [map existsb].
  rewrite (filter_none (fun kv => negb (has_key (fst kv) m))); [reflexivity|]. intros [k v] I. cbn [fst]. rewrite (has_key_in k v m I). reflexivity.
Qed.

Lemma text_file_1d xu yu s x n : s_axes s = [x] -> List.length (s_data s) = n -> List.length x = n \/ List.length x = S n ->
  has_key "line_data" (s_meta s) = false ->
  exists f b, to_text_file_1d xu yu s = Ok f /\ shown_at x n b /\ tf_xunit f = xu /\ tf_yunit f = yu /\ tf_common f = s_meta s /\
    tf_columns f = [(2%nat, 0%nat, [])] /\ List.length (tf_rows f) = n /\
    forall i, (i < n)%nat -> nth i (tf_rows f) [] = [nth i b 0; nth i (s_data s) 0].
Proof.
  intros Ax Ln Lx Hk. destruct (centres_exist x n Lx) as [b Eb]. pose proof (centres_shown _ _ _ Eb) as Sh. pose proof (proj1 Sh) as Lb.
  unfold to_text_file_1d, from_spectra. cbn [forallb map]. rewrite combine_one by exact Hk. cbn [bind]. unfold mk_coll. cbn [line_data].
  unfold to_text_file. cbn [c_axes c_lines c_meta line_data top width map List.length seq combine fst snd]. rewrite Ax, Ln. cbn [hd]. rewrite Eb.
  eexists. exists b. split; [reflexivity|]. cbn [tf_xunit tf_yunit tf_common tf_columns tf_rows].
  split; [exact Sh|]. split; [reflexivity|]. split; [reflexivity|]. split; [reflexivity|]. split; [reflexivity|].
  split; [unfold hstack_columns; rewrite map_length, seq_length; exact Lb|]. intros i Hi. apply (hstack_row b [s_data s]). lia.
Qed.
Lemma text_1d_refused xu yu s : has_key "line_data" (s_meta s) = true -> to_text_file_1d xu yu s = Err (TxColl LineDataInside).
Proof. intros H. unfold to_text_file_1d, from_spectra. cbn [forallb map]. unfold combine_metadata. cbn [existsb]. rewrite H. reflexivity. Qed.

(** Two axes of bin edges with the same centres *)
Definition even_axis : list R := [0; 2; 4].
Definition odd_axis : list R := [1 / 2; 3 / 2; 9 / 2].
Lemma same_centres : get_bin_centres 2 even_axis = get_bin_centres 2 odd_axis.
Proof.
  unfold get_bin_centres, is_bin_edge. cbn. f_equal. unfold M_dos.edges_to_centres. cbn. f_equal; [lra|]. f_equal. lra.
Qed.
Lemma edges_lost xu yu y1 y2 m : exists f, to_text_file_1d xu yu (mkS [even_axis] [y1; y2] None m) = f /\ to_text_file_1d xu yu (mkS [odd_axis] [y1; y2] None m) = f.
Proof.
  eexists. split; [reflexivity|]. unfold to_text_file_1d, from_spectra. cbn [forallb map s_meta s_axes s_data s_ticks].
  destruct (combine_metadata [m]) as [c|e]; [|reflexivity]. cbn [bind]. unfold mk_coll. destruct (line_data c) as [l|]; [destruct (Nat.eqb _ _); [|reflexivity]|];
    unfold to_text_file; cbn [c_axes c_lines c_meta width List.length hd]; rewrite same_centres; reflexivity.
Qed.
