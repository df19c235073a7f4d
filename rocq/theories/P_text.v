(** C87: what the text files of spectra hold. *)
From Coq Require Import String.
From Verif Require Import Base M_bins M_coll M_text S_plot L_text.
Open Scope R_scope.

(** C87.  A collection of lines of n values is written as n rows.  Row i starts with the place
    value i is shown at; the header has one entry for each line, in order, and the column it
    names (counting from one) holds that line.  The metadata of the entry, added to the common
    metadata of the header, is the metadata of the line. *)
Theorem C87_columns : forall xu yu c x n, c_axes c = [x] -> c_lines c <> [] -> (forall y, In y (c_lines c) -> List.length y = n) ->
  List.length x = n \/ List.length x = S n -> (forall l, line_data (c_meta c) = Some l -> List.length l = clen c) ->
  exists f b, to_text_file xu yu c = Ok f /\ shown_at x n b /\ tf_xunit f = xu /\ tf_yunit f = yu /\
    List.length (tf_rows f) = n /\
    (forall i, (i < n)%nat -> List.length (nth i (tf_rows f) []) = S (clen c) /\ nth 0 (nth i (tf_rows f) []) 0 = nth i b 0) /\
    List.length (tf_columns f) = clen c /\
    forall j, (j < clen c)%nat -> exists col d, nth_error (tf_columns f) j = Some (col, j, d) /\
      (forall i, (i < n)%nat -> nth (col - 1) (nth i (tf_rows f) []) 0 = nth i (nth j (c_lines c) []) 0) /\
      nth_error (iter_metadata c) j = Some (dict_union (tf_common f) d).
Proof. exact text_file. Qed.
Print Assumptions C87_columns.

(** Two lines on one bin axis *)
Example C87_columns_case : let c := mkColl [[0; 2; 4]] [[1; 2]; [3; 4]] None (mkM [("a"%string, VInt 1)] (Some [[("b"%string, VInt 2)]; [("b"%string, VInt 3)]])) in
  c_lines c <> [] /\ (forall y, In y (c_lines c) -> List.length y = 2%nat) /\ (forall l, line_data (c_meta c) = Some l -> List.length l = clen c) /\
  option_map (fun f => tf_rows f) (match to_text_file "meV" "1/meV" c with Ok f => Some f | Err _ => None end) = Some [[(2 + 0) * (1 / 2); 1; 3]; [(4 + 2) * (1 / 2); 2; 4]].
Proof.
  cbv zeta. cbn [c_lines c_meta line_data clen List.length]. split; [discriminate|]. split; [intros y [<-|[<-|[]]]; reflexivity|].
  split; [intros l H; injection H as <-; reflexivity|]. cbn. f_equal. f_equal; [f_equal; lra|]. f_equal. f_equal. lra.
Qed.

(** C87.  One spectrum is written as two columns, with all its metadata in common. *)
Theorem C87_single : forall xu yu s x n, s_axes s = [x] -> List.length (s_data s) = n -> List.length x = n \/ List.length x = S n ->
  has_key "line_data" (s_meta s) = false ->
  exists f b, to_text_file_1d xu yu s = Ok f /\ shown_at x n b /\ tf_xunit f = xu /\ tf_yunit f = yu /\ tf_common f = s_meta s /\
    tf_columns f = [(2%nat, 0%nat, [])] /\ List.length (tf_rows f) = n /\
    forall i, (i < n)%nat -> nth i (tf_rows f) [] = [nth i b 0; nth i (s_data s) 0].
Proof. exact text_file_1d. Qed.
Print Assumptions C87_single.

Example C87_single_case : let s := mkS [[0; 1; 2]] [5; 6; 7] None [("a"%string, VInt 1)] in
  has_key "line_data" (s_meta s) = false /\ exists f, to_text_file_1d "meV" "1/meV" s = Ok f /\ tf_rows f = [[0; 5]; [1; 6]; [2; 7]].
Proof. split; [reflexivity|]. eexists. split; reflexivity. Qed.

(** C87.  A spectrum with metadata called line_data is refused with an AssertionError. *)
Theorem C87_reserved : forall xu yu s, has_key "line_data" (s_meta s) = true -> to_text_file_1d xu yu s = Err (TxColl LineDataInside).
Proof. exact text_1d_refused. Qed.
Print Assumptions C87_reserved.

(** C87.  It is not so that the first column is x_data, as documented, if x_data are bin edges:
    spectra on different bins make the same file, whatever their values and metadata. *)
Theorem C87_first_column_refuted : exists e e', e <> e' /\ forall xu yu y1 y2 m,
  to_text_file_1d xu yu (mkS [e] [y1; y2] None m) = to_text_file_1d xu yu (mkS [e'] [y1; y2] None m).
Proof.
  exists even_axis, odd_axis. split; [intros H; injection H; intros; lra|]. intros xu yu y1 y2 m.
  destruct (edges_lost xu yu y1 y2 m) as (f & -> & ->). reflexivity.
Qed.
Print Assumptions C87_first_column_refuted.
