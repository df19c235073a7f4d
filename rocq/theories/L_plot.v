(** Lemmas for C86. *)
From Coq Require Import String Sorted.
From Verif Require Import Base M_qpts M_path M_broad M_dos M_bins M_plot S_plot S_intmap L_util L_qpts L_path L_path2 L_dos2 L_bins L_bins2 L_kin.
Open Scope R_scope.

Lemma pair_at (x : list R) i : (S i < length x)%nat -> nth i (combine (removelast x) (tl x)) (0, 0) = (nth i x 0, nth (S i) x 0).
Proof. intros Hi. rewrite L_path.nth_combine by (rewrite length_removelast, length_tl; lia). rewrite nth_removelast, nth_tl by exact Hi. reflexivity. Qed.
Lemma restarts_spec x : exists idx, restarts x = map Z.of_nat idx /\ repeats x idx.
Proof.
  unfold restarts. set (m := map (fun p => Reqb (fst p) (snd p)) (combine (removelast x) (tl x))). exists (map S (where_true m)). split; [|split].
  - rewrite map_map. apply map_ext. intros i. lia.
  - assert (St : StronglySorted lt (where_true m)) by (unfold where_true; apply filter_strong, seq_strong).
    induction St as [|a l S0 IH F]; cbn [map]; constructor; [exact IH|]. rewrite Forall_forall in *. intros b I. apply in_map_iff in I.
    destruct I as (c & <- & I). specialize (F c I). lia.
  - assert (Lm : length m = (length x - 1)%nat) by (unfold m; rewrite map_length, combine_length, length_removelast, length_tl; lia).
    intros b. rewrite in_map_iff. split.
    + intros (i & <- & I). apply in_where_true in I. destruct I as [Hi E]. rewrite Lm in Hi. split; [lia|].
      unfold m in E. rewrite (map_nth_indep _ _ _ (0, 0) false) in E by (rewrite combine_length, length_removelast, length_tl; lia).
      rewrite (pair_at x i) in E by lia. cbn [fst snd] in E. destruct (Reqb_spec (nth i x 0) (nth (S i) x 0)) as [H|H]; [|discriminate].
      replace (S i - 1)%nat with i by lia. exact H.
    + intros [Hb E]. exists (b - 1)%nat. split; [lia|]. apply in_where_true. split; [lia|].
      unfold m. rewrite (map_nth_indep _ _ _ (0, 0) false) by (rewrite combine_length, length_removelast, length_tl; lia).
      rewrite (pair_at x (b - 1)) by lia. cbn [fst snd]. replace (S (b - 1)) with b by lia.
      destruct (Reqb_spec (nth (b - 1) x 0) (nth b x 0)) as [H|H]; [reflexivity|contradiction].
Qed.

Lemma ranges_nth idx : forall a, length (pairs_from (Z.of_nat a) (map Z.of_nat idx)) = S (length idx) /\
  forall m, (m <= length idx)%nat -> nth_error (pairs_from (Z.of_nat a) (map Z.of_nat idx)) m
    = Some (Z.of_nat (nth m (a :: idx) 0%nat), if (m <? length idx)%nat then Some (Z.of_nat (nth m idx 0%nat)) else None).
Proof.
  induction idx as [|b idx IH]; intros a; cbn [map pairs_from length].
  - split; [reflexivity|]. intros m Hm. assert (m = 0%nat) by lia. subst m. reflexivity.
  - destruct (IH b) as [L N]. split; [rewrite L; reflexivity|]. intros [|m] Hm; [reflexivity|]. cbn [nth_error nth]. rewrite N by lia.
    change (S m <? S (length idx))%nat with (m <? length idx)%nat. reflexivity.
Qed.
Lemma piece_mid {A} (l : list A) lo hi : (lo <= hi <= length l)%nat -> piece_of l lo hi (firstn (hi - lo) (skipn lo l)).
Proof.
  intros H. split; [rewrite firstn_length, skipn_length; lia|]. intros i Hi.
  rewrite <- (firstn_skipn lo l) at 2. rewrite nth_error_app2 by (rewrite firstn_length; lia). rewrite firstn_length.
  replace (lo + i - Nat.min lo (length l))%nat with i by lia.
  rewrite <- (firstn_skipn (hi - lo) (skipn lo l)) at 2. rewrite nth_error_app1 by (rewrite firstn_length, skipn_length; lia). reflexivity.
Qed.
Lemma piece_slice {A} (l : list A) idx m : StronglySorted lt idx -> (forall b, In b idx -> (0 < b <= length l)%nat) -> (m <= length idx)%nat ->
  (start_of idx m <= end_of idx (length l) m <= length l)%nat /\
  piece_of l (start_of idx m) (end_of idx (length l) m) (pyslice l (Z.of_nat (start_of idx m)) (if (m <? length idx)%nat then Some (Z.of_nat (nth m idx 0%nat)) else None)).
Proof.
  intros St Hb Hm. unfold start_of, end_of.
  assert (Lo : (nth m (0 :: idx) 0 <= length l)%nat).
  { destruct m as [|m]; cbn [nth]; [lia|]. apply Hb, nth_In. lia. }
  destruct (Nat.ltb_spec m (length idx)) as [H|H].
  - rewrite app_nth1 by exact H. assert (Hi : (nth m idx 0 <= length l)%nat) by (apply Hb, nth_In; exact H).
    assert (Le : (nth m (0 :: idx) 0 <= nth m idx 0)%nat).
    { destruct m as [|m]; cbn [nth]; [lia|]. apply Nat.lt_le_incl. clear - St H. revert m H. induction St as [|a l S0 IH F]; intros m H; [cbn in H; lia|].
      destruct m as [|m]; cbn [nth]; [|apply IH; cbn [length] in H; lia]. rewrite Forall_forall in F. apply F. apply nth_In. cbn [length] in H. lia. }
    split; [lia|]. rewrite pyslice_mid by lia. rewrite !Nat2Z.id. apply piece_mid. lia.
  - assert (m = length idx) by lia. subst m. rewrite app_nth2, Nat.sub_diag by lia. change (nth 0 [length l] 0%nat) with (length l).
    split; [lia|]. rewrite pyslice_end by lia. rewrite Nat2Z.id.
    assert (E : skipn (nth (length idx) (0 :: idx) 0)%nat l = firstn (length l - nth (length idx) (0 :: idx) 0)%nat (skipn (nth (length idx) (0 :: idx) 0)%nat l))
      by (rewrite firstn_all2; [reflexivity|rewrite skipn_length; lia]).
    rewrite E. apply piece_mid. lia.
Qed.

Lemma centres_shown x n c : get_bin_centres n x = Ok c -> shown_at x n c.
Proof.
  unfold get_bin_centres, is_bin_edge. destruct (Nat.eqb_spec (length x) (n + 1)) as [E|N].
  - intros H. injection H as <-. split; [rewrite length_centres; lia|]. right. split; [lia|]. intros i Hi. apply nth_centres. lia.
  - destruct (Nat.eqb_spec (length x) n) as [E|]; [|discriminate]. intros H. injection H as <-. split; [exact E|]. left. split; [exact E|reflexivity].
Qed.
Lemma centres_exist x n : length x = n \/ length x = S n -> exists c, get_bin_centres n x = Ok c.
Proof.
  intros H. unfold get_bin_centres, is_bin_edge. destruct (Nat.eqb_spec (length x) (n + 1)); [eexists; reflexivity|].
  destruct (Nat.eqb_spec (length x) n); [eexists; reflexivity|]. destruct H; lia.
Qed.

Lemma segments_spec x n idx c : restarts x = map Z.of_nat idx -> get_bin_centres n x = Ok c ->
  forall lines colour, (forall p, In p lines -> length (fst p) = n) ->
  exists segs, all_segments x lines colour = Ok segs /\ length segs = (length lines * S (length idx))%nat /\
  forall i y b m, nth_error lines i = Some (y, b) -> (m <= length idx)%nat ->
    nth_error segs (i * S (length idx) + m) =
      let lo := Z.of_nat (start_of idx m) in let hi := if (m <? length idx)%nat then Some (Z.of_nat (nth m idx 0%nat)) else None in
      Some (mkSeg (pyslice c lo hi) (pyslice y lo hi) (if Z.eqb lo 0 then b else None) (colour + i)).
Proof.
  intros Ex Ec. destruct (ranges_nth idx 0) as [Lr Nr]. induction lines as [|[y0 b0] lines IH]; intros colour H; cbn [all_segments].
  - exists []. split; [reflexivity|]. split; [reflexivity|]. intros [|i] y b m E; discriminate.
  - replace (length y0) with n by (symmetry; exact (H (y0, b0) (or_introl eq_refl))). rewrite Ec.
    destruct (IH (S colour)) as (segs & Es & Ls & Ns); [intros p I; apply H; right; exact I|]. rewrite Es, Ex. eexists. split; [reflexivity|].
    assert (L0 : length (line_segments c y0 b0 colour (ranges_from_indices (map Z.of_nat idx))) = S (length idx)) by (unfold line_segments, ranges_from_indices; rewrite map_length; exact Lr).
    split; [rewrite app_length, L0, Ls; cbn [length]; lia|]. intros [|i] y b m E Hm; cbn [nth_error] in E.
    + injection E as <- <-. rewrite nth_error_app1 by lia. unfold line_segments, ranges_from_indices. change 0%Z with (Z.of_nat 0). cbn [Nat.mul Nat.add].
      rewrite nth_error_map, Nr by exact Hm. cbn [option_map fst snd]. unfold start_of. rewrite Nat.add_0_r. reflexivity.
    + rewrite nth_error_app2 by (rewrite L0; nia). rewrite L0. replace (S i * S (length idx) + m - S (length idx))%nat with (i * S (length idx) + m)%nat by nia.
      rewrite (Ns i y b m E Hm). cbv zeta. do 2 f_equal. lia.
Qed.

Lemma labelled s labels lines : (match labels with
         | None => Ok (c1_lines s)
         | Some l => if Nat.eqb (List.length l) (List.length (c1_lines s))
                     then Ok (map (fun p => (fst (snd p), Some (fst p))) (combine l (c1_lines s))) else Err LabelCount
         end) = Ok lines ->
  length lines = length (c1_lines s) /\ (forall p, In p lines -> exists q, In q (c1_lines s) /\ fst q = fst p) /\
  forall i y b, nth_error (c1_lines s) i = Some (y, b) -> nth_error lines i = Some (y, label_of (c1_lines s) labels i).
Proof.
  destruct labels as [l|]; cbn [label_of].
  - destruct (Nat.eqb_spec (List.length l) (List.length (c1_lines s))) as [E|]; [|discriminate]. intros H. injection H as <-.
    split; [rewrite map_length, combine_length; lia|]. split.
    + intros p I. apply in_map_iff in I. destruct I as ((a, q) & <- & I). apply in_combine_r in I. exists q. split; [exact I|reflexivity].
    + intros i y b Ei. assert (Hi : (i < length (c1_lines s))%nat) by (apply nth_error_Some; rewrite Ei; discriminate).
      destruct (nth_error l i) as [a|] eqn:El; [|apply nth_error_None in El; lia].
      rewrite nth_error_map. assert (Ec : nth_error (combine l (c1_lines s)) i = Some (a, (y, b))).
      { clear - Ei El. revert i Ei El. generalize (c1_lines s). induction l as [|a0 l IH]; intros q i E1 E2; [destruct i; discriminate|].
        destruct q as [|q0 q]; [destruct i; discriminate|]. destruct i as [|i]; cbn in *; [congruence|]. apply IH; assumption. }
      rewrite Ec. reflexivity.
  - intros H. injection H as <-. split; [reflexivity|]. split; [intros p I; exists p; split; [exact I|reflexivity]|].
    intros i y b E. rewrite E. reflexivity.
Qed.

Lemma lines_drawn s labels colour a n : (forall p, In p (c1_lines s) -> length (fst p) = n) -> plot_1d_to_axis s labels colour = Ok a ->
  exists idx, repeats (c1_x s) idx /\ length (ax_segs a) = (length (c1_lines s) * S (length idx))%nat /\
  forall i y b, nth_error (c1_lines s) i = Some (y, b) -> exists c, shown_at (c1_x s) n c /\
  forall m, (m <= length idx)%nat -> exists g, nth_error (ax_segs a) (i * S (length idx) + m) = Some g /\
    let lo := start_of idx m in let hi := end_of idx n m in (lo <= hi <= n)%nat /\ piece_of c lo hi (sg_x g) /\ piece_of y lo hi (sg_y g) /\
    sg_label g = (if Nat.eqb m 0 then label_of (c1_lines s) labels i else None) /\ sg_colour g = (colour + i)%nat.
Proof.
  intros H. unfold plot_1d_to_axis. destruct (match labels with None => _ | Some _ => _ end) as [lines|] eqn:El; [|discriminate].
  destruct (labelled s labels lines El) as (Ll & Il & Nl).
  assert (Hl : forall p, In p lines -> length (fst p) = n) by (intros p I; destruct (Il p I) as (q & Iq & <-); exact (H q Iq)).
  destruct (restarts_spec (c1_x s)) as (idx & Er & Rp).
  destruct (all_segments (c1_x s) lines colour) as [segs|] eqn:Es; [|discriminate]. destruct (c1_x s) as [|x0 xr] eqn:Ex; [discriminate|]. rewrite <- Ex in *.
  destruct (set_x_tick_labels _ _) as [t|]; [|discriminate]. intros E. injection E as <-. cbn [ax_segs]. exists idx. split; [exact Rp|].
  destruct lines as [|[y0 b0] lr] eqn:Eq.
  { cbn in Es. injection Es as <-. cbn [length] in Ll. rewrite <- Ll. split; [reflexivity|]. intros i y b E. destruct (c1_lines s); [destruct i; discriminate|discriminate]. }
  rewrite <- Eq in *. assert (C : exists c, get_bin_centres n (c1_x s) = Ok c).
  { rewrite Eq in Es. cbn [all_segments] in Es. replace (length y0) with n in Es by (symmetry; apply (Hl (y0, b0)); rewrite Eq; left; reflexivity).
    destruct (get_bin_centres n (c1_x s)) as [c|]; [exists c; reflexivity|discriminate]. }
  destruct C as [c Ec]. destruct (segments_spec _ _ _ _ Er Ec lines colour Hl) as (segs' & Es' & Ls & Ns). rewrite Es in Es'. injection Es' as <-.
  split; [rewrite Ls, Ll; reflexivity|]. intros i y b Ei. exists c. pose proof (centres_shown _ _ _ Ec) as [Lc Sc]. split; [split; assumption|].
  intros m Hm. specialize (Nl i y b Ei). rewrite (Ns i y _ m Nl Hm). cbv zeta. eexists. split; [reflexivity|]. cbn [sg_x sg_y sg_label sg_colour].
  destruct Rp as [St Hb]. assert (B : forall d, In d idx -> (0 < d <= n)%nat).
  { intros d I. apply Hb in I. destruct Sc as [[Lx _]|[Lx _]]; lia. }
  assert (Ly : length y = n) by (apply nth_error_In in Ei; exact (H _ Ei)).
  destruct (piece_slice c idx m St) as [O P1]; [rewrite Lc; exact B|exact Hm|]. destruct (piece_slice y idx m St) as [_ P2]; [rewrite Ly; exact B|exact Hm|].
  rewrite Lc in O, P1. rewrite Ly in P2. split; [exact O|]. split; [exact P1|]. split; [exact P2|]. split; [|reflexivity].
  unfold start_of. destruct m as [|m]; [reflexivity|]. cbn [nth Nat.eqb]. assert (I : In (nth m idx 0%nat) idx) by (apply nth_In; lia). apply B in I.
  destruct (Z.eqb_spec (Z.of_nat (nth m idx 0%nat)) 0); [lia|reflexivity].
Qed.

Lemma least_list x0 xr : least (Rmin_list x0 xr) (x0 :: xr).
Proof. split; [apply Rmin_list_in|]. intros u I. apply Rmin_list_le. exact I. Qed.
Lemma greatest_list x0 xr : greatest (Rmax_list x0 xr) (x0 :: xr).
Proof. split; [apply Rmax_list_in|]. intros u I. apply Rmax_list_ge. exact I. Qed.

Lemma take_spec x locs v : np_take x locs = Ok v -> length v = length locs /\ forall j loc, nth_error locs j = Some loc ->
  nth_error v j = nth_error x (Z.to_nat (if (loc <? 0)%Z then loc + Z.of_nat (length x) else loc)%Z) /\ (- Z.of_nat (length x) <= loc < Z.of_nat (length x))%Z.
Proof.
  unfold np_take. intros E. destruct (mapE_inv _ _ _ E) as [L N]. split; [exact L|]. intros j loc Ej.
  assert (Hj : (j < length locs)%nat) by (apply nth_error_Some; rewrite Ej; discriminate).
  specialize (N j 0%Z 0 Hj). cbv beta zeta in N. rewrite (nth_error_nth _ _ 0%Z Ej) in N.
  destruct (_ || _)%bool eqn:B; [discriminate|]. apply orb_false_elim in B. destruct B as [B1 B2]. apply Z.ltb_ge in B1. apply Z.leb_gt in B2.
  destruct (nth_error x _) as [w|] eqn:Ew; [|discriminate]. injection N as ->. split; [|lia].
  apply nth_error_nth'. lia.
Qed.
Lemma take_runs x locs : (forall loc, In loc locs -> (- Z.of_nat (length x) <= loc < Z.of_nat (length x))%Z) -> exists v, np_take x locs = Ok v.
Proof.
  intros H. unfold np_take. induction locs as [|l locs IH]; [exists []; reflexivity|]. cbn [mapE].
  assert (B := H l (or_introl eq_refl)). replace (_ || _)%bool with false by (symmetry; apply orb_false_intro; [apply Z.ltb_ge|apply Z.leb_gt]; lia).
  destruct (nth_error x _) as [w|] eqn:Ew; [|apply nth_error_None in Ew; destruct (Z.ltb_spec l 0); lia].
  destruct IH as [v ->]; [intros loc I; apply H; right; exact I|]. eexists. reflexivity.
Qed.
Lemma take_fails x locs loc : In loc locs -> ~ (- Z.of_nat (length x) <= loc < Z.of_nat (length x))%Z -> np_take x locs = Err TickIndex.
Proof.
  intros I H. unfold np_take. induction locs as [|l locs IH]; [destruct I|]. cbn [mapE].
  destruct (_ || _)%bool eqn:B; [reflexivity|]. apply orb_false_elim in B. destruct B as [B1 B2]. apply Z.ltb_ge in B1. apply Z.leb_gt in B2.
  destruct (nth_error x _) as [w|] eqn:Ew; [|reflexivity]. destruct I as [->|I]; [lia|]. rewrite (IH I). reflexivity.
Qed.

Lemma ticks_spec t x tk : set_x_tick_labels t x = Ok tk ->
  match t with
  | None => tk = None
  | Some l => l <> [] /\ exists k, tk = Some k /\ ticks_at x l (tk_at k) (tk_labels k) /\ (tk_upright k = true <-> exists s, In s (map snd l) /\ (10 < String.length s)%nat)
  end.
Proof.
  unfold set_x_tick_labels. destruct t as [[|p l]|]; [discriminate| |intros E; injection E as <-; reflexivity].
  set (L := p :: l). assert (Nl : L <> []) by discriminate. clearbody L. destruct (np_take x (map fst L)) as [v|] eqn:Ev; [|discriminate]. intros E. injection E as <-. split; [exact Nl|]. eexists. split; [reflexivity|].
  cbn [tk_at tk_labels tk_upright]. destruct (take_spec _ _ _ Ev) as [Lv Nv]. split.
  - split; [reflexivity|]. split; [rewrite Lv, map_length; reflexivity|]. intros j loc s Ej. apply Nv. rewrite nth_error_map, Ej. reflexivity.
  - rewrite existsb_exists. split; intros (s & I & H); exists s; (split; [exact I|]);
      [change (Nat.leb 11 (String.length s) = true) in H; apply Nat.leb_le in H; lia|change (Nat.leb 11 (String.length s) = true); apply Nat.leb_le; lia].
Qed.

Lemma frame_spec s labels colour a n : (forall p, In p (c1_lines s) -> length (fst p) = n) -> plot_1d_to_axis s labels colour = Ok a ->
  least (ax_left a) (c1_x s) /\ greatest (ax_right a) (c1_x s) /\
  forall g v, In g (ax_segs a) -> In v (sg_x g) -> ax_left a <= v <= ax_right a.
Proof.
  intros H E. assert (F : least (ax_left a) (c1_x s) /\ greatest (ax_right a) (c1_x s)).
  { revert E. unfold plot_1d_to_axis. destruct (match labels with None => _ | Some _ => _ end) as [lines|]; [|discriminate].
    destruct (all_segments _ _ _) as [segs|]; [|discriminate]. destruct (c1_x s) as [|x0 xr]; [discriminate|]. destruct (set_x_tick_labels _ _); [|discriminate].
    intros E. injection E as <-. split; [apply least_list|apply greatest_list]. }
  destruct F as [F1 F2]. split; [exact F1|]. split; [exact F2|]. destruct F1 as [_ F1]. destruct F2 as [_ F2].
  destruct (lines_drawn s labels colour a n H E) as (idx & _ & Ls & N). intros g v Ig Iv. apply In_nth_error in Ig. destruct Ig as [k Ek].
  assert (Hk : (k < length (ax_segs a))%nat) by (apply nth_error_Some; rewrite Ek; discriminate). rewrite Ls in Hk.
  set (w := S (length idx)) in *. assert (Hi : (k / w < length (c1_lines s))%nat) by (apply Nat.div_lt_upper_bound; [unfold w; lia|lia]).
  destruct (nth_error (c1_lines s) (k / w)) as [[y b]|] eqn:Ei; [|apply nth_error_None in Ei; lia]. destruct (N _ _ _ Ei) as (c & [Lc Sc] & M).
  assert (Hm : (k mod w <= length idx)%nat) by (pose proof (Nat.mod_upper_bound k w); unfold w in *; lia).
  destruct (M _ Hm) as (g' & Eg & O & [Lx Px] & _). replace (k / w * w + k mod w)%nat with k in Eg by (rewrite (Nat.div_mod_eq k w) at 1; lia).
  rewrite Ek in Eg. injection Eg as <-. apply In_nth_error in Iv. destruct Iv as [j Ej].
  assert (Hj : (j < length (sg_x g))%nat) by (apply nth_error_Some; rewrite Ej; discriminate). rewrite (Px j ltac:(lia)) in Ej.
  destruct Sc as [[_ ->]|[Lx' Mc]]; [apply nth_error_In in Ej; split; [apply F1|apply F2]; exact Ej|].
  set (i := (start_of idx (k mod w) + j)%nat) in *. assert (Hi' : (i < n)%nat) by (rewrite <- Lc; apply nth_error_Some; rewrite Ej; discriminate).
  pose proof (nth_error_nth c i 0 Ej) as Ev. rewrite (Mc i Hi') in Ev. assert (I1 : In (nth i (c1_x s) 0) (c1_x s)) by (apply nth_In; lia).
  assert (I2 : In (nth (S i) (c1_x s) 0) (c1_x s)) by (apply nth_In; lia). pose proof (F1 _ I1). pose proof (F1 _ I2). pose proof (F2 _ I1). pose proof (F2 _ I2). lra.
Qed.
Lemma axis_ticks s labels colour a : plot_1d_to_axis s labels colour = Ok a ->
  match c1_ticks s with
  | None => ax_ticks a = None
  | Some l => l <> [] /\ exists k, ax_ticks a = Some k /\ ticks_at (c1_x s) l (tk_at k) (tk_labels k) /\
      (tk_upright k = true <-> exists s, In s (map snd l) /\ (10 < String.length s)%nat)
  end.
Proof.
  unfold plot_1d_to_axis. destruct (match labels with None => _ | Some _ => _ end) as [lines|]; [|discriminate].
  destruct (all_segments _ _ _) as [segs|]; [|discriminate]. destruct (c1_x s) as [|x0 xr]; [discriminate|].
  destruct (set_x_tick_labels _ _) as [t|] eqn:Et; [|discriminate]. intros E. injection E as <-. exact (ticks_spec _ _ _ Et).
Qed.

(** ** When there is a plot *)
Lemma lines_run s labels colour n : (forall p, In p (c1_lines s) -> length (fst p) = n) -> (length (c1_x s) = n \/ length (c1_x s) = S n) -> c1_x s <> [] ->
  (forall l, labels = Some l -> length l = length (c1_lines s)) ->
  exists segs x0 xr, c1_x s = x0 :: xr /\ plot_1d_to_axis s labels colour =
    match set_x_tick_labels (c1_ticks s) (c1_x s) with Err e => Err e | Ok t => Ok (mkA1 segs (Rmin_list x0 xr) (Rmax_list x0 xr) t) end.
Proof.
  intros H Lx Nx Hl. unfold plot_1d_to_axis.
  destruct (match labels with None => _ | Some _ => _ end) as [lines|] eqn:El.
  2:{ destruct labels as [l|]; [|discriminate]. rewrite (Hl l eq_refl), Nat.eqb_refl in El. discriminate. }
  destruct (labelled s labels lines El) as (Ll & Il & Nl). destruct (centres_exist _ n Lx) as [c Ec]. destruct (restarts_spec (c1_x s)) as (idx & Er & _).
  destruct (segments_spec _ _ _ _ Er Ec lines colour) as (segs & -> & _); [intros p I; destruct (Il p I) as (q & Iq & <-); exact (H q Iq)|].
  destruct (c1_x s) as [|x0 xr]; [congruence|]. exists segs, x0, xr. split; reflexivity.
Qed.
Lemma plot_runs s labels colour n : (forall p, In p (c1_lines s) -> length (fst p) = n) -> (length (c1_x s) = n \/ length (c1_x s) = S n) -> c1_x s <> [] ->
  (forall l, labels = Some l -> length l = length (c1_lines s)) ->
  (forall l, c1_ticks s = Some l -> l <> [] /\ forall p, In p l -> (- Z.of_nat (length (c1_x s)) <= fst p < Z.of_nat (length (c1_x s)))%Z) ->
  exists a, plot_1d_to_axis s labels colour = Ok a.
Proof.
  intros H Lx Nx Hl Ht. destruct (lines_run s labels colour n H Lx Nx Hl) as (segs & x0 & xr & _ & ->). unfold set_x_tick_labels.
  destruct (c1_ticks s) as [l|]; [|eexists; reflexivity]. destruct (Ht l eq_refl) as [Nl B]. destruct l as [|p l]; [congruence|].
  destruct (take_runs (c1_x s) (map fst (p :: l))) as [v ->]; [intros loc I; apply in_map_iff in I; destruct I as (q & <- & I); exact (B q I)|]. eexists. reflexivity.
Qed.
Lemma no_ticks_refused s labels colour n : (forall p, In p (c1_lines s) -> length (fst p) = n) -> (length (c1_x s) = n \/ length (c1_x s) = S n) -> c1_x s <> [] ->
  (forall l, labels = Some l -> length l = length (c1_lines s)) -> c1_ticks s = Some [] -> plot_1d_to_axis s labels colour = Err NoTicks.
Proof. intros H Lx Nx Hl Ht. destruct (lines_run s labels colour n H Lx Nx Hl) as (segs & x0 & xr & _ & ->). rewrite Ht. reflexivity. Qed.
Lemma bad_tick_refused s labels colour n l p : (forall p, In p (c1_lines s) -> length (fst p) = n) -> (length (c1_x s) = n \/ length (c1_x s) = S n) -> c1_x s <> [] ->
  (forall l, labels = Some l -> length l = length (c1_lines s)) -> c1_ticks s = Some l -> In p l ->
  ~ (- Z.of_nat (length (c1_x s)) <= fst p < Z.of_nat (length (c1_x s)))%Z -> plot_1d_to_axis s labels colour = Err TickIndex.
Proof.
  intros H Lx Nx Hl Ht I B. destruct (lines_run s labels colour n H Lx Nx Hl) as (segs & x0 & xr & _ & ->). rewrite Ht. unfold set_x_tick_labels.
  destruct l as [|q l]; [destruct I|]. rewrite (take_fails (c1_x s) (map fst (q :: l)) (fst p) (in_map fst _ _ I) B). reflexivity.
Qed.
Lemma labels_refused s l colour : length l <> length (c1_lines s) -> plot_1d_to_axis s (Some l) colour = Err LabelCount.
Proof. intros H. unfold plot_1d_to_axis. destruct (Nat.eqb_spec (List.length l) (List.length (c1_lines s))); [contradiction|reflexivity]. Qed.
