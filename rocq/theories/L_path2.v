(** Lemmas for C41 (refutations), C50, C54, C55. *)
From Coq Require Import String Sorting.
From Verif Require Import Base Vec3 M_grid M_cell M_qpts M_dynmat M_path S_path L_grid L_cell L_qpts L_scidx L_struct L_conv L_util L_path L_insert.
Open Scope R_scope.

(** ** direction changes that are not labelled *)
Lemma int_part_frac x k : IZR k <= x < IZR k + 1 -> Int_part x = k.
Proof. intros H. apply Int_part_unique; lra. Qed.

Lemma not_gamma x y z : 1/100 < x < 1/2 -> is_gamma (x, y, z) = false.
Proof.
  intros Hx. unfold is_gamma. apply Rltb_nf. pose proof (frac_dist_nonneg y). pose proof (frac_dist_nonneg z).
  assert (frac_dist x = x).
  { unfold frac_dist. rewrite rint_small by (rewrite Rabs_right; lra). apply Rabs_right. lra. }
  unfold gamma_tol. assert (/ 10 ^ 15 < 1/100).
  { rewrite <- (Rinv_inv (1/100)). apply Rinv_lt_contravar; [|lra]. apply Rmult_lt_0_compat; lra. }
  lra.
Qed.

Lemma norm_axis_x a : 0 <= a -> norm (a, 0, 0) = a.
Proof. intros. unfold norm. cbn. replace (a * a + 0 * 0 + 0 * 0) with (a * a) by ring. apply sqrt_square. assumption. Qed.
Lemma norm_axis_y a : 0 <= a -> norm (0, a, 0) = a.
Proof. intros. unfold norm. cbn. replace (0 * 0 + a * a + 0 * 0) with (a * a) by ring. apply sqrt_square. assumption. Qed.
Lemma norm_axis_nx a : 0 <= a -> norm (- a, 0, 0) = a.
Proof. intros. unfold norm. cbn. replace (- a * - a + 0 * 0 + 0 * 0) with (a * a) by ring. apply sqrt_square. assumption. Qed.

(** Perpendicular turn with steps of 0.001. *)
Definition small_turn : list V3 := [(1/4, 0, 0); (251/1000, 0, 0); (251/1000, 1/1000, 0)].
Lemma small_turn_unlabelled : ~ In 1%nat (qpts_with_labels small_turn).
Proof.
  intros H. apply (proj2 (labels_spec small_turn)) in H. destruct H as [_ [H|[H|[_ [_ H]]]]]; [lia|cbn in H; lia|].
  destruct H as [H|[H|H]].
  - unfold turns, dir_tol in H. cbn [nth small_turn Nat.sub Nat.add] in H.
    replace (vsub (251/1000, 0, 0) (1/4, 0, 0)) with ((1/1000, 0, 0) : V3) in H by (cbn; f_equal; [f_equal|]; lra).
    replace (vsub (251/1000, 1/1000, 0) (251/1000, 0, 0)) with ((0, 1/1000, 0) : V3) in H by (cbn; f_equal; [f_equal|]; lra).
    rewrite norm_axis_x, norm_axis_y in H by lra. cbn [dot] in H.
    replace (0 * (1/1000) + 1/1000 * 0 + 0 * 0) with 0 in H by ring. rewrite Rabs_R0 in H.
    assert (5 / 10 ^ 6 = 5 / 1000000) by (f_equal; ring). lra.
  - cbn [nth small_turn] in H. rewrite not_gamma in H by lra. discriminate.
  - cbn [nth small_turn Nat.add] in H. injection H as H. lra.
Qed.

(** Going back along the same line. *)
Definition there_and_back : list V3 := [(1/8, 0, 0); (1/4, 0, 0); (1/8, 0, 0)].
Lemma there_and_back_unlabelled : ~ In 1%nat (qpts_with_labels there_and_back).
Proof.
  intros H. apply (proj2 (labels_spec there_and_back)) in H. destruct H as [_ [H|[H|[_ [_ H]]]]]; [lia|cbn in H; lia|].
  destruct H as [H|[H|H]].
  - unfold turns, dir_tol in H. cbn [nth there_and_back Nat.sub Nat.add] in H.
    replace (vsub (1/4, 0, 0) (1/8, 0, 0)) with ((1/8, 0, 0) : V3) in H by (cbn; f_equal; [f_equal|]; lra).
    replace (vsub (1/8, 0, 0) (1/4, 0, 0)) with ((- (1/8), 0, 0) : V3) in H by (cbn; f_equal; [f_equal|]; lra).
    rewrite norm_axis_nx, norm_axis_x in H by lra. cbn [dot] in H.
    replace (- (1/8) * (1/8) + 0 * 0 + 0 * 0) with (- (1/64)) in H by field. rewrite Rabs_Ropp, Rabs_right in H by lra.
    assert (0 < 5 / 10 ^ 6). { apply Rdiv_lt_0_compat; [lra|apply pow_lt; lra]. } lra.
  - cbn [nth there_and_back] in H. rewrite not_gamma in H by lra. discriminate.
  - cbn [nth there_and_back Nat.add] in H. injection H as H. lra.
Qed.

(** ** label text *)
Lemma isclose3_near a v : isclose3 label_tol a v = true -> (forall c, In c [fst (fst v); snd (fst v); snd v] -> 0 <= c < 1) ->
  let '(x, y, z) := vsub a v in Rabs x <= 11 / 10 ^ 6 /\ Rabs y <= 11 / 10 ^ 6 /\ Rabs z <= 11 / 10 ^ 6.
Proof.
  destruct a as [[a1 a2] a3], v as [[x y] z]. cbn [isclose3 vsub fst snd]. rewrite !andb_true_iff.
  intros [[H1 H2] H3] Hc. unfold isclose in *. apply Rleb_iff in H1, H2, H3.
  assert (T : label_tol + 1 / 10 ^ 5 = 11 / 10 ^ 6) by (unfold label_tol; field).
  assert (P : 0 < 1 / 10 ^ 5) by (apply Rdiv_lt_0_compat; [lra|apply pow_lt; lra]).
  assert (K : forall c, 0 <= c < 1 -> label_tol + 1 / 10 ^ 5 * Rabs c <= 11 / 10 ^ 6).
  { intros c Hcc. rewrite <- T. rewrite Rabs_right by lra. pose proof (Rmult_le_compat_l (1 / 10 ^ 5) c 1). lra. }
  pose proof (K x (Hc x (or_introl eq_refl))). pose proof (K y (Hc y (or_intror (or_introl eq_refl)))).
  pose proof (K z (Hc z (or_intror (or_intror (or_introl eq_refl))))). repeat split; lra.
Qed.

Lemma frac_bounds x : 0 <= x - IZR (Int_part x) < 1.
Proof. destruct (base_Int_part x). lra. Qed.

Lemma find_label_some points v s : find_label points v = Some s -> exists c, In (s, c) points /\ isclose3 label_tol c v = true.
Proof.
  unfold find_label. destruct (find _ points) as [[s' c]|] eqn:E; [|discriminate]. cbn. intros H. injection H as <-.
  apply find_some in E. exists c. exact E.
Qed.

Fixpoint rolln (n : nat) (v : V3) : V3 := match n with O => v | S n' => roll1 (rolln n' v) end.

Lemma label_sound points q s : get_qpt_label points q = s -> s <> ""%string ->
  exists n c, (n < 3)%nat /\ In (s, c) points /\ same_mod_integers (11 / 10 ^ 6) c (rolln n q).
Proof.
  intros H Hs. destruct q as [[x y] z].
  pose proof (frac_bounds x) as Bx. pose proof (frac_bounds y) as By. pose proof (frac_bounds z) as Bz.
  unfold get_qpt_label in H. cbv zeta in H.
  assert (G : forall n, (n < 3)%nat -> find_label points (rolln n (qpt_norm1 (x, y, z))) = Some s ->
    exists n c, (n < 3)%nat /\ In (s, c) points /\ same_mod_integers (11 / 10 ^ 6) c (rolln n (x, y, z))).
  { intros n Hn HF. apply find_label_some in HF. destruct HF as [c [Hc Hi]]. exists n, c. split; [exact Hn|]. split; [exact Hc|].
    apply isclose3_near in Hi.
    - destruct c as [[c1 c2] c3]. destruct n as [|[|[|n]]]; [| | |lia]; cbn [rolln roll1 qpt_norm1 vsub] in *.
      + exists (- Int_part x, - Int_part y, - Int_part z)%Z. cbn [zvec vsub]. rewrite !opp_IZR.
        destruct Hi as [H1 [H2 H3]]. repeat split; first [eapply Rle_trans; [|exact H1]; right; f_equal; ring | eapply Rle_trans; [|exact H2]; right; f_equal; ring | eapply Rle_trans; [|exact H3]; right; f_equal; ring].
      + exists (- Int_part z, - Int_part x, - Int_part y)%Z. cbn [zvec vsub]. rewrite !opp_IZR.
        destruct Hi as [H1 [H2 H3]]. repeat split; first [eapply Rle_trans; [|exact H1]; right; f_equal; ring | eapply Rle_trans; [|exact H2]; right; f_equal; ring | eapply Rle_trans; [|exact H3]; right; f_equal; ring].
      + exists (- Int_part y, - Int_part z, - Int_part x)%Z. cbn [zvec vsub]. rewrite !opp_IZR.
        destruct Hi as [H1 [H2 H3]]. repeat split; first [eapply Rle_trans; [|exact H1]; right; f_equal; ring | eapply Rle_trans; [|exact H2]; right; f_equal; ring | eapply Rle_trans; [|exact H3]; right; f_equal; ring].
    - intros d Hd. destruct n as [|[|[|n]]]; [| | |lia]; cbn [rolln roll1 qpt_norm1 fst snd In] in Hd; destruct Hd as [<-|[<-|[<-|[]]]]; assumption. }
  destruct (find_label points (qpt_norm1 (x, y, z))) as [s0|] eqn:E0; [apply (G 0%nat ltac:(lia)); rewrite <- H; exact E0|].
  destruct (find_label points (roll1 (qpt_norm1 (x, y, z)))) as [s1|] eqn:E1; [apply (G 1%nat ltac:(lia)); rewrite <- H; exact E1|].
  destruct (find_label points (roll1 (roll1 (qpt_norm1 (x, y, z))))) as [s2|] eqn:E2; [apply (G 2%nat ltac:(lia)); rewrite <- H; exact E2|].
  congruence.
Qed.

Lemma tol_small c : 0 <= c <= 1 -> label_tol + 1 / 10 ^ 5 * Rabs c < 1/100.
Proof.
  intros H. rewrite Rabs_right by lra. unfold label_tol.
  assert (1 / 10 ^ 6 = 1 / 1000000) by (f_equal; ring). assert (1 / 10 ^ 5 = 1 / 100000) by (f_equal; ring). rewrite H0, H1. lra.
Qed.
Lemma isclose_far a c : 0 <= c <= 1 -> (a - c <= - (1/100) \/ 1/100 <= a - c) -> isclose label_tol a c = false.
Proof.
  intros Hc Ha. unfold isclose. apply Rleb_nf. pose proof (tol_small c Hc).
  destruct Ha; [rewrite (Rabs_left (a - c))|rewrite (Rabs_right (a - c))]; lra.
Qed.
Lemma isclose_same a c : a = c -> isclose label_tol a c = true.
Proof.
  intros ->. unfold isclose. apply Rleb_iff. rewrite Rminus_diag_eq, Rabs_R0 by reflexivity.
  pose proof (Rabs_pos c). assert (0 < 1 / 10 ^ 5) by (apply Rdiv_lt_0_compat; [lra|apply pow_lt; lra]).
  assert (0 < label_tol) by (apply Rdiv_lt_0_compat; [lra|apply pow_lt; lra]).
  pose proof (Rmult_le_pos (1 / 10 ^ 5) (Rabs c)). lra.
Qed.

Ltac close_eval := cbn [find_label option_map find snd fst isclose3 roll1];
  repeat (first [rewrite isclose_same by lra | rewrite isclose_far by lra]; cbn [andb negb find option_map fst snd isclose3]).

(** Special points of the hexagonal lattice. *)
Definition hex_points : list (string * V3) :=
  [("GAMMA", (0,0,0)); ("A", (0,0,1/2)); ("K", (1/3,1/3,0)); ("H", (1/3,1/3,1/2));
   ("H_2", (1/3,1/3,-(1/2))); ("M", (1/2,0,0)); ("L", (1/2,0,1/2))]%string.

Lemma norm1_unit x y z : 0 <= x < 1 -> 0 <= y < 1 -> 0 <= z < 1 -> qpt_norm1 (x, y, z) = (x, y, z).
Proof.
  intros. unfold qpt_norm1. rewrite !(int_part_frac _ 0) by lra. rewrite !Rminus_0_r. reflexivity.
Qed.

Lemma hex_wrong_label : get_qpt_label hex_points (0, 1/2, 0) = "A"%string.
Proof.
  unfold get_qpt_label. rewrite norm1_unit by lra. cbv zeta. unfold hex_points.
  assert (E1 : find_label hex_points (0, 1/2, 0) = None).
  { unfold hex_points, find_label. close_eval. reflexivity. }
  assert (E2 : find_label hex_points (roll1 (0, 1/2, 0)) = Some "A"%string).
  { unfold hex_points, find_label. close_eval. reflexivity. }
  unfold hex_points in *. rewrite E1, E2. reflexivity.
Qed.

Lemma hex_not_A : ~ same_mod_integers (11 / 10 ^ 6) (0,0,1/2) (0,1/2,0).
Proof.
  intros [[[a b] c] H]. cbn [vsub zvec] in H. destruct H as [_ [_ H]].
  assert (11 / 10 ^ 6 = 11 / 1000000) by (f_equal; ring). rewrite H0 in H.
  assert (HI : (IZR (2 * c) <= 3/2 /\ 1/2 <= IZR (2 * c))%R).
  { rewrite mult_IZR. pose proof (Rle_abs (1/2 - 0 - IZR c)). pose proof (Rle_abs (- (1/2 - 0 - IZR c))). rewrite Rabs_Ropp in H2. lra. }
  assert (0 < 2 * c < 2)%Z by (split; apply lt_IZR; lra). lia.
Qed.

Definition gamma_noise : V3 := (- / 10 ^ 16, 0, 0).
Lemma noise_small : 0 < / 10 ^ 16 < 1/100 /\ / 10 ^ 16 < / 10 ^ 15.
Proof.
  split; [split; [apply Rinv_0_lt_compat, pow_lt; lra|]|apply Rinv_lt_contravar; [apply Rmult_lt_0_compat; apply pow_lt; lra|]; lra].
  rewrite <- (Rinv_inv (1/100)). apply Rinv_lt_contravar; [|lra]. apply Rmult_lt_0_compat; lra.
Qed.
Lemma gamma_noise_is_gamma : is_gamma gamma_noise = true.
Proof.
  destruct noise_small as [H1 H2]. unfold is_gamma, gamma_noise, gamma_tol. apply Rltb_iff.
  rewrite (frac_dist_int 0). unfold frac_dist. rewrite rint_small by (rewrite Rabs_Ropp, Rabs_right; lra).
  rewrite Rabs_Ropp, Rabs_right by lra. lra.
Qed.
Lemma gamma_noise_unlabelled : get_qpt_label hex_points gamma_noise = ""%string.
Proof.
  destruct noise_small as [H1 H2]. unfold get_qpt_label, gamma_noise.
  assert (E : qpt_norm1 (- / 10 ^ 16, 0, 0) = (1 - / 10 ^ 16, 0, 0)).
  { unfold qpt_norm1. rewrite (int_part_frac (- / 10 ^ 16) (-1)) by lra. rewrite (int_part_frac 0 0) by lra. f_equal; [f_equal|]; lra. }
  rewrite E. cbv zeta. clear E. revert H1. generalize (/ 10 ^ 16). intros e He. clear H2.
  assert (E0 : find_label hex_points (1 - e, 0, 0) = None) by (unfold hex_points, find_label; close_eval; reflexivity).
  assert (E1 : find_label hex_points (roll1 (1 - e, 0, 0)) = None) by (unfold hex_points, find_label; close_eval; reflexivity).
  assert (E2 : find_label hex_points (roll1 (roll1 (1 - e, 0, 0))) = None) by (unfold hex_points, find_label; close_eval; reflexivity).
  rewrite E0, E1, E2. reflexivity.
Qed.

Lemma negative_point_unlabelled : get_qpt_label [("S_0"%string, (-(1/4), 1/4, 1/4))] (-(1/4), 1/4, 1/4) = ""%string.
Proof.
  unfold get_qpt_label.
  assert (E : qpt_norm1 (-(1/4), 1/4, 1/4) = (3/4, 1/4, 1/4)).
  { unfold qpt_norm1. rewrite (int_part_frac (-(1/4)) (-1)) by lra. rewrite (int_part_frac (1/4) 0) by lra. f_equal; [f_equal|]; lra. }
  rewrite E. cbv zeta. unfold find_label. close_eval. reflexivity.
Qed.

(** ** gamma insertion in the command line tools *)
Lemma insert_rev {A} (p : nat -> bool) (x d : A) (l : list A) k m : (m + k = length l)%nat ->
  fold_left (fun s i => list_insert i x s) (rev (filter p (seq m k))) l
  = firstn m l ++ concat (map (fun i => if p i then [x; nth i l d] else [nth i l d]) (seq m k)).
Proof.
  revert m. induction k as [|k IH]; intros m Hm.
  - cbn. rewrite app_nil_r, firstn_all2 by lia. reflexivity.
  - cbn [seq filter map concat].
    assert (F : firstn (S m) l = firstn m l ++ [nth m l d]).
    { rewrite <- (firstn_skipn m l) at 1. rewrite firstn_app, firstn_firstn, firstn_length.
      replace (Nat.min (S m) m) with m by lia. replace (S m - Nat.min m (length l))%nat with 1%nat by lia. f_equal.
      destruct (skipn m l) as [|y t] eqn:E; [apply (f_equal (@length _)) in E; rewrite skipn_length in E; cbn in E; lia|].
      cbn. f_equal. rewrite <- (firstn_skipn m l), app_nth2; rewrite firstn_length; [|lia].
      replace (m - Nat.min m (length l))%nat with 0%nat by lia. rewrite E. reflexivity. }
    destruct (p m) eqn:Ep.
    + cbn [rev]. rewrite fold_left_app. rewrite IH by lia. cbn [fold_left]. unfold list_insert.
      rewrite F, <- app_assoc. rewrite firstn_app, skipn_app, firstn_length.
      replace (m - Nat.min m (length l))%nat with 0%nat by lia. rewrite firstn_firstn, Nat.min_id.
      rewrite skipn_all2 by (rewrite firstn_length; lia). cbn [firstn skipn app]. rewrite app_nil_r. reflexivity.
    + rewrite IH by lia. rewrite F, <- app_assoc. reflexivity.
Qed.

Lemma filter_map_swap' {A B} (f : A -> B) (p : B -> bool) l : filter p (map f l) = map f (filter (fun x => p (f x)) l).
Proof. induction l as [|a l IH]; [reflexivity|]. cbn. rewrite IH. destruct (p (f a)); reflexivity. Qed.

Lemma cli_gamma_filter labels : cli_gamma_indices labels = filter (interior_gamma_label labels) (seq 0 (length labels)).
Proof.
  unfold cli_gamma_indices, where_true. rewrite map_length, length_interior.
  destruct labels as [|a labels]; [reflexivity|].
  set (L := a :: labels). assert (HL : (0 < length L)%nat) by (cbn; lia). clearbody L. clear a labels.
  replace (length L) with (S (length L - 1)) at 2 by lia. cbn [seq filter].
  replace (interior_gamma_label L 0) with false by reflexivity.
  destruct (length L) as [|[|n]] eqn:E; [lia|reflexivity|]. replace (S (S n) - 2)%nat with n by lia. replace (S (S n) - 1)%nat with (S n) by lia.
  replace (seq 1 (S n)) with (map S (seq 0 n) ++ [S n])%list.
  2:{ rewrite seq_shift. replace (S n) with (n + 1)%nat at 2 by lia. rewrite seq_app. reflexivity. }
  rewrite filter_app. cbn [filter].
  replace (interior_gamma_label L (S n)) with false.
  2:{ unfold interior_gamma_label. rewrite E. replace (S n <? S (S n) - 1)%nat with false by (symmetry; apply Nat.ltb_ge; lia). rewrite andb_false_r. reflexivity. }
  rewrite app_nil_r. rewrite filter_map_swap'. f_equal. apply filter_ext_in. intros i Hi. apply in_seq in Hi.
  rewrite (map_nth_indep _ (interior L) i ""%string false) by (rewrite length_interior; lia).
  rewrite nth_interior by lia. unfold interior_gamma_label. rewrite E.
  replace (S i <? S (S n) - 1)%nat with true by (symmetry; apply Nat.ltb_lt; lia). reflexivity.
Qed.

Theorem cli_insert_spec kpts labels : length kpts = length labels ->
  let r := cli_insert_gamma kpts labels in
  length (fst r) = length (snd r) /\
  combine (fst r) (snd r)
  = concat (map (fun i => if interior_gamma_label labels i
                          then [(vzero, "GAMMA"%string); (nth i kpts vzero, "GAMMA"%string)]
                          else [(nth i kpts vzero, nth i labels ""%string)]) (seq 0 (length labels))).
Proof.
  intros Hlen r.
  assert (E : r = (fold_left (fun s i => list_insert i vzero s) (rev (cli_gamma_indices labels)) kpts,
                   fold_left (fun s i => list_insert i "GAMMA"%string s) (rev (cli_gamma_indices labels)) labels)).
  { unfold r, cli_insert_gamma. generalize (rev (cli_gamma_indices labels)). intros idx. clear r Hlen. revert kpts labels.
    induction idx as [|i idx IH]; intros k l; [reflexivity|]. cbn [fold_left]. rewrite IH. reflexivity. }
  rewrite E, cli_gamma_filter. cbn [fst snd].
  rewrite (insert_rev _ vzero vzero kpts (length labels) 0) by lia.
  rewrite (insert_rev _ "GAMMA"%string ""%string labels (length labels) 0) by lia. cbn [firstn app].
  assert (K : forall idx,
     length (concat (map (fun i => if interior_gamma_label labels i then [vzero; nth i kpts vzero] else [nth i kpts vzero]) idx))
     = length (concat (map (fun i => if interior_gamma_label labels i then ["GAMMA"%string; nth i labels ""%string] else [nth i labels ""%string]) idx)) /\
     combine (concat (map (fun i => if interior_gamma_label labels i then [vzero; nth i kpts vzero] else [nth i kpts vzero]) idx))
       (concat (map (fun i => if interior_gamma_label labels i then ["GAMMA"%string; nth i labels ""%string] else [nth i labels ""%string]) idx))
     = concat (map (fun i => if interior_gamma_label labels i
                          then [(vzero, "GAMMA"%string); (nth i kpts vzero, "GAMMA"%string)]
                          else [(nth i kpts vzero, nth i labels ""%string)]) idx)).
  { induction idx as [|i idx [IH1 IH2]]; [split; reflexivity|]. cbn [map concat].
    destruct (interior_gamma_label labels i) eqn:Eg; cbn [app length combine]; rewrite IH2.
    - unfold interior_gamma_label in Eg. apply andb_true_iff in Eg. destruct Eg as [_ Eg]. apply String.eqb_eq in Eg.
      rewrite Eg. split; [cbn; congruence|reflexivity].
    - split; [cbn; congruence|reflexivity]. }
  apply K.
Qed.

(** ** break points *)
Definition bad (a b : string) : bool := (nonempty a && nonempty b && negb (String.eqb a b))%bool.
Fixpoint brk (i : nat) (a : string) (l : list string) : list nat :=
  match l with [] => [] | b :: r => (if bad a b then [S i] else []) ++ brk (S i) b r end.

Lemma where_true_cons b m : where_true (b :: m) = (if b then [0%nat] else []) ++ map S (where_true m).
Proof.
  unfold where_true. cbn [length]. replace (seq 0 (S (length m))) with (0%nat :: map S (seq 0 (length m))) by (cbn; rewrite seq_shift; reflexivity).
  cbn [filter nth]. rewrite filter_map_swap'. destruct b; reflexivity.
Qed.

Lemma brk_shift i a l : brk i a l = map (fun k => (i + k)%nat) (brk 0 a l).
Proof.
  revert i a. induction l as [|b l IH]; intros i a; [reflexivity|]. cbn [brk]. rewrite map_app. f_equal.
  - destruct (bad a b); cbn; [f_equal; lia|reflexivity].
  - rewrite (IH (S i)), (IH 1%nat), map_map. apply map_ext. intros. lia.
Qed.

Lemma break_points_brk a l : cli_break_points (a :: l) = brk 0 a l.
Proof.
  unfold cli_break_points. revert a. induction l as [|b l IH]; intros a; [reflexivity|].
  change (removelast (a :: b :: l)) with (a :: removelast (b :: l)). cbn [tl combine map] in *.
  rewrite where_true_cons, map_app. cbn [brk]. f_equal.
  - cbn [fst snd]. unfold bad. destruct (_ && _)%bool; reflexivity.
  - rewrite (IH b), (brk_shift 1 b l). reflexivity.
Qed.

Lemma break_points_spec labels i : In i (cli_break_points labels) <->
  (0 < i)%nat /\ (i < length labels)%nat /\ nth (i - 1) labels ""%string <> ""%string /\ nth i labels ""%string <> ""%string /\
  nth (i - 1) labels ""%string <> nth i labels ""%string.
Proof.
  unfold cli_break_points. rewrite in_map_iff.
  assert (L : length (combine (removelast labels) (tl labels)) = (length labels - 1)%nat)
    by (rewrite combine_length, length_removelast, length_tl; lia).
  assert (N : forall k, (k < length labels - 1)%nat ->
     nth k (map (fun p => (nonempty (fst p) && nonempty (snd p) && negb (String.eqb (fst p) (snd p)))%bool) (combine (removelast labels) (tl labels))) false
     = bad (nth k labels ""%string) (nth (S k) labels ""%string)).
  { intros k Hk. rewrite (map_nth_indep _ _ k (""%string, ""%string) false) by lia.
    rewrite combine_nth by (rewrite length_removelast, length_tl; lia). cbn [fst snd].
    rewrite nth_removelast by lia. rewrite nth_tl. reflexivity. }
  assert (B : forall a b, bad a b = true <-> a <> ""%string /\ b <> ""%string /\ a <> b).
  { intros a b. unfold bad, nonempty. rewrite !andb_true_iff, !negb_true_iff, !String.eqb_neq. tauto. }
  unfold where_true. rewrite map_length, L. split.
  - intros [k [<- Hk]]. apply filter_In in Hk. destruct Hk as [H1 H2]. apply in_seq in H1. rewrite N in H2 by lia. apply B in H2.
    replace (S k - 1)%nat with k by lia. repeat split; try tauto; lia.
  - intros [H1 [H2 H3]]. exists (i - 1)%nat. split; [lia|]. apply filter_In. split; [apply in_seq; lia|].
    rewrite N by lia. replace (S (i - 1)) with i by lia. apply B. tauto.
Qed.

Definition dblf (L : list string) (i : nat) : list string :=
  if interior_gamma_label L i then ["GAMMA"%string; nth i L ""%string] else [nth i L ""%string].

Lemma brk_dbl L k j a i : (j + 1 + k = length L)%nat ->
  i = (j + length (filter (interior_gamma_label L) (seq 0 (S j))))%nat ->
  brk i a (concat (map (dblf L) (seq (j + 1) k)))
  = map (shifted L) (brk j a (map (fun t => nth t L ""%string) (seq (j + 1) k))).
Proof.
  revert j a i. induction k as [|k IH]; intros j a i Hj Hi; [reflexivity|].
  cbn [seq map concat].
  assert (C : length (filter (interior_gamma_label L) (seq 0 (S (S j))))
    = (length (filter (interior_gamma_label L) (seq 0 (S j))) + (if interior_gamma_label L (j + 1) then 1 else 0))%nat).
  { replace (S (S j)) with (S j + 1)%nat by lia. rewrite seq_app, filter_app, app_length. cbn [seq filter Nat.add].
    replace (j + 1)%nat with (S j) by lia. destruct (interior_gamma_label L (S j)); reflexivity. }
  assert (SH : shifted L (S j) = S i) by (unfold shifted; lia).
  unfold dblf at 1. destruct (interior_gamma_label L (j + 1)) eqn:Eg.
  - assert (Eb : nth (j + 1) L ""%string = "GAMMA"%string).
    { unfold interior_gamma_label in Eg. apply andb_true_iff in Eg. destruct Eg as [_ Eg]. apply String.eqb_eq. exact Eg. }
    cbn [app brk]. rewrite Eb. replace (bad "GAMMA" "GAMMA") with false by reflexivity. cbn [app]. rewrite map_app. f_equal.
    + destruct (bad a "GAMMA"); cbn [map]; [rewrite SH|]; reflexivity.
    + replace (j + 1)%nat with (S j) by lia. replace (S (S j)) with (S j + 1)%nat by lia. apply IH; lia.
  - cbn [app brk]. rewrite map_app. f_equal.
    + destruct (bad a _); cbn [map]; [rewrite SH|]; reflexivity.
    + replace (j + 1)%nat with (S j) by lia. replace (S (S j)) with (S j + 1)%nat by lia.
      apply IH; lia.
Qed.

Lemma map_nth_seq' {A} (l : list A) d : map (fun t => nth t l d) (seq 0 (length l)) = l.
Proof.
  induction l as [|a l IH]; [reflexivity|]. cbn [length seq map nth]. f_equal. rewrite <- seq_shift, map_map. exact IH.
Qed.

Theorem breaks_preserved kpts labels : length kpts = length labels ->
  cli_break_points (snd (cli_insert_gamma kpts labels)) = map (shifted labels) (cli_break_points labels).
Proof.
  intros Hlen. assert (E : snd (cli_insert_gamma kpts labels) = concat (map (dblf labels) (seq 0 (length labels)))).
  { transitivity (fold_left (fun s i => list_insert i "GAMMA"%string s) (rev (cli_gamma_indices labels)) labels).
    - unfold cli_insert_gamma. generalize (rev (cli_gamma_indices labels)). intros idx. clear Hlen. revert kpts labels.
      induction idx as [|i idx IH]; intros k l; [reflexivity|]. cbn [fold_left]. apply IH.
    - rewrite cli_gamma_filter. rewrite (insert_rev _ "GAMMA"%string ""%string labels (length labels) 0) by lia. reflexivity. }
  rewrite E. destruct labels as [|a l]; [reflexivity|]. set (L := a :: l).
  assert (HL : length L = S (length l)) by reflexivity. rewrite HL. cbn [seq map concat].
  assert (D0 : dblf L 0 = [a]) by reflexivity. rewrite D0. cbn [app]. unfold L at 3. rewrite !break_points_brk.
  rewrite <- (map_nth_seq' l ""%string) at 2.
  replace (map (fun t => nth t l ""%string) (seq 0 (length l))) with (map (fun t => nth t L ""%string) (seq (0 + 1) (length l))).
  2:{ cbn [Nat.add]. rewrite <- seq_shift, map_map. reflexivity. }
  apply (brk_dbl L (length l) 0 a 0); [cbn; lia|reflexivity].
Qed.

Lemma tick_labels_spec labels :
  StronglySorted lt (map fst (cli_tick_labels labels)) /\
  forall i s, In (i, s) (cli_tick_labels labels) <->
    (i < length labels)%nat /\ nth i labels ""%string <> ""%string /\ s = gamma_label (nth i labels ""%string).
Proof.
  unfold cli_tick_labels. cbv zeta. set (idx := where_true _).
  assert (W : forall i, In i idx <-> (i < length labels)%nat /\ nth i labels ""%string <> ""%string).
  { intros i. unfold idx, where_true. rewrite filter_In, in_seq, map_length. split.
    - intros [H1 H2]. rewrite (map_nth_indep nonempty labels i ""%string false) in H2 by lia. split; [lia|].
      unfold nonempty in H2. apply negb_true_iff, String.eqb_neq in H2. exact H2.
    - intros [H1 H2]. split; [lia|]. rewrite (map_nth_indep nonempty labels i ""%string false) by lia.
      unfold nonempty. apply negb_true_iff, String.eqb_neq. exact H2. }
  split.
  - rewrite map_fst_combine' by apply map_length. unfold idx, where_true. apply filter_sorted, seq_sorted.
  - intros i s. assert (C : combine idx (map (fun i => gamma_label (nth i labels ""%string)) idx)
        = map (fun i => (i, gamma_label (nth i labels ""%string))) idx).
    { clear W. induction idx as [|x l IH]; [reflexivity|]. cbn. rewrite IH. reflexivity. }
    rewrite C, in_map_iff. split.
    + intros [k [H1 H2]]. injection H1 as -> <-. apply W in H2. tauto.
    + intros [H1 [H2 ->]]. exists i. split; [reflexivity|apply W; tauto].
Qed.

(** ** energy bins *)
Lemma Rmin_list_le x l f : In f (x :: l) -> Rmin_list x l <= f.
Proof.
  unfold Rmin_list. revert x f. induction l as [|a l IH]; intros x f H; cbn [fold_left].
  - destruct H as [<-|[]]. lra.
  - assert (G : fold_left Rmin l (Rmin x a) <= Rmin x a) by (apply IH; left; reflexivity).
    pose proof (Rmin_l x a). pose proof (Rmin_r x a).
    destruct H as [<-|[<-|H]]; [lra|lra|]. apply IH. right. exact H.
Qed.
Lemma Rmax_list_ge x l f : In f (x :: l) -> f <= Rmax_list x l.
Proof.
  unfold Rmax_list. revert x f. induction l as [|a l IH]; intros x f H; cbn [fold_left].
  - destruct H as [<-|[]]. lra.
  - assert (G : Rmax x a <= fold_left Rmax l (Rmax x a)) by (apply IH; left; reflexivity).
    pose proof (Rmax_l x a). pose proof (Rmax_r x a).
    destruct H as [<-|[<-|H]]; [lra|lra|]. apply IH. right. exact H.
Qed.

Lemma length_linspace a b n : length (linspace a b n) = n.
Proof. unfold linspace. rewrite map_length, seq_length. reflexivity. Qed.
Lemma nth_linspace a b n i : (i < n)%nat -> nth i (linspace a b n) 0 = a + INR i * ((b - a) / INR (n - 1)).
Proof.
  intros H. unfold linspace. rewrite (map_nth_indep _ (seq 0 n) i 0%nat 0) by (rewrite seq_length; exact H).
  rewrite seq_nth by exact H. reflexivity.
Qed.
Lemma linspace_ends a b n : (2 <= n)%nat -> nth 0 (linspace a b n) 0 = a /\ nth (n - 1) (linspace a b n) 0 = b.
Proof.
  intros H. rewrite !nth_linspace by lia. cbn [INR]. split; [ring|].
  assert (INR (n - 1) <> 0) by (apply not_0_INR; lia). field. assumption.
Qed.
Lemma linspace_step a b n i : (S i < n)%nat -> a < b -> nth i (linspace a b n) 0 < nth (S i) (linspace a b n) 0.
Proof.
  intros H Hab. rewrite !nth_linspace by lia. rewrite S_INR.
  assert (0 < INR (n - 1)) by (apply lt_0_INR; lia). assert (0 < (b - a) / INR (n - 1)) by (apply Rdiv_lt_0_compat; lra). lra.
Qed.

Theorem default_bins_cover f0 freqs n headroom room : (2 <= n)%nat -> 1 < headroom -> 0 < room ->
  (exists f, In f (f0 :: freqs) /\ 0 < f) ->
  exists bins, get_energy_bins f0 freqs n None None headroom room = Ok bins /\ length bins = n /\
    (forall i, (S i < n)%nat -> nth i bins 0 < nth (S i) bins 0) /\
    forall f, In f (f0 :: freqs) -> nth 0 bins 0 < f < nth (n - 1) bins 0.
Proof.
  intros Hn Hh Hr [f1 [Hf1 P1]]. unfold get_energy_bins.
  pose proof (Rmax_list_ge _ _ _ Hf1) as M1.
  pose proof (Rmin_l (Rmin_list f0 freqs - room) 0) as ML. pose proof (Rmin_r (Rmin_list f0 freqs - room) 0) as MR.
  assert (MM : Rmax_list f0 freqs < Rmax_list f0 freqs * headroom).
  { assert (0 < Rmax_list f0 freqs * (headroom - 1)) by (apply Rmult_lt_0_compat; lra). lra. }
  rewrite (Rleb_false (Rmax_list f0 freqs * headroom)) by lra.
  eexists. split; [reflexivity|]. split; [apply length_linspace|]. split.
  - intros i Hi. apply linspace_step; [exact Hi|lra].
  - intros f Hf. destruct (linspace_ends (Rmin (Rmin_list f0 freqs - room) 0) (Rmax_list f0 freqs * headroom) n Hn) as [-> ->].
    pose proof (Rmax_list_ge _ _ _ Hf). pose proof (Rmin_list_le _ _ _ Hf). lra.
Qed.

Lemma default_bins_miss : exists bins, get_energy_bins (-2) [-1] 3 None None (105/100) (1/100) = Ok bins /\
  nth 2 bins 0 < -1.
Proof.
  unfold get_energy_bins, Rmin_list, Rmax_list. cbn [fold_left].
  rewrite (Rmin_left (-2) (-1)), (Rmax_right (-2) (-1)) by lra. rewrite Rmin_left by lra. rewrite Rleb_false by lra.
  eexists. split; [reflexivity|]. destruct (linspace_ends (-2 - 1/100) (-1 * (105/100)) 3 ltac:(lia)) as [_ E].
  change (nth (3 - 1) ?l 0) with (nth 2 l 0) in E. rewrite E. lra.
Qed.
