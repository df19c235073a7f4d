(** Lemmas on histograms and densities of states. *)
From Verif Require Import Base L_util Cpx Vec3 M_qpts L_path M_path M_broad S_broad L_broad L_broad2 L_broad3 M_dos S_dos.
Open Scope R_scope.

Lemma length_set_nth {A} (l : list A) i v : length (set_nth l i v) = length l.
Proof. revert i. induction l as [|a l IH]; intros i; destruct i; cbn; try reflexivity. rewrite IH. reflexivity. Qed.
Lemma nth_set_nth {A} (l : list A) i j v d : (j < length l)%nat ->
  nth j (set_nth l i v) d = if Nat.eqb i j then v else nth j l d.
Proof.
  revert i j. induction l as [|a l IH]; intros i j Hj; [cbn in Hj; lia|].
  destruct i, j; cbn [set_nth nth Nat.eqb]; try reflexivity. apply IH. cbn in Hj. lia.
Qed.
Lemma length_add_at1 l ivs : length (add_at1 l ivs) = length l.
Proof.
  unfold add_at1. revert l. induction ivs as [|iv ivs IH]; intros l; [reflexivity|].
  cbn [fold_left]. rewrite IH. apply length_set_nth.
Qed.
Lemma nth_add_at1 l ivs j : (j < length l)%nat ->
  nth j (add_at1 l ivs) 0 = nth j l 0 + Sum ivs (fun iv => if Nat.eqb (fst iv) j then snd iv else 0).
Proof.
  unfold add_at1. revert l. induction ivs as [|iv ivs IH]; intros l Hj; [cbn [fold_left]; rewrite Sum_nil; lra|].
  cbn [fold_left]. rewrite IH by (unfold add_to; rewrite length_set_nth; exact Hj).
  unfold add_to. rewrite nth_set_nth by exact Hj. rewrite Sum_cons.
  destruct (Nat.eqb_spec (fst iv) j) as [->|]; lra.
Qed.

(** Counting edges. *)
Lemma count_le_spec l x : (forall i j, (i < j)%nat -> (j < length l)%nat -> nth i l 0 <= nth j l 0) ->
  let c := length (filter (fun e => Rleb e x) l) in
  (c <= length l)%nat /\ (forall i, (i < c)%nat -> nth i l 0 <= x) /\ (forall i, (c <= i)%nat -> (i < length l)%nat -> x < nth i l 0).
Proof.
  cbv zeta. induction l as [|a l IH]; intros H; [cbn; split; [lia|split; intros; lia]|].
  assert (H' : forall i j, (i < j)%nat -> (j < length l)%nat -> nth i l 0 <= nth j l 0)
    by (intros i j Hij Hj; apply (H (S i) (S j)); cbn; lia).
  destruct (IH H') as [I1 [I2 I3]]. cbn [filter length]. destruct (Rleb_spec a x) as [L|L]; cbn [length].
  - split; [lia|]. split.
    + intros [|i] Hi; [exact L|]. apply I2. lia.
    + intros [|i] Hi Hl; [lia|]. apply I3; lia.
  - assert (Z : length (filter (fun e => Rleb e x) l) = 0%nat).
    { set (c := length (filter (fun e => Rleb e x) l)) in *. destruct (Nat.eq_dec c 0) as [E|E]; [exact E|].
      specialize (I2 0%nat ltac:(lia)). specialize (H 0%nat 1%nat ltac:(lia)). cbn [length nth] in H.
      assert (a <= nth 0 l 0) by (apply H; lia). lra. }
    rewrite Z. split; [lia|]. split; [intros; lia|]. intros [|i] _ Hl; [cbn; lra|]. cbn [nth]. apply I3; lia.
Qed.

Lemma increasing_le l : increasing l -> forall i j, (i < j)%nat -> (j < length l)%nat -> nth i l 0 <= nth j l 0.
Proof. intros H i j A B. left. apply H; assumption. Qed.

Lemma digitize_inc bins x i : increasing bins -> (S i < length bins)%nat ->
  Nat.eqb (length (filter (fun e => Rleb e x) bins)) (S i) = inside (nth i bins 0) (nth (S i) bins 0) x.
Proof.
  intros Hinc Hi. destruct (count_le_spec bins x (increasing_le _ Hinc)) as [C1 [C2 C3]]. cbv zeta in *.
  set (c := length (filter (fun e => Rleb e x) bins)) in *. unfold inside. destruct (Nat.eqb_spec c (S i)) as [E|E].
  - rewrite Rleb_true by (apply C2; lia). rewrite Rltb_true by (apply C3; lia). reflexivity.
  - destruct (Rleb_spec (nth i bins 0) x) as [L|L]; [|reflexivity]. cbn [andb].
    destruct (Rltb_spec x (nth (S i) bins 0)) as [L2|L2]; [|reflexivity]. exfalso. apply E.
    assert (~ (c <= i)%nat) by (intros Hc; specialize (C3 i Hc ltac:(lia)); lra).
    assert (~ (S i < c)%nat) by (intros Hc; specialize (C2 (S i) Hc); lra). lia.
Qed.

Lemma length_np_diffR l : length (np_diffR l) = (length l - 1)%nat.
Proof. unfold np_diffR. rewrite map_length, combine_length. destruct l; cbn [length tl]; lia. Qed.
Lemma nth_np_diffR l i : (S i < length l)%nat -> nth i (np_diffR l) 0 = nth (S i) l 0 - nth i l 0.
Proof.
  intros H. unfold np_diffR. rewrite (map_nth_indep _ _ _ (0, 0) 0).
  - rewrite (nth_combine_tl l i 0 H). reflexivity.
  - rewrite combine_length. destruct l; cbn [length tl] in *; lia.
Qed.
Lemma nth_padded bins i : (S i < length bins)%nat -> nth (S i) (padded_widths bins) 0 = nth (S i) bins 0 - nth i bins 0.
Proof.
  intros H. unfold padded_widths. cbn [nth]. rewrite app_nth1 by (rewrite length_np_diffR; lia). apply nth_np_diffR. exact H.
Qed.

Lemma increasing_scale l k : 0 < k -> increasing l -> increasing (map (fun b => b / k) l).
Proof.
  intros Hk H i j Hij Hj. rewrite map_length in Hj.
  rewrite !(map_nth_indep _ _ _ 0 0) by lia. specialize (H i j Hij Hj).
  apply Rmult_lt_compat_r; [apply Rinv_0_lt_compat; exact Hk|exact H].
Qed.

(** The histogram branch, bin by bin. *)
Lemma dos_hist_spec t mw bins : increasing bins -> (2 <= length bins)%nat ->
  exists d, dos_hist t mw bins = Ok d /\ length d = (length bins - 1)%nat /\
  forall i, (i < length bins - 1)%nat -> nth i d 0
    = Sum (pairs t) (fun qm => if inside (nth i bins 0) (nth (S i) bins 0) (freq t (fst qm) (snd qm))
        then wt t (fst qm) * mw (fst qm) (snd qm) / (nth (S i) bins 0 - nth i bins 0) else 0).
Proof.
  intros Hinc Hlen. unfold dos_hist, digitize. rewrite (increasing_nondecreasing _ Hinc).
  eexists. split; [reflexivity|]. split.
  - change (removelast (tl ?l)) with (interior l). rewrite length_interior, length_add_at1, repeat_length. lia.
  - intros i Hi. match goal with |- nth _ (removelast (tl ?l)) _ = _ => change (removelast (tl l)) with (interior l) end.
    rewrite nth_interior by (rewrite length_add_at1, repeat_length; lia).
    rewrite nth_add_at1 by (rewrite repeat_length; lia). rewrite nth_repeat, Rplus_0_l, Sum_map.
    apply Sum_ext. intros [q m] _. cbn [fst snd].
    rewrite digitize_inc by (try exact Hinc; lia).
    destruct (inside _ _ _) eqn:E; [|reflexivity].
    assert (Hc : length (filter (fun e => Rleb e (freq t q m)) bins) = S i).
    { apply Nat.eqb_eq. rewrite digitize_inc by (try exact Hinc; lia). exact E. }
    rewrite Hc, nth_padded by lia. reflexivity.
Qed.

Lemma Sum_list_prod {A B} (la : list A) (lb : list B) (f : A * B -> R) :
  Sum (list_prod la lb) f = Sum la (fun a => Sum lb (fun b => f (a, b))).
Proof.
  induction la as [|a la IH]; [reflexivity|]. cbn [list_prod]. rewrite Sum_app, Sum_cons, IH, Sum_map. reflexivity.
Qed.

Lemma Sum_indicator {A} (l : list A) (p : A -> bool) c : Sum l (fun x => if p x then c else 0) = INR (length (filter p l)) * c.
Proof. rewrite <- Sum_filter. apply Sum_const. Qed.

(** Telescoping: a point is in exactly one of the bins it may be in. *)
Lemma inside_sum bins x n : increasing bins -> (n < length bins)%nat ->
  sumn n (fun i => if inside (nth i bins 0) (nth (S i) bins 0) x then 1 else 0)
  = if inside (nth 0 bins 0) (nth n bins 0) x then 1 else 0.
Proof.
  intros Hinc. induction n as [|n IH]; intros Hn.
  - unfold sumn. cbn [seq]. rewrite Sum_nil. unfold inside.
    destruct (Rleb_spec (nth 0 bins 0) x); [|reflexivity]. rewrite Rltb_false by lra. reflexivity.
  - rewrite sumn_S, IH by lia. unfold inside.
    assert (A : nth n bins 0 < nth (S n) bins 0) by (apply Hinc; lia).
    assert (B : nth 0 bins 0 <= nth n bins 0) by (destruct n; [lra|left; apply Hinc; lia]).
    destruct (Rleb_spec (nth 0 bins 0) x); destruct (Rleb_spec (nth n bins 0) x);
      destruct (Rltb_spec x (nth n bins 0)); destruct (Rltb_spec x (nth (S n) bins 0)); cbn [andb]; lra.
Qed.

Lemma inside_scale k lo hi x : 0 < k -> inside (lo / k) (hi / k) x = inside lo hi (k * x).
Proof.
  intros Hk. unfold inside. assert (Hi : 0 < / k) by (apply Rinv_0_lt_compat; exact Hk).
  assert (A : forall y, y = (y / k) * k) by (intros; field; lra).
  f_equal.
  - destruct (Rleb_spec (lo / k) x); destruct (Rleb_spec lo (k * x)); try reflexivity; exfalso.
    + apply n. rewrite (A lo). rewrite Rmult_comm. apply Rmult_le_compat_l; lra.
    + apply n. apply (Rmult_le_reg_l k); [exact Hk|]. replace (k * (lo / k)) with lo by (field; lra). exact r.
  - destruct (Rltb_spec x (hi / k)); destruct (Rltb_spec (k * x) hi); try reflexivity; exfalso.
    + apply n. rewrite (A hi). rewrite (Rmult_comm (hi / k)). apply Rmult_lt_compat_l; lra.
    + apply n. apply (Rmult_lt_reg_l k); [exact Hk|]. replace (k * (hi / k)) with hi by (field; lra). exact r.
Qed.

(** Generic form of the result with no widths, any mode weights. *)
Lemma dos_data_hist k bins t mws wmin meth : 0 < k -> increasing bins -> (2 <= length bins)%nat -> total_weight t <> 0 ->
  let mw := match mws with Some w => w | None => fun _ _ => 3 / INR (nm t) end in
  exists d, calculate_dos_data k bins t mws None wmin meth = Ok d /\ length d = (length bins - 1)%nat /\
  forall i, (i < length bins - 1)%nat -> nth i d 0 * (nth (S i) bins 0 - nth i bins 0)
    = wmean t (fun q => Sum (seq 0 (nm t)) (fun m => if inside (nth i bins 0) (nth (S i) bins 0) (k * freq t q m) then mw q m else 0)).
Proof.
  intros Hk Hinc Hlen Htot mw. unfold calculate_dos_data. fold mw. fold (total_weight t).
  destruct (dos_hist_spec t mw (map (fun b => b / k) bins) (increasing_scale _ _ Hk Hinc)) as [d [D1 [D2 D3]]]; [rewrite map_length; exact Hlen|].
  rewrite D1. destruct (Reqb_spec (total_weight t) 0) as [E|_]; [contradiction|].
  eexists. split; [reflexivity|]. rewrite map_length in *. split; [exact D2|]. intros i Hi.
  rewrite (map_nth_indep _ _ _ 0 0) by lia. rewrite (D3 i Hi). rewrite !(map_nth_indep _ bins _ 0 0) by lia.
  set (a := nth i bins 0). set (b := nth (S i) bins 0).
  assert (Hab : a < b) by (apply Hinc; lia).
  unfold wmean, pairs. rewrite Sum_list_prod. unfold Rdiv at 1 2. rewrite !Rmult_assoc.
  rewrite <- Sum_scal_r. unfold Rdiv. rewrite <- (Sum_scal_r _ (/ total_weight t)). apply Sum_ext. intros q _. cbn [fst snd].
  rewrite <- Sum_scal_r, <- Sum_scal, <- Sum_scal_r. apply Sum_ext. intros m _.
  change (a * / k) with (a / k). change (b * / k) with (b / k). rewrite inside_scale by exact Hk.
  destruct (inside a b (k * freq t q m)); [|ring]. field. repeat split; try lra; exact Htot.
Qed.

Lemma modes_in_sum k t lo hi q : modes_in k t lo hi q = Sum (seq 0 (nm t)) (fun m => if inside lo hi (k * freq t q m) then 1 else 0).
Proof. unfold modes_in. rewrite Sum_indicator. lra. Qed.

Lemma wmean_ext t f g : (forall q, (q < nq t)%nat -> f q = g q) -> wmean t f = wmean t g.
Proof. intros H. unfold wmean. f_equal. apply Sum_ext. intros q Hq. apply in_seq in Hq. rewrite H by lia. reflexivity. Qed.
Lemma wmean_scal t c f : wmean t (fun q => c * f q) = c * wmean t f.
Proof. unfold wmean. unfold Rdiv. rewrite <- Rmult_assoc. f_equal. rewrite <- Sum_scal. apply Sum_ext. intros; ring. Qed.
Lemma wmean_sumn t n f : sumn n (fun i => wmean t (f i)) = wmean t (fun q => sumn n (fun i => f i q)).
Proof.
  unfold wmean, sumn, Rdiv. rewrite Sum_scal_r. f_equal. rewrite Sum_exchange. apply Sum_ext. intros q _. rewrite Sum_scal. reflexivity.
Qed.

Lemma dos_bins_count k bins t wmin meth : 0 < k -> increasing bins -> (2 <= length bins)%nat -> total_weight t <> 0 ->
  exists d, calculate_dos k bins t None wmin meth = Ok d /\ length d = (length bins - 1)%nat /\
  (forall i, (i < length bins - 1)%nat -> nth i d 0 * (nth (S i) bins 0 - nth i bins 0)
     = 3 / INR (nm t) * wmean t (modes_in k t (nth i bins 0) (nth (S i) bins 0))) /\
  area bins d = 3 / INR (nm t) * wmean t (modes_in k t (nth 0 bins 0) (nth (length bins - 1) bins 0)).
Proof.
  intros Hk Hinc Hlen Htot.
  destruct (dos_data_hist k bins t None wmin meth Hk Hinc Hlen Htot) as [d [D1 [D2 D3]]].
  exists d. split; [exact D1|]. split; [exact D2|].
  assert (P : forall i, (i < length bins - 1)%nat -> nth i d 0 * (nth (S i) bins 0 - nth i bins 0)
     = 3 / INR (nm t) * wmean t (modes_in k t (nth i bins 0) (nth (S i) bins 0))).
  { intros i Hi. rewrite (D3 i Hi). rewrite <- wmean_scal. apply wmean_ext. intros q _. rewrite modes_in_sum, <- Sum_scal.
    apply Sum_ext. intros m _. destruct (inside _ _ _); lra. }
  split; [exact P|]. unfold area. rewrite (sumn_ext _ _ _ P).
  unfold sumn. rewrite Sum_scal. f_equal. fold (sumn (length bins - 1) (fun i => wmean t (modes_in k t (nth i bins 0) (nth (S i) bins 0)))).
  rewrite wmean_sumn. apply wmean_ext. intros q _. rewrite modes_in_sum.
  rewrite (sumn_ext _ _ (fun i => Sum (seq 0 (nm t)) (fun m => if inside (nth i bins 0) (nth (S i) bins 0) (k * freq t q m) then 1 else 0)))
    by (intros; apply modes_in_sum).
  unfold sumn. rewrite Sum_exchange. apply Sum_ext. intros m _. apply (inside_sum bins (k * freq t q m) (length bins - 1) Hinc). lia.
Qed.

Lemma wmean_nonneg t f : (forall q, (q < nq t)%nat -> 0 <= wt t q) -> 0 < total_weight t -> (forall q, 0 <= f q) -> 0 <= wmean t f.
Proof.
  intros Hw Ht Hf. unfold wmean. apply Rmult_le_pos; [|left; apply Rinv_0_lt_compat; exact Ht].
  apply Sum_nonneg. intros q Hq. apply in_seq in Hq. apply Rmult_le_pos; [apply Hw; lia|apply Hf].
Qed.
Lemma dos_nonneg k bins t wmin meth d i : 0 < k -> increasing bins -> (2 <= length bins)%nat ->
  (forall q, (q < nq t)%nat -> 0 <= wt t q) -> 0 < total_weight t ->
  calculate_dos k bins t None wmin meth = Ok d -> (i < length bins - 1)%nat -> 0 <= nth i d 0.
Proof.
  intros Hk Hinc Hlen Hw Ht Hd Hi.
  destruct (dos_bins_count k bins t wmin meth Hk Hinc Hlen ltac:(lra)) as [d' [D1 [_ [D3 _]]]].
  rewrite Hd in D1. assert (d = d') as <- by (injection D1; auto). specialize (D3 i Hi).
  assert (Hab : nth i bins 0 < nth (S i) bins 0) by (apply Hinc; lia).
  assert (0 <= 3 / INR (nm t) * wmean t (modes_in k t (nth i bins 0) (nth (S i) bins 0))).
  { apply Rmult_le_pos; [|apply wmean_nonneg; [exact Hw|exact Ht|intros; apply pos_INR]].
    destruct (nm t) as [|n]; [simpl; unfold Rdiv; rewrite Rinv_0; lra|].
    left. apply Rdiv_lt_0_compat; [lra|apply lt_0_INR; lia]. }
  nra.
Qed.
