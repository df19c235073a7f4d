(** Lemmas on the interpolated broadening. *)
From Verif Require Import Base L_util Vec3 M_cell L_cell L_path M_broad S_broad.
Open Scope R_scope.

(** ** Kernel positions and the centred convolution *)
Lemma kernel_positions_spec n bw : (1 <= n)%nat ->
  kernel_positions n bw = map (fun m => (INR m - INR ((n - 1) / 2)) * bw) (seq 0 (2 * ((n - 1) / 2) + 1)).
Proof.
  intros Hn. unfold kernel_positions. destruct (Nat.even n) eqn:E.
  - apply Nat.even_spec in E. destruct E as [h Eh]. subst n.
    replace (2 * h - 1)%nat with (2 * (h - 1) + 1)%nat by lia.
    replace ((2 * (h - 1) + 1) / 2)%nat with (h - 1)%nat
      by (rewrite Nat.mul_comm, Nat.div_add_l by lia; cbn; lia).
    apply map_ext. intros m. f_equal. rewrite mult_INR, minus_INR by lia. simpl (INR 2). simpl (INR 1). lra.
  - assert (Ho : Nat.odd n = true) by (unfold Nat.odd; rewrite E; reflexivity).
    apply Nat.odd_spec in Ho. destruct Ho as [h Eh]. subst n.
    replace (2 * h + 1 - 1)%nat with (h * 2)%nat by lia. rewrite Nat.div_mul by lia.
    replace (2 * h + 1)%nat with (h * 2 + 1)%nat by lia. rewrite Nat.div_add_l by lia.
    replace (h + 1 / 2 + (h + 1 / 2) + 1)%nat with (2 * h + 1)%nat by (cbn; lia).
    replace (h * 2 + 1)%nat with (2 * h + 1)%nat by lia.
    apply map_ext. intros m. f_equal. replace (h + 1 / 2)%nat with h by (cbn; lia). lra.
Qed.

Lemma convolve_centred n bw (f : R -> R) a i :
  (2 <= n)%nat -> length a = (n - 1)%nat -> (i < n - 1)%nat ->
  nth i (convolve_same a (map f (kernel_positions n bw))) 0
  = sumn (n - 1) (fun j => if Nat.leb (bdist i j) ((n - 1) / 2)
                           then nth j a 0 * f ((INR i - INR j) * bw) else 0).
Proof.
  intros Hn Ha Hi. rewrite kernel_positions_spec by lia. set (c := ((n - 1) / 2)%nat).
  unfold convolve_same. rewrite !map_length, seq_length.
  replace ((length a + (2 * c + 1) - 1 - length a) / 2)%nat with c.
  2:{ replace (length a + (2 * c + 1) - 1 - length a)%nat with (c * 2)%nat by lia. rewrite Nat.div_mul; lia. }
  rewrite (map_nth_indep _ _ _ 0%nat 0) by (rewrite seq_length; lia).
  rewrite nth_seq_id by lia. unfold convolve_full. rewrite Ha. apply sumn_ext. intros j Hj.
  rewrite !map_length, seq_length. unfold bdist.
  destruct (Nat.leb_spec j (i + c)); destruct (Nat.ltb_spec (i + c - j) (2 * c + 1));
    destruct (Nat.leb_spec (i - j + (j - i)) c); cbn [andb]; try lia; try reflexivity.
  rewrite map_map, (map_nth_indep _ _ _ 0%nat 0) by (rewrite seq_length; lia).
  rewrite nth_seq_id by lia. f_equal. f_equal. f_equal.
  rewrite minus_INR, plus_INR by lia. ring.
Qed.

Lemma length_histogram bins xw : length (histogram bins xw) = (length bins - 1)%nat.
Proof. unfold histogram. rewrite map_length, seq_length. reflexivity. Qed.
Lemma length_convolve_same a k : length (convolve_same a k) = length a.
Proof. unfold convolve_same. rewrite map_length, seq_length. reflexivity. Qed.

Lemma convolved_histogram shape bins bw s xw i :
  (2 <= length bins)%nat -> bw <> 0 -> (i < length bins - 1)%nat ->
  nth i (convolve_same (histogram bins (map (fun p => (fst p, snd p / bw)) xw))
           (map (fun x => kernel_fun shape s x * bw) (kernel_positions (length bins) bw))) 0
  = Sum xw (fun p => snd p * peak shape bins bw s (fst p) i).
Proof.
  intros Hn Hb Hi. rewrite (convolve_centred _ _ (fun x => kernel_fun shape s x * bw)) by (try exact Hn; try exact Hi; apply length_histogram).
  etransitivity.
  { apply sumn_ext. intros j Hj. unfold histogram at 1.
    rewrite (map_nth_indep _ _ _ 0%nat 0) by (rewrite seq_length; lia).
    rewrite nth_seq_id by lia. rewrite Sum_map. cbn [fst snd].
    instantiate (1 := fun j => Sum xw (fun p => if (in_bin bins j (fst p) && Nat.leb (bdist i j) ((length bins - 1) / 2))%bool
       then snd p * kernel_fun shape s ((INR i - INR j) * bw) else 0)). cbv beta.
    destruct (Nat.leb (bdist i j) ((length bins - 1) / 2)).
    - rewrite <- Sum_scal_r. apply Sum_ext. intros p _. rewrite andb_true_r.
      destruct (in_bin bins j (fst p)); [field; exact Hb|lra].
    - symmetry. apply Sum_zero_ext. intros p _. rewrite andb_false_r. reflexivity. }
  unfold sumn. rewrite Sum_exchange. apply Sum_ext. intros p _. unfold peak, sumn.
  rewrite <- Sum_scal. apply Sum_ext. intros j _.
  destruct (in_bin bins j (fst p) && _)%bool; lra.
Qed.

(** ** The loop *)
Section Loop.
  Context (shape : kshape) (bins : list R) (bw : R) (samples : list R) (lc : list R) (pts : list point).
  Hypothesis Hn : (2 <= length bins)%nat.
  Hypothesis Hbw : bw <> 0.
  Let kernels := map (fun s => map (fun x => kernel_fun shape s x * bw) (kernel_positions (length bins) bw)) samples.
  Let idx p := searchsorted_right samples (pwidth p).
  Let low i p := polyval lc (pwidth p / nth (i - 1) samples 0) * pweight p.
  Let step := broaden_step bins bw samples kernels lc pts.
  Definition add_at (p : point) (i s : nat) : R :=
    (if Nat.eqb (idx p) s then low s p * peak shape bins bw (nth (s - 1) samples 0) (px p) i else 0)
    + (if Nat.eqb (S (idx p)) s then (pweight p - low (s - 1) p) * peak shape bins bw (nth (s - 1) samples 0) (px p) i else 0).

  Lemma prev_of st i : fst (step st i) = map (fun p => (px p, pweight p - low i p)) (filter (fun p => Nat.eqb (idx p) i) pts).
  Proof. destruct st as [prev spec]. reflexivity. Qed.

  Lemma loop_inv n : (n <= length samples)%nat -> (forall p, In p pts -> (1 <= idx p)%nat) ->
    let st := fold_left step (seq 1 n) ([], repeat 0 (length bins - 1)) in
    fst st = map (fun p => (px p, pweight p - low n p)) (filter (fun p => Nat.eqb (idx p) n) pts) /\
    length (snd st) = (length bins - 1)%nat /\
    forall i, (i < length bins - 1)%nat -> nth i (snd st) 0 = Sum pts (fun p => Sum (seq 1 n) (add_at p i)).
  Proof.
    intros Hle Hidx. induction n as [|n IH].
    - cbn [seq fold_left fst snd]. split; [|split].
      + replace (filter (fun p => Nat.eqb (idx p) 0) pts) with (@nil point); [reflexivity|].
        symmetry. clear - Hidx. induction pts as [|p l IHl]; [reflexivity|]. cbn [filter].
        destruct (Nat.eqb_spec (idx p) 0) as [E|]; [specialize (Hidx p (or_introl eq_refl)); lia|].
        apply IHl. intros q Hq. apply Hidx. right; exact Hq.
      + apply repeat_length.
      + intros i Hi. rewrite nth_repeat. symmetry. apply Sum_zero_ext. intros p _. apply Sum_nil.
    - specialize (IH ltac:(lia)). cbv zeta in *. destruct IH as [I1 [I2 I3]].
      rewrite seq_S, fold_left_app. cbn [fold_left]. change (1 + n)%nat with (S n).
      set (st := fold_left step (seq 1 n) ([], repeat 0 (length bins - 1))) in *.
      split; [apply prev_of|]. destruct st as [prev spec]. cbn [fst snd] in I1, I2, I3.
      unfold step, broaden_step. cbn [snd].
      assert (Hl : forall h, length (convolve_same (histogram bins h) (nth (S n - 1) kernels [])) = (length bins - 1)%nat)
        by (intros h; rewrite length_convolve_same; apply length_histogram).
      split; [rewrite map_length, combine_length, Hl, I2; lia|].
      intros i Hi. rewrite (map_nth_indep _ _ _ (0, 0) 0) by (rewrite combine_length, Hl, I2; lia).
      rewrite combine_nth by (rewrite Hl, I2; reflexivity). cbn [fst snd]. rewrite (I3 i Hi).
      unfold kernels. replace (S n - 1)%nat with n by lia.
      rewrite (map_nth_indep _ samples n 0 []) by lia.
      rewrite convolved_histogram by assumption.
      rewrite Sum_app, I1, !Sum_map, !Sum_filter, <- Sum_plus, <- Sum_plus. cbn [fst snd].
      apply Sum_ext. intros p _. rewrite Sum_app, Sum_cons, Sum_nil, Rplus_0_r.
      f_equal. change (1 + n)%nat with (S n). unfold add_at.
      replace (S n - 1)%nat with n by lia. rewrite Rplus_comm. f_equal.
      unfold low. replace (S n - 1)%nat with n by lia. reflexivity.
  Qed.

  (** Sum over the loop of what one point adds. *)
  Lemma sum_add_at p i : (1 <= idx p)%nat -> (idx p <= length samples)%nat ->
    Sum (seq 1 (length samples)) (add_at p i)
    = low (idx p) p * peak shape bins bw (nth (idx p - 1) samples 0) (px p) i
      + (if Nat.ltb (idx p) (length samples)
         then (pweight p - low (idx p) p) * peak shape bins bw (nth (idx p) samples 0) (px p) i else 0).
  Proof.
    intros H1 H2. unfold add_at. rewrite Sum_plus.
    assert (D : forall (g : nat -> R) k n, (1 <= k)%nat ->
      Sum (seq 1 n) (fun s => if Nat.eqb k s then g s else 0) = if Nat.leb k n then g k else 0).
    { intros g k n Hk. induction n as [|n IHn]; [destruct (Nat.leb_spec k 0); [lia|apply Sum_nil]|].
      rewrite seq_S, Sum_app, IHn, Sum_cons, Sum_nil. change (1 + n)%nat with (S n).
      destruct (Nat.eqb_spec k (S n)) as [E|E]; destruct (Nat.leb_spec k n); destruct (Nat.leb_spec k (S n)); try lia;
        try lra. rewrite E. lra. }
    rewrite (D (fun s => low s p * peak shape bins bw (nth (s - 1) samples 0) (px p) i)) by exact H1.
    rewrite (D (fun s => (pweight p - low (s - 1) p) * peak shape bins bw (nth (s - 1) samples 0) (px p) i) (S (idx p))) by lia.
    cbv beta. replace (S (idx p) - 1)%nat with (idx p) by lia.
    destruct (Nat.leb_spec (idx p) (length samples)); [|lia]. reflexivity.
  Qed.
End Loop.

(** ** Extremes of a list *)
Lemma fold_Rmin_spec l x : is_min (fold_left Rmin l x) (x :: l).
Proof.
  revert x. induction l as [|y l IH]; intros x; cbn [fold_left].
  - split; [left; reflexivity|]. intros z [<-|[]]. lra.
  - destruct (IH (Rmin x y)) as [Hin Hle]. split.
    + destruct Hin as [E|Hin]; [|right; right; exact Hin]. rewrite <- E.
      unfold Rmin. destruct (Rle_dec x y); [left|right; left]; reflexivity.
    + intros z Hz. assert (Hm := Hle (Rmin x y) (or_introl eq_refl)).
      destruct Hz as [<-|[<-|Hz]]; [pose proof (Rmin_l x y); lra|pose proof (Rmin_r x y); lra|apply Hle; right; exact Hz].
Qed.
Lemma fold_Rmax_spec l x : is_max (fold_left Rmax l x) (x :: l).
Proof.
  revert x. induction l as [|y l IH]; intros x; cbn [fold_left].
  - split; [left; reflexivity|]. intros z [<-|[]]. lra.
  - destruct (IH (Rmax x y)) as [Hin Hle]. split.
    + destruct Hin as [E|Hin]; [|right; right; exact Hin]. rewrite <- E.
      unfold Rmax. destruct (Rle_dec x y); [right; left|left]; reflexivity.
    + intros z Hz. assert (Hm := Hle (Rmax x y) (or_introl eq_refl)).
      destruct Hz as [<-|[<-|Hz]]; [pose proof (Rmax_l x y); lra|pose proof (Rmax_r x y); lra|apply Hle; right; exact Hz].
Qed.
Lemma min_list_spec l : l <> [] -> is_min (min_list l) l.
Proof. destruct l as [|x l]; [congruence|]. intros _. apply fold_Rmin_spec. Qed.
Lemma max_list_spec l : l <> [] -> is_max (max_list l) l.
Proof. destruct l as [|x l]; [congruence|]. intros _. apply fold_Rmax_spec. Qed.

(** ** Width samples bracket every width *)
Lemma samples_nth sp ws k d : (k <= n_kernels sp ws)%nat -> nth k (width_samples sp ws) d = sp ^ k * min_list ws.
Proof.
  intros H. unfold width_samples. rewrite (map_nth_indep _ _ _ 0%nat d) by (rewrite seq_length; lia).
  rewrite nth_seq_id by lia. reflexivity.
Qed.
Lemma samples_length sp ws : length (width_samples sp ws) = S (n_kernels sp ws).
Proof. unfold width_samples. rewrite map_length, seq_length. lia. Qed.

Lemma pow_lt_1 sp a b : 1 < sp -> (a < b)%nat -> sp ^ a < sp ^ b.
Proof. intros. apply Rlt_pow; assumption. Qed.

(** counting the geometric samples not exceeding w *)
Lemma count_geo sp m w n : 1 < sp -> 0 < m -> 
  let c := length (filter (fun s => Rleb s w) (map (fun k => sp ^ k * m) (seq 0 n))) in
  (c <= n)%nat /\ (forall k, (k < c)%nat -> sp ^ k * m <= w) /\ ((c < n)%nat -> w < sp ^ c * m).
Proof.
  intros Hs Hm. cbv zeta. induction n as [|n IH]; [cbn; split; [lia|split; intros; lia]|].
  rewrite seq_S, map_app, filter_app, app_length. cbn [map filter Nat.add].
  set (c := length (filter (fun s => Rleb s w) (map (fun k => sp ^ k * m) (seq 0 n)))) in *.
  destruct IH as [I1 [I2 I3]]. destruct (Rleb_spec (sp ^ n * m) w) as [L|L]; cbn [length].
  - assert (Ec : c = n).
    { destruct (Nat.eq_dec c n) as [E|E]; [exact E|]. assert (H := I3 ltac:(lia)).
      assert (sp ^ c < sp ^ n) by (apply pow_lt_1; [exact Hs|lia]). nra. }
    rewrite Ec. split; [lia|]. split.
    + intros k Hk. destruct (Nat.eq_dec k n) as [->|]; [exact L|]. apply I2. lia.
    + intros. lia.
  - rewrite Nat.add_0_r. split; [lia|]. split; [exact I2|].
    intros _. destruct (Nat.eq_dec c n) as [->|E]; [lra|]. apply I3. lia.
Qed.

Lemma ln_pow_le sp x k : 1 < sp -> 0 < x -> ln x / ln sp <= INR k -> x <= sp ^ k.
Proof.
  intros Hs Hx H. assert (Hl : 0 < ln sp) by (rewrite <- ln_1; apply ln_increasing; lra).
  apply (Rmult_le_compat_r (ln sp)) in H; [|lra]. unfold Rdiv in H. rewrite Rmult_assoc, Rinv_l, Rmult_1_r in H by lra.
  rewrite <- ln_pow in H by lra. destruct (Rle_lt_dec x (sp ^ k)) as [L|L]; [exact L|].
  apply ln_increasing in L; [lra|apply pow_lt; lra].
Qed.

Section Bracket.
  Context (sp : R) (ws : list R).
  Hypothesis Hs : 1 < sp.
  Hypothesis Hne : ws <> [].
  Hypothesis Hpos : forall w, In w ws -> 0 < w.
  Let m := min_list ws.
  Let n := n_kernels sp ws.
  Lemma min_pos : 0 < m.
  Proof. apply Hpos. apply (min_list_spec ws Hne). Qed.
  Lemma top_covers w : In w ws -> w <= sp ^ n * m.
  Proof.
    intros Hw. pose proof min_pos as Hm. destruct (max_list_spec ws Hne) as [Hin Hmax].
    assert (Hx : 0 < max_list ws / m) by (apply Rdiv_lt_0_compat; [apply Hpos; exact Hin|exact Hm]).
    assert (L : max_list ws / m <= sp ^ n).
    { apply ln_pow_le; [exact Hs|exact Hx|]. unfold n, n_kernels. fold m.
      set (z := Rceil (ln (max_list ws / m) / ln sp)). 
      pose proof (Rceil_bounds (ln (max_list ws / m) / ln sp)) as [B _]. fold z in B.
      rewrite INR_IZR_INZ. assert (IZR z <= IZR (Z.of_nat (Z.to_nat z))) by (apply IZR_le; lia). lra. }
    specialize (Hmax w Hw). apply (Rmult_le_compat_r m) in L; [|lra].
    unfold Rdiv in L. rewrite Rmult_assoc, Rinv_l, Rmult_1_r in L by lra. lra.
  Qed.
  Lemma bracket w : In w ws ->
    let k := searchsorted_right (width_samples sp ws) w in
    (1 <= k <= S n)%nat /\ sp ^ (k - 1) * m <= w /\ w < sp ^ k * m /\ (k = S n -> w = sp ^ n * m).
  Proof.
    intros Hw. cbv zeta. unfold searchsorted_right, width_samples. fold n. fold m.
    pose proof min_pos as Hm. destruct (count_geo sp m w (n + 1) Hs Hm) as [C1 [C2 C3]]. cbv zeta in *.
    set (k := length _) in *.
    assert (Hk : (1 <= k)%nat).
    { destruct k as [|k']; [|lia]. specialize (C3 ltac:(lia)). simpl in C3.
      destruct (min_list_spec ws Hne) as [_ Hmin]. specialize (Hmin w Hw). fold m in Hmin. lra. }
    split; [lia|]. assert (T := top_covers w Hw).
    assert (L : sp ^ (k - 1) * m <= w) by (apply C2; lia).
    split; [exact L|]. split.
    - destruct (Nat.eq_dec k (n + 1)) as [E|E]; [|apply C3; lia].
      rewrite E. assert (sp ^ n < sp ^ (n + 1)) by (apply pow_lt_1; [exact Hs|lia]). nra.
    - intros E. replace (k - 1)%nat with n in L by lia. lra.
  Qed.
End Bracket.
