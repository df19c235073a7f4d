(** Lemmas on fixed-width broadening of 1-D spectra (C76). *)
From Coq Require Import String.
From Verif Require Import Base L_util M_cell L_cell M_qpts L_qpts L_path M_path M_broad S_broad L_broad L_broad2 L_broad3 M_dos L_dos L_dos2 M_bins S_bins L_bins M_fixed S_fixed L_fixed.
Open Scope R_scope.

Lemma even_centres h n x : even_axis h n x -> (1 <= n)%nat ->
  exists c a, get_bin_centres n x = Ok c /\ regular a h n c.
Proof.
  intros (a & [L|L] & H) Hn.
  - exists x, a. unfold get_bin_centres. rewrite L, is_edge_false. split; [reflexivity|]. split; [exact L|].
    intros i Hi. apply H. lia.
  - exists (edges_to_centres x), (a + h / 2). unfold get_bin_centres. rewrite L, is_edge_true. split; [reflexivity|].
    split; [rewrite length_centres; lia|]. intros i Hi. rewrite nth_centres by lia. rewrite !H by lia. rewrite S_INR. lra.
Qed.

Lemma checked_one a h n c w shape sh m : regular a h n c -> (2 <= n)%nat -> shape_of shape = Ok sh -> method_ok m = true ->
  checked [(Some w, c)] shape m = Ok (sh, false).
Proof.
  intros Rg Hn Es Em. unfold checked. rewrite Es, Em. cbn [any_unequal]. rewrite (regular_equal a h n c Rg Hn). reflexivity.
Qed.

Lemma sigma_lower w h : 0 < w -> 0 < h -> h < 10 ^ 14 * w -> 1 / 10 ^ 15 < w / (2 * sqrt (2 * ln 2)) / h.
Proof.
  intros Hw Hh H. pose proof ln2_pos. assert (L1 : ln 2 < 1) by (apply (Rlt_le_trans _ (ln (exp 1))); [apply ln_increasing; [lra|]; pose proof (exp_ineq1 1 R1_neq_R0); lra|rewrite ln_exp; lra]).
  assert (S0 : 0 < sqrt (2 * ln 2)) by (apply sqrt_lt_R0; lra).
  assert (S1 : sqrt (2 * ln 2) < 2) by (apply (Rlt_le_trans _ (sqrt (2 * 2))); [apply sqrt_lt_1; lra|rewrite sqrt_square; lra]).
  apply (Rmult_lt_reg_r (10 ^ 15 * (2 * sqrt (2 * ln 2)) * h)); [repeat apply Rmult_lt_0_compat; try lra|].
  replace (1 / 10 ^ 15 * (10 ^ 15 * (2 * sqrt (2 * ln 2)) * h)) with (2 * sqrt (2 * ln 2) * h) by (field; lra).
  replace (w / (2 * sqrt (2 * ln 2)) / h * (10 ^ 15 * (2 * sqrt (2 * ln 2)) * h)) with (10 * (10 ^ 14 * w)) by (field; split; lra).
  assert (2 * sqrt (2 * ln 2) * h < 4 * h) by (apply Rmult_lt_compat_r; lra). lra.
Qed.

Lemma radius_bounds s : 0 < s -> 4 * s - 1 / 2 < INR (gauss_radius s) <= 4 * s + 1 / 2.
Proof.
  intros Hs. unfold gauss_radius. destruct (base_Int_part (4 * s + 1 / 2)) as [A B].
  assert (P : (0 <= Int_part (4 * s + 1 / 2))%Z).
  { apply le_IZR. destruct (Z_lt_le_dec (Int_part (4 * s + 1 / 2)) 0) as [N|N]; [|apply IZR_le; exact N].
    assert (Int_part (4 * s + 1 / 2) <= -1)%Z by lia. apply IZR_le in H. lra. }
  rewrite INR_IZR_INZ, Z2Nat.id by exact P. lra.
Qed.

Lemma gauss_1d coeffs x y w h m lower conv error fit : 0 < h -> even_axis h (length y) x -> (2 <= length y)%nat ->
  0 < w -> h < 10 ^ 14 * w -> method_ok m = true ->
  exists K M out, broaden1d coeffs x y (Fixed w) "gauss" m lower conv error fit = Ok (false, Some out) /\
  length out = length y /\ shares K M /\ gaussian_of_fwhm w h K M /\
  (4 * (w / (2 * sqrt (2 * ln 2))) - h / 2 < INR M * h <= 4 * (w / (2 * sqrt (2 * ln 2))) + h / 2) /\
  forall i, (i < length y)%nat -> nth i out 0 = spread K y i.
Proof.
  intros Hh Ha Hn Hw Hth Hm. destruct (even_centres h _ x Ha ltac:(lia)) as (c & a & Ec & Rg).
  destruct (gauss_kernel a h _ c w Hh Rg Hn Hw (sigma_lower w h Hw Hh Hth)) as (wt & Ek & Lw & Sy & Sh & Gs).
  set (s := w / (2 * sqrt (2 * ln 2)) / h) in *. set (M := gauss_radius s) in *.
  exists (kernel_of wt M), M, (correlate y wt). split; [|split; [|split; [|split; [|split]]]].
  - unfold broaden1d. rewrite Ec. cbn [lift]. unfold broaden_data1.
    rewrite (checked_one a h _ c w "gauss" Gauss m Rg Hn eq_refl Hm). cbn [axis_kern]. rewrite Ek. reflexivity.
  - apply length_correlate.
  - exact Sh.
  - exact Gs.
  - assert (S0 : 0 < sqrt (2 * ln 2)) by (apply sqrt_lt_R0; pose proof ln2_pos; lra).
    assert (P : 0 < s) by (unfold s; apply Rdiv_lt_0_compat; [apply Rdiv_lt_0_compat|]; lra).
    destruct (radius_bounds s P) as [A B]. fold M in A, B.
    replace (w / (2 * sqrt (2 * ln 2))) with (s * h) by (unfold s; field; split; lra).
    split; [apply (Rmult_lt_compat_r h) in A; lra|apply (Rmult_le_compat_r h) in B; lra].
  - intros i Hi. apply correlate_spread; assumption.
Qed.

Lemma lorentz_1d coeffs x y w h m lower conv error fit : 0 < h -> even_axis h (length y) x -> (2 <= length y)%nat ->
  0 < w -> method_ok m = true ->
  exists K out, broaden1d coeffs x y (Fixed w) "lorentz" m lower conv error fit = Ok (false, Some out) /\
  length out = length y /\ shares K (length y) /\
  lorentzian_of_fwhm (w * (INR (length y) / (INR (length y) - 1))) h K (length y) /\
  forall i, (i < length y)%nat -> nth i out 0 = spread K y i.
Proof.
  intros Hh Ha Hn Hw Hm. destruct (even_centres h _ x Ha ltac:(lia)) as (c & a & Ec & Rg).
  destruct (lorentz_kernel a h _ c w Hh Rg Hn Hw) as (wt & Ek & Lw & Sy & Sh & Gs).
  exists (kernel_of wt (length y)), (correlate y wt). split; [|split; [|split; [|split]]].
  - unfold broaden1d. rewrite Ec. cbn [lift]. unfold broaden_data1.
    rewrite (checked_one a h _ c w "lorentz" Lorentz m Rg Hn eq_refl Hm). cbn [axis_kern]. rewrite Ek. reflexivity.
  - apply length_correlate.
  - exact Sh.
  - exact Gs.
  - intros i Hi. apply correlate_spread; assumption.
Qed.

(** ** Totals *)
Lemma total_nth l : total l = sumn (length l) (fun i => nth i l 0).
Proof.
  unfold total. change (fold_right Rplus 0 l) with (Rsum l). unfold sumn, Sum. f_equal. symmetry.
  apply (nth_ext _ _ 0 0); [rewrite map_length, seq_length; reflexivity|]. intros i Hi. rewrite map_length, seq_length in Hi.
  rewrite (map_nth_indep _ _ _ 0%nat 0) by (rewrite seq_length; exact Hi). rewrite nth_seq_id by exact Hi. reflexivity.
Qed.
Lemma sumn_app a b (f : nat -> R) : sumn (a + b) f = sumn a f + sumn b (fun k => f (a + k)%nat).
Proof.
  unfold sumn. rewrite seq_app, Sum_app. f_equal. cbn [plus].
  replace (seq a b) with (seq (a + 0) b) by (f_equal; lia). generalize 0%nat as s. induction b as [|b IH]; intros s; [reflexivity|].
  cbn [seq]. rewrite !Sum_cons. f_equal. specialize (IH (S s)). replace (a + S s)%nat with (S (a + s)) in IH by lia. exact IH.
Qed.
Lemma sumn_nonneg n f : (forall k, (k < n)%nat -> 0 <= f k) -> 0 <= sumn n f.
Proof. intros H. unfold sumn. apply Sum_nonneg. intros k I. apply in_seq in I. apply H. lia. Qed.

(** Sum of the shares that point j gives to the points 0..n-1. *)
Lemma received K M n j : shares K M -> (j < n)%nat ->
  sumn n (fun i => K (Z.of_nat i - Z.of_nat j)%Z) <= 1 /\
  ((M <= j)%nat -> (j + M < n)%nat -> sumn n (fun i => K (Z.of_nat i - Z.of_nat j)%Z) = 1).
Proof.
  intros (P & Sy & Z0 & One) Hj.
  set (big := (n + M + j + M)%nat).
  assert (Full : sumn (n + M + j + M) (fun k => K (Z.of_nat k - Z.of_nat M - Z.of_nat j)%Z) = 1).
  { replace (n + M + j + M)%nat with (j + ((2 * M + 1) + (n - 1)))%nat by lia.
    rewrite sumn_app, sumn_app.
    assert (E1 : sumn j (fun k => K (Z.of_nat k - Z.of_nat M - Z.of_nat j)%Z) = 0).
    { unfold sumn. apply Sum_zero_ext. intros k I. apply in_seq in I. apply Z0. lia. }
    assert (E3 : sumn (n - 1) (fun k => K (Z.of_nat (j + (2 * M + 1 + k)) - Z.of_nat M - Z.of_nat j)%Z) = 0).
    { unfold sumn. apply Sum_zero_ext. intros k I. apply in_seq in I. apply Z0. lia. }
    assert (E2 : sumn (2 * M + 1) (fun k => K (Z.of_nat (j + k) - Z.of_nat M - Z.of_nat j)%Z) = 1).
    { rewrite <- One. apply sumn_ext. intros k _. f_equal. lia. }
    rewrite E1, E2, E3. lra. }
  replace (n + M + j + M)%nat with (M + (n + (j + M)))%nat in Full by lia.
  rewrite sumn_app, sumn_app in Full.
  assert (E : sumn n (fun k => K (Z.of_nat (M + k) - Z.of_nat M - Z.of_nat j)%Z) = sumn n (fun i => K (Z.of_nat i - Z.of_nat j)%Z)).
  { apply sumn_ext. intros k _. f_equal. lia. }
  rewrite E in Full. split.
  - pose proof (sumn_nonneg M (fun k => K (Z.of_nat k - Z.of_nat M - Z.of_nat j)%Z) (fun k _ => P _)).
    pose proof (sumn_nonneg (j + M) (fun k => K (Z.of_nat (M + (n + k)) - Z.of_nat M - Z.of_nat j)%Z) (fun k _ => P _)). lra.
  - intros H1 H2.
    assert (A : sumn M (fun k => K (Z.of_nat k - Z.of_nat M - Z.of_nat j)%Z) = 0).
    { unfold sumn. apply Sum_zero_ext. intros k I. apply in_seq in I. destruct (Nat.eq_dec M 0); [lia|]. apply Z0. lia. }
    assert (B : sumn (j + M) (fun k => K (Z.of_nat (M + (n + k)) - Z.of_nat M - Z.of_nat j)%Z) = 0).
    { unfold sumn. apply Sum_zero_ext. intros k I. apply in_seq in I. apply Z0. lia. }
    lra.
Qed.

Lemma spread_total K M a out : shares K M -> length out = length a -> (forall i, (i < length a)%nat -> nth i out 0 = spread K a i) ->
  total out = sumn (length a) (fun j => nth j a 0 * sumn (length a) (fun i => K (Z.of_nat i - Z.of_nat j)%Z)).
Proof.
  intros Sh L H. rewrite total_nth, L. rewrite (sumn_ext _ _ (spread K a)) by exact H.
  unfold spread, sumn. rewrite Sum_exchange. apply Sum_ext. intros j _. apply Sum_scal.
Qed.
Lemma spread_le K M a out : shares K M -> length out = length a -> (forall i, (i < length a)%nat -> nth i out 0 = spread K a i) ->
  (forall v, In v a -> 0 <= v) -> (forall v, In v out -> 0 <= v) /\ total out <= total a.
Proof.
  intros Sh L H P. assert (Pa : forall j, (j < length a)%nat -> 0 <= nth j a 0) by (intros j Hj; apply P, nth_In; exact Hj). split.
  - intros v I. destruct (In_nth _ _ 0 I) as (i & Hi & <-). rewrite L in Hi. rewrite H by exact Hi. unfold spread.
    apply sumn_nonneg. intros k Hk. apply Rmult_le_pos; [apply Pa; exact Hk|apply (proj1 Sh)].
  - rewrite (spread_total K M a out Sh L H), total_nth. unfold sumn at 1 3. apply Sum_le. intros j I. apply in_seq in I.
    destruct (received K M (length a) j Sh ltac:(lia)) as [R _]. specialize (Pa j ltac:(lia)).
    replace (nth j a 0) with (nth j a 0 * 1) at 2 by ring. apply Rmult_le_compat_l; assumption.
Qed.
Lemma spread_eq K M a out : shares K M -> length out = length a -> (forall i, (i < length a)%nat -> nth i out 0 = spread K a i) ->
  (forall j, (j < length a)%nat -> (j < M \/ length a <= j + M)%nat -> nth j a 0 = 0) -> total out = total a.
Proof.
  intros Sh L H Z0. rewrite (spread_total K M a out Sh L H), total_nth. apply sumn_ext. intros j Hj.
  destruct (received K M (length a) j Sh Hj) as [_ R].
  destruct (Nat.lt_ge_cases j M) as [A|A]; [rewrite (Z0 j Hj ltac:(lia)); ring|].
  destruct (Nat.lt_ge_cases (j + M) (length a)) as [B|B]; [rewrite R by lia; ring|rewrite (Z0 j Hj ltac:(lia)); ring].
Qed.
