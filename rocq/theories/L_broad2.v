(** The broadened spectrum point by point; kernel spacing. *)
From Verif Require Import Base L_util Vec3 M_cell L_cell L_path M_broad S_broad L_broad.
Open Scope R_scope.

Lemma polyval_one x : polyval [1] x = 1.
Proof. unfold polyval. cbn [fold_left]. ring. Qed.

Lemma ws_ne (pts : list point) : pts <> [] -> map pwidth pts <> [].
Proof. destruct pts; [congruence|discriminate]. Qed.
Lemma ws_pos (pts : list point) : (forall p, In p pts -> 0 < pwidth p) -> forall w, In w (map pwidth pts) -> 0 < w.
Proof. intros H w Hw. apply in_map_iff in Hw. destruct Hw as [p [<- Hp]]. apply H. exact Hp. Qed.

Section Lev.
  Context (pts : list point) (sp : R).
  Hypothesis H1 : 1 < sp.
  Hypothesis Hne : pts <> [].
  Hypothesis Hpos : forall p, In p pts -> 0 < pwidth p.
  Let wmin := min_list (map pwidth pts).
  Let n := n_kernels sp (map pwidth pts).
  Let ws := map pwidth pts.
  Definition lev (p : point) : nat := (searchsorted_right (width_samples sp ws) (pwidth p) - 1)%nat.
  Lemma lev_spec p : In p pts ->
    (lev p <= n)%nat /\ sp ^ lev p * wmin <= pwidth p < sp ^ (S (lev p)) * wmin /\ (lev p = n -> pwidth p = sp ^ n * wmin).
  Proof.
    intros Hp. assert (Hw : In (pwidth p) ws) by (apply in_map; exact Hp).
    destruct (bracket sp ws H1 (ws_ne pts Hne) (ws_pos pts Hpos) (pwidth p) Hw) as [B1 [B2 [B3 B4]]]. cbv zeta in *.
    unfold lev. set (k := searchsorted_right (width_samples sp ws) (pwidth p)) in *.
    assert (Hk : S (k - 1) = k) by lia. change (n_kernels sp ws) with n in B1, B4. rewrite Hk.
    split; [lia|]. split; [split; assumption|]. intros E. apply B4. lia.
  Qed.

End Lev.

Section Main.
  Context (coeffs : R -> list R) (bins : list R) (pts : list point) (error : R) (shape : kshape) (fit : kfit) (sp : R).
  Let bw := nth 1 bins 0 - nth 0 bins 0.
  Let wmin := min_list (map pwidth pts).
  Let n := n_kernels sp (map pwidth pts).
  Let lc := if Nat.eqb n 0 then [1] else coeffs sp.
  Hypothesis Hsp : get_spacing error shape fit = Ok sp.
  Hypothesis H1 : 1 < sp.
  Hypothesis Hne : pts <> [].
  Hypothesis Hpos : forall p, In p pts -> 0 < pwidth p.
  Hypothesis Hmono : nondecreasing bins = true.
  Hypothesis Hlen : (2 <= length bins)%nat.
  Hypothesis Hbw : 0 < bw.
  Let ws := map pwidth pts.
  Lemma broadening_formula : exists y, interpolated_broadening coeffs bins pts error shape fit = Ok y /\
    length y = (length bins - 1)%nat /\
    forall i, (i < length bins - 1)%nat ->
      nth i y 0 = Sum pts (fun p =>
        polyval lc (pwidth p / (sp ^ lev pts sp p * wmin)) * pweight p * peak shape bins bw (sp ^ lev pts sp p * wmin) (px p) i
        + (if Nat.ltb (lev pts sp p) n
           then (pweight p - polyval lc (pwidth p / (sp ^ lev pts sp p * wmin)) * pweight p)
                * peak shape bins bw (sp ^ S (lev pts sp p) * wmin) (px p) i else 0)).
  Proof.
    unfold interpolated_broadening. rewrite Hsp, Hmono.
    replace (hd 0 (np_diffR bins)) with bw.
    2:{ unfold bw, np_diffR. clear - Hlen. destruct bins as [|a [|b l]]; cbn [length] in Hlen; try lia. reflexivity. }
    rewrite map_length, samples_length. fold ws. change (n_kernels sp ws) with n.
    replace (Nat.eqb (S n) 1) with (Nat.eqb n 0) by reflexivity. fold lc.
    set (y := snd (fold_left _ _ _)).
    assert (Hbw' : bw <> 0) by lra.
    assert (Hidx : forall p, In p pts -> (1 <= searchsorted_right (width_samples sp ws) (pwidth p) <= S n)%nat).
    { intros p Hp. destruct (bracket sp ws H1 (ws_ne pts Hne) (ws_pos pts Hpos) (pwidth p)) as [B1 _]; [apply in_map; exact Hp|exact B1]. }
    destruct (loop_inv shape bins bw (width_samples sp ws) lc pts Hlen Hbw' (length (width_samples sp ws)) (le_n _)
                (fun p Hp => proj1 (Hidx p Hp))) as [_ [Hl Hv]].
    cbv zeta in Hl, Hv.
    exists y. split; [destruct pts; [congruence|reflexivity]|].
    rewrite samples_length in Hl, Hv. change (n_kernels sp ws) with n in Hl, Hv. split; [exact Hl|]. intros i Hi.
    etransitivity; [exact (Hv i Hi)|]. apply Sum_ext. intros p Hp.
    specialize (Hidx p Hp).
    assert (E : (searchsorted_right (width_samples sp ws) (pwidth p) <= length (width_samples sp ws))%nat) by (rewrite samples_length; change (n_kernels sp ws) with n; lia).
    pose proof (sum_add_at shape bins bw (width_samples sp ws) lc Hlen p i (proj1 Hidx) E) as A.
    cbv beta in A. rewrite samples_length in A. change (n_kernels sp ws) with n in A. etransitivity; [exact A|]. clear A E.
    unfold lev. change (map pwidth pts) with ws. set (k := searchsorted_right (width_samples sp ws) (pwidth p)) in *.
    rewrite (samples_nth sp ws (k - 1)) by (change (n_kernels sp ws) with n; lia). fold wmin. change (min_list ws) with wmin.
    replace (Nat.ltb (k - 1) n) with (Nat.ltb k (S n)).
    2:{ destruct (Nat.ltb_spec k (S n)); destruct (Nat.ltb_spec (k - 1) n); try reflexivity; lia. }
    f_equal. destruct (Nat.ltb_spec k (S n)) as [L|L]; [|reflexivity].
    rewrite (samples_nth sp ws k) by (change (n_kernels sp ws) with n; lia). change (min_list ws) with wmin.
    replace (S (k - 1)) with k by lia. reflexivity.
  Qed.
End Main.

(** ** Spacing *)
(** broadening.py:175 *)
Lemma cubic_mono x y : x < y -> polyval [6127/10; -1227/10; 1540/100; 10831/10000] x < polyval [6127/10; -1227/10; 1540/100; 10831/10000] y.
Proof.
  intros H. unfold polyval. cbn [fold_left].
  set (d := y - x). assert (Hd : 0 < d) by (unfold d; lra). replace y with (x + d) by (unfold d; ring).
  assert (E : (((0 * (x + d) + 6127 / 10) * (x + d) + -1227 / 10) * (x + d) + 1540 / 100) * (x + d) + 10831 / 10000
      - ((((0 * x + 6127 / 10) * x + -1227 / 10) * x + 1540 / 100) * x + 10831 / 10000)
    = d * (6127/10 * (3 * x * x + 3 * x * d + d * d) - 1227/10 * (2 * x + d) + 154/10)) by field.
  assert (0 < 6127/10 * (3 * x * x + 3 * x * d + d * d) - 1227/10 * (2 * x + d) + 154/10).
  { assert (E2 : 6127/10 * (3 * x * x + 3 * x * d + d * d) - 1227/10 * (2 * x + d) + 154/10
      = 6127/10 * 3 * (x + d / 2 - 1227 / (3 * 6127)) * (x + d / 2 - 1227 / (3 * 6127)) + 6127/40 * d * d
        + (154/10 - 6127/10 * 3 * (1227 / (3 * 6127)) * (1227 / (3 * 6127)))) by field.
    rewrite E2. pose proof (Rle_0_sqr (x + d / 2 - 1227 / (3 * 6127))) as S1. pose proof (Rle_0_sqr d) as S2.
    unfold Rsqr in S1, S2. rewrite (Rmult_assoc (6127/10 * 3)), (Rmult_assoc (6127/40)).
    set (a := (x + d / 2 - 1227 / (3 * 6127)) * (x + d / 2 - 1227 / (3 * 6127))) in *. set (b := d * d) in *. lra. }
  nra.
Qed.
Lemma cubic_gt1 x : 0 <= x -> 1 < polyval [6127/10; -1227/10; 1540/100; 10831/10000] x.
Proof.
  intros [H|<-]; [|unfold polyval; cbn [fold_left]; lra].
  apply cubic_mono in H. unfold polyval in *. cbn [fold_left] in *. lra.
Qed.

Definition gpoly (u : R) : R := cheb_sum gauss_coeffs 1 u u.
Definition gp0 := 108306290 / 10 ^ 8.
Definition gderiv (u : R) : R :=
  18308697 / 10 ^ 8 + 51846388 / 10 ^ 8 * u + 50217564 / 10 ^ 8 * u ^ 2 - 27083616 / 10 ^ 8 * u ^ 3
  + 71520480 / 10 ^ 8 * u ^ 4 + 137415552 / 10 ^ 8 * u ^ 5.
Lemma gpoly_eq u : gpoly u = 108306290 / 10 ^ 8 + 18308697 / 10 ^ 8 * u + 25923194 / 10 ^ 8 * u ^ 2
  + 16739188 / 10 ^ 8 * u ^ 3 - 6770904 / 10 ^ 8 * u ^ 4 + 14304096 / 10 ^ 8 * u ^ 5 + 22902592 / 10 ^ 8 * u ^ 6.
Proof. unfold gpoly, gauss_coeffs, e8. cbn [cheb_sum]. field. Qed.
Lemma gderiv_pos u : -65/100 <= u -> 0 < gderiv u.
Proof.
  intros Hu. unfold gderiv. replace (10 ^ 8) with 100000000 by (simpl; lra).
  destruct (Rle_dec 0 u) as [Hp|Hp].
  - assert (0 <= u ^ 2) by nra. assert (0 <= u ^ 5) by (apply pow_le; exact Hp).
    assert (0 <= u ^ 2 * (50217564 / 100000000 - 27083616 / 100000000 * u + 71520480 / 100000000 * u ^ 2)) by (apply Rmult_le_pos; nra).
    nra.
  - set (t := - u). assert (Ht : 0 <= t <= 65/100) by (unfold t; lra). replace u with (- t) by (unfold t; ring).
    assert (0 <= t ^ 3 * (27083616 / 100000000 + 71520480 / 100000000 * t - 137415552 / 100000000 * t ^ 2)).
    { apply Rmult_le_pos; [apply pow_le; lra|]. nra. }
    assert (0 < 18308697 / 100000000 - 51846388 / 100000000 * t + 50217564 / 100000000 * t ^ 2).
    { assert (E : 18308697 / 100000000 - 51846388 / 100000000 * t + 50217564 / 100000000 * t ^ 2
        = 1/2 * (t - 51846388 / 100000000) * (t - 51846388 / 100000000) + 217564 / 100000000 * t ^ 2
          + (18308697 / 100000000 - 1/2 * (51846388 / 100000000) * (51846388 / 100000000))) by field.
      rewrite E. pose proof (Rle_0_sqr (t - 51846388 / 100000000)) as S1. unfold Rsqr in S1.
      assert (S2 : 0 <= t ^ 2) by (apply pow_le; lra). rewrite (Rmult_assoc (1/2)).
      set (a := (t - 51846388 / 100000000) * (t - 51846388 / 100000000)) in *. lra. }
    nra.
Qed.
Lemma gpoly_deriv u : derivable_pt_lim gpoly u (gderiv u).
Proof.
  apply (derivable_pt_lim_ext (fun u => 108306290 / 10 ^ 8 + 18308697 / 10 ^ 8 * u + 25923194 / 10 ^ 8 * u ^ 2
  + 16739188 / 10 ^ 8 * u ^ 3 - 6770904 / 10 ^ 8 * u ^ 4 + 14304096 / 10 ^ 8 * u ^ 5 + 22902592 / 10 ^ 8 * u ^ 6)); [intros v; symmetry; apply gpoly_eq|].
  assert (P : forall k c, derivable_pt_lim (fun u => c * u ^ k) u (c * (INR k * u ^ pred k))).
  { intros k c. apply (derivable_pt_lim_scal (fun u => u ^ k)). apply derivable_pt_lim_pow. }
  replace (gderiv u) with (0 + 18308697 / 10 ^ 8 + 25923194 / 10 ^ 8 * (INR 2 * u ^ 1) + 16739188 / 10 ^ 8 * (INR 3 * u ^ 2)
    - 6770904 / 10 ^ 8 * (INR 4 * u ^ 3) + 14304096 / 10 ^ 8 * (INR 5 * u ^ 4) + 22902592 / 10 ^ 8 * (INR 6 * u ^ 5)).
  2:{ unfold gderiv. simpl INR. field. }
  refine (derivable_pt_lim_plus _ _ _ _ _ (derivable_pt_lim_plus _ _ _ _ _ (derivable_pt_lim_minus _ _ _ _ _ (derivable_pt_lim_plus _ _ _ _ _ (derivable_pt_lim_plus _ _ _ _ _ (derivable_pt_lim_plus _ _ _ _ _ (derivable_pt_lim_const _ _) _) (P 2%nat _)) (P 3%nat _)) (P 4%nat _)) (P 5%nat _)) (P 6%nat _)).
  replace (18308697 / 10 ^ 8) with (18308697 / 10 ^ 8 * 1) at 2 by ring.
  apply (derivable_pt_lim_scal (fun u => u)). apply derivable_pt_lim_id.
Qed.
Lemma gpoly_mono u v : -65/100 <= u -> u < v -> gpoly u < gpoly v.
Proof.
  intros Hu H. destruct (MVT_cor2 gpoly gderiv u v H (fun c _ => gpoly_deriv c)) as [c [E Hc]].
  assert (0 < gderiv c) by (apply gderiv_pos; lra). assert (0 < gderiv c * (v - u)) by nra. lra.
Qed.

Lemma log10_mono x y : 0 < x -> x < y -> log10 x < log10 y.
Proof.
  intros Hx H. unfold log10. assert (0 < ln 10) by (rewrite <- ln_1; apply ln_increasing; lra).
  apply Rmult_lt_compat_r; [apply Rinv_0_lt_compat; assumption|apply ln_increasing; assumption].
Qed.

Lemma get_spacing_cheby_gauss e s : get_spacing e Gauss ChebyLog = Ok s ->
  exists u, -65/100 <= u /\ s = gpoly u /\ u = (2 * log10 e + 564209970 / 10 ^ 8) / (364150074 / 10 ^ 8).
Proof.
  unfold get_spacing. intros H. cbv zeta in H. cbn match in H.
  destruct (Rltb_spec (log10 e) (-4)) as [L|L]; [discriminate|]. cbn [orb] in H.
  destruct (Rltb (-1) (log10 e)); [discriminate|].
  assert (E : chebyshev gauss_coeffs (e8 (-464180022), e8 (-100029948)) (-1, 1) (log10 e) = s) by (injection H; auto).
  unfold chebyshev in E. 
  exists ((2 * log10 e + 564209970 / 10 ^ 8) / (364150074 / 10 ^ 8)). split; [|split; [|reflexivity]].
  - replace (10 ^ 8) with 100000000 by (simpl; lra). lra.
  - rewrite <- E. unfold gpoly. 
    replace ((e8 (-100029948) * -1 - e8 (-464180022) * 1) / (e8 (-100029948) - e8 (-464180022)) +
      (1 - -1) / (e8 (-100029948) - e8 (-464180022)) * log10 e) with ((2 * log10 e + 564209970 / 10 ^ 8) / (364150074 / 10 ^ 8)); [reflexivity|].
    unfold e8. simpl (10 ^ 8). lra.
Qed.

Lemma spacing_gauss_mono fit e1 e2 s1 s2 : 0 < e1 -> e1 < e2 ->
  get_spacing e1 Gauss fit = Ok s1 -> get_spacing e2 Gauss fit = Ok s2 -> s1 < s2.
Proof.
  intros H0 H G1 G2. destruct fit.
  - apply get_spacing_cheby_gauss in G1. apply get_spacing_cheby_gauss in G2.
    destruct G1 as [u1 [B1 [-> E1]]]. destruct G2 as [u2 [B2 [-> E2]]].
    apply gpoly_mono; [exact B1|]. rewrite E1, E2. pose proof (log10_mono e1 e2 H0 H).
    replace (10 ^ 8) with 100000000 by (simpl; lra). lra.
  - cbn in G1, G2. injection G1 as <-. injection G2 as <-. apply (cubic_mono e1 e2 H).
Qed.
Lemma gpoly_lo : 1 < gpoly (-65/100).
Proof. rewrite gpoly_eq. simpl. lra. Qed.

Lemma spacing_gt1 shape fit e s : 0 < e -> get_spacing e shape fit = Ok s -> 1 < s.
Proof.
  intros He G. destruct shape.
  - destruct fit.
    + apply get_spacing_cheby_gauss in G. destruct G as [u [B [-> _]]].
      pose proof gpoly_lo. destruct (Rle_lt_or_eq_dec _ _ B) as [L|<-]; [|assumption].
      pose proof (gpoly_mono (-65/100) u (Rle_refl _) L). lra.
    + cbn in G. injection G as <-. apply cubic_gt1. lra.
  - destruct fit; [|discriminate]. unfold get_spacing in G. cbv zeta in G. cbn match in G.
    destruct (_ || _)%bool; [discriminate|]. injection G as <-.
    unfold chebyshev, lorentz_coeffs, e8. replace ((1 - 1) / _) with 0 by (unfold Rdiv; ring).
    match goal with |- context [?a / ?b + 0 * ?c] => replace (a / b + 0 * c) with 1 by (simpl; field) end.
    cbn [cheb_sum]. simpl. lra.
Qed.

Lemma lorentz_constant e s : get_spacing e Lorentz ChebyLog = Ok s -> s = 199770784 / 10 ^ 8.
Proof.
  intros G. unfold get_spacing in G. cbv zeta in G. cbn match in G.
  destruct (_ || _)%bool; [discriminate|]. injection G as <-.
  unfold chebyshev, lorentz_coeffs, e8. replace ((1 - 1) / _) with 0 by (unfold Rdiv; ring).
  match goal with |- context [?a / ?b + 0 * ?c] => replace (a / b + 0 * c) with 1 by (simpl; field) end.
  cbn [cheb_sum]. simpl. lra.
Qed.
Lemma log10_pow k : log10 (/ 10 ^ k) = - INR k.
Proof.
  unfold log10. assert (0 < ln 10) by (rewrite <- ln_1; apply ln_increasing; lra).
  rewrite ln_Rinv by (apply pow_lt; lra). rewrite ln_pow by lra. field. lra.
Qed.
Lemma lorentz_accepts k : (2 <= k <= 4)%nat -> exists s, get_spacing (/ 10 ^ k) Lorentz ChebyLog = Ok s.
Proof.
  intros Hk. unfold get_spacing. cbv zeta. cbn match. rewrite log10_pow.
  assert (2 <= INR k <= 4) by (replace 2 with (INR 2) by (simpl; lra); replace 4 with (INR 4) by (simpl; lra); split; apply le_INR; lia).
  rewrite Rltb_false by lra. rewrite Rltb_false by lra. eexists. reflexivity.
Qed.
Lemma gauss_accepts k : (1 <= k <= 4)%nat -> exists s, get_spacing (/ 10 ^ k) Gauss ChebyLog = Ok s.
Proof.
  intros Hk. unfold get_spacing. cbv zeta. cbn match. rewrite log10_pow.
  assert (1 <= INR k <= 4) by (replace 1 with (INR 1) by (simpl; lra); replace 4 with (INR 4) by (simpl; lra); split; apply le_INR; lia).
  rewrite Rltb_false by lra. rewrite Rltb_false by lra. eexists. reflexivity.
Qed.
