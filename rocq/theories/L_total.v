(** How the dipole correction scales with the dielectric tensor (C51). *)
From Verif Require Import Base Cpx Vec3 M_grid M_cell M_qpts M_dynmat M_dipole L_util L_dipole M_total.
Open Scope R_scope.

Definition mscal (s : R) (m : M3) : M3 := let '(a, b, c) := m in (vscal s a, vscal s b, vscal s c).

Lemma mget_mscal s m a b : mget (mscal s m) a b = s * mget m a b.
Proof. destruct m as [[[[? ?] ?] [[? ?] ?]] [[? ?] ?]]. unfold mget, row, comp, mscal, vscal. destruct a as [|[|a]], b as [|[|b]]; reflexivity. Qed.
Lemma det_mscal s m : det3 (mscal s m) = s ^ 3 * det3 m.
Proof. destruct m as [[[[? ?] ?] [[? ?] ?]] [[? ?] ?]]. cbn. ring. Qed.
Lemma inv_mscal s m : s <> 0 -> det3 m <> 0 -> inv3 (mscal s m) = mscal (/ s) (inv3 m).
Proof.
  intros Hs Hd. pose proof (det_mscal s m) as E. destruct m as [[[[a1 a2] a3] [[b1 b2] b3]] [[c1 c2] c3]]. unfold inv3. cbn [mscal vscal] in *. rewrite E. set (dd := det3 _) in *.
  repeat (match goal with |- (_, _) = (_, _) => f_equal end); field; auto.
Qed.
Lemma vmul_mscal v s m : vmul v (mscal s m) = vscal s (vmul v m).
Proof. destruct m as [[[[? ?] ?] [[? ?] ?]] [[? ?] ?]], v as [[? ?] ?]. cbn. apply V3_eq; ring. Qed.
Lemma vsub_vscal s u v : vsub (vscal s u) (vscal s v) = vscal s (vsub u v).
Proof. destruct u as [[? ?] ?], v as [[? ?] ?]. cbn. apply V3_eq; ring. Qed.
Lemma comp_vscal s v a : comp (vscal s v) a = s * comp v a.
Proof. destruct v as [[? ?] ?]. destruct a as [|[|a]]; reflexivity. Qed.
Lemma dot_vscal s u v : dot (vscal s u) v = s * dot u v.
Proof. destruct u as [[? ?] ?], v as [[? ?] ?]. cbn. ring. Qed.

Lemma F2_flat {A B} (R1 : A -> A -> Prop) (R2 : B -> B -> Prop) (f g : A -> list B) (l l' : list A) : (forall x y, R1 x y -> Forall2 R2 (f x) (g y)) -> Forall2 R1 l l' -> Forall2 R2 (flat_map f l) (flat_map g l').
Proof. intros H F. induction F as [|x y l l' E F IH]; cbn [flat_map]; [constructor|]. apply Forall2_app; [apply H; exact E|exact IH]. Qed.
Lemma F2_refl {A} (R : A -> A -> Prop) l : (forall x, R x x) -> Forall2 R l l.
Proof. intros H. induction l; constructor; auto. Qed.
Lemma F2_map {A B} (R : B -> B -> Prop) (f g : A -> B) l : (forall x, In x l -> R (f x) (g x)) -> Forall2 R (map f l) (map g l).
Proof. intros H. induction l as [|x l IH]; cbn [map]; constructor; [apply H; left; reflexivity|apply IH; intros y Y; apply H; right; exact Y]. Qed.
Section Scale.
Variables (s : R) (erfc : R -> R) (cell : M3) (atom_r : list V3) (born : nat -> M3) (diel : M3) (dp : R).
Hypothesis Hs : 0 < s.
Hypothesis Hd : 0 < det3 diel.
Notation n := (length atom_r).
Notation lam := (upper_lambda cell diel n dp).
Notation lam' := (upper_lambda cell (mscal s diel) n dp).

Lemma lambda_scale : lam' = sqrt s * lam.
Proof.
  unfold upper_lambda, np_linalg_det. rewrite det_mscal. assert (S3 : 0 < s ^ 3) by (apply pow_lt; exact Hs).
  rewrite <- (Rpower_mult_distr (s ^ 3) (det3 diel)) by assumption. replace (Rpower (s ^ 3) (1 / 6)) with (sqrt s); [ring|].
  rewrite <- Rpower_sqrt by exact Hs. rewrite <- (Rpower_pow 3 s Hs). rewrite Rpower_mult. f_equal. cbn [INR]. field.
Qed.
Lemma lambda2_scale : lam' ^ 2 = s * lam ^ 2.
Proof. rewrite lambda_scale. rewrite Rpow_mult_distr. rewrite <- Rsqr_pow2, Rsqr_sqrt by lra. reflexivity. Qed.
Lemma factor_scale : real_factor lam' (mscal s diel) = real_factor lam diel.
Proof.
  unfold real_factor, np_linalg_det. rewrite lambda_scale, det_mscal, Rpow_mult_distr. rewrite sqrt_mult by (try apply pow_le; lra).
  assert (E : sqrt (s ^ 3) = sqrt s ^ 3). { replace (s ^ 3) with (sqrt s ^ 3 * sqrt s ^ 3); [apply sqrt_square; apply pow_le; apply sqrt_pos|]. transitivity ((sqrt s * sqrt s) ^ 3); [ring|]. rewrite sqrt_sqrt by lra. reflexivity. }
  rewrite E. pose proof (sqrt_lt_R0 s Hs). pose proof (sqrt_lt_R0 _ Hd). assert (sqrt s <> 0) by lra. field. split; lra.
Qed.
Lemma block_scale r re c ce a b : H_block erfc (lam' ^ 2) (inv3 (mscal s diel)) r (vscal (/ s) re) c (vscal (/ s) ce) a b = / s * H_block erfc (lam ^ 2) (inv3 diel) r re c ce a b.
Proof.
  unfold H_block. rewrite inv_mscal by (apply Rgt_not_eq; assumption). rewrite lambda2_scale, vsub_vscal, dot_vscal, !comp_vscal, mget_mscal.
  replace (/ s * dot (vsub re ce) (vsub r c) * (s * lam ^ 2)) with (dot (vsub re ce) (vsub r c) * lam ^ 2) by (field; lra). 
  set (n2 := dot (vsub re ce) (vsub r c) * lam ^ 2). set (ex := 2 * exp (- n2) / (sqrt PI * n2)). set (er := erfc (sqrt n2) / (sqrt n2 * n2)). set (x := 3 * er / n2 + _). field. lra.
Qed.
Lemma row_scale sh c k a b : H_row erfc (lam' ^ 2) cell (inv3 (mscal s diel)) atom_r sh c k a b = / s * H_row erfc (lam ^ 2) cell (inv3 diel) atom_r sh c k a b.
Proof.
  unfold H_row. cbv zeta.
  match goal with |- fold_left ?f ?l ?z k a b = _ * fold_left ?g ?l ?z k a b =>
    assert (G : forall m h h', (forall k a b, h' k a b = / s * h k a b) -> forall k a b, fold_left f m h' k a b = / s * fold_left g m h k a b); [|apply (G l z z); intros; ring] end.
  clear k a b. induction m as [|i m IH]; intros h h' Hh k a b; [apply Hh|]. cbn [fold_left]. apply IH. clear IH k a b. revert h h' Hh. generalize (seq i (n - i)).
  intros m'. induction m' as [|j m' IH]; intros h h' Hh k a b; cbn [fold_left]; [apply Hh|].
  apply IH. clear IH k a b. intros k a b. destruct (Nat.eqb sh 0 && Nat.eqb i j)%bool; [apply Hh|]. destruct (Nat.eqb k _); [|apply Hh].
  rewrite <- block_scale. rewrite inv_mscal by (apply Rgt_not_eq; assumption). rewrite !vmul_mscal, vsub_vscal. reflexivity.
Qed.
(** Lists of rows, scaled one by one *)
Definition rows_scaled (h h' : nat -> nat -> nat -> R) : Prop := forall k a b, h' k a b = / s * h k a b.
Lemma amax_scale l l' : Forall2 (fun x y => y = / s * x) l l' -> amax l' = / s * amax l.
Proof.
  intros H. assert (P : 0 < / s) by (apply Rinv_0_lt_compat; exact Hs). unfold amax. destruct H as [|x y l l' E H]; cbn [hd tl fold_right]; [ring|].
  revert x y E. induction H as [|u v l l' E' H IH]; intros x y E; cbn [fold_right]; [exact E|]. rewrite (IH x y E), E'. rewrite RmaxRmult by lra. reflexivity.
Qed.
Lemma H_amax_scale m hs hs' : Forall2 rows_scaled hs hs' -> H_amax m hs' = / s * H_amax m hs.
Proof.
  intros H. unfold H_amax. apply amax_scale. apply (F2_flat rows_scaled (fun x y => y = / s * x)); [|exact H]. intros h h' E.
  apply (F2_flat eq (fun x y => y = / s * x)); [|apply F2_refl; intros; reflexivity]. intros k ? <-. apply (F2_flat eq (fun x y => y = / s * x)); [|apply F2_refl; intros; reflexivity]. intros a ? <-.
  apply F2_map. intros b _. rewrite (E k a b). rewrite Rabs_mult. rewrite (Rabs_pos_eq (/ s)); [reflexivity|]. apply Rlt_le, Rinv_0_lt_compat, Hs.
Qed.
Lemma real_shells_scale mk mk' m : (forall sh c, rows_scaled (mk sh c) (mk' sh c)) -> forall todo r,
  fst (real_shells mk' m todo (/ s * r)) = fst (real_shells mk m todo r) /\ Forall2 rows_scaled (snd (real_shells mk m todo r)) (snd (real_shells mk' m todo (/ s * r))).
Proof.
  intros E. assert (P : 0 < / s) by (apply Rinv_0_lt_compat; exact Hs). induction todo as [|sh todo IH]; intros r; cbn [real_shells]; [split; [reflexivity|constructor]|].
  assert (F : Forall2 rows_scaled (map (mk sh) (shell sh)) (map (mk' sh) (shell sh))) by (apply F2_map; intros c _; apply E).
  rewrite (H_amax_scale m _ _ F). set (x := H_amax m (map (mk sh) (shell sh))). 
  replace (if Nat.eqb sh 0 then / s * x else / s * r) with (/ s * (if Nat.eqb sh 0 then x else r)) by (destruct (Nat.eqb sh 0); reflexivity). set (r0 := if Nat.eqb sh 0 then x else r).
  replace (Rltb (frac_tol * (/ s * r0)) (/ s * x)) with (Rltb (frac_tol * r0) x).
  - destruct (Rltb (frac_tol * r0) x); [|split; [reflexivity|constructor]]. destruct (IH r0) as (I1 & I2). destruct (real_shells mk m todo r0) as [cs hs]. destruct (real_shells mk' m todo (/ s * r0)) as [cs' hs']. cbn [fst snd] in *. rewrite I1. split; [reflexivity|apply Forall2_app; assumption].
  - replace (frac_tol * (/ s * r0)) with (/ s * (frac_tol * r0)) by ring. destruct (Rltb (frac_tol * r0) x) eqn:Q; symmetry.
    + apply Rltb_iff in Q. apply Rltb_iff. apply Rmult_lt_compat_l; assumption.
    + apply Rltb_nf in Q. apply Rltb_nf. apply Rmult_le_compat_l; [lra|exact Q].
Qed.
Lemma k_len_scale k : k_len_2 (mscal s diel) (lam' ^ 2) k = k_len_2 diel (lam ^ 2) k.
Proof.
  unfold k_len_2. rewrite lambda2_scale. rewrite (Sum_ext idx3 _ (fun a => s * Sum idx3 (fun b => comp k a * comp k b * mget diel a b))).
  - rewrite Sum_scal. unfold Rdiv. replace (4 * (s * lam ^ 2)) with (s * (4 * lam ^ 2)) by ring. rewrite Rinv_mult. generalize (/ (4 * lam ^ 2)). intros i. field. lra.
  - intros a _. rewrite <- Sum_scal. apply Sum_ext. intros b _. rewrite mget_mscal. ring.
Qed.
Lemma recip_term_scale k a b : recip_term (mscal s diel) (lam' ^ 2) k a b = recip_term diel (lam ^ 2) k a b.
Proof. unfold recip_term. rewrite k_len_scale. reflexivity. Qed.
Lemma recip_tmp_scale gs i j a b : recip_q0_tmp (mscal s diel) (lam' ^ 2) gs i j a b = recip_q0_tmp diel (lam ^ 2) gs i j a b.
Proof. unfold recip_q0_tmp. destruct (Nat.ltb j i); [reflexivity|]. apply Csum_ext. intros g _. rewrite recip_term_scale. reflexivity. Qed.
Lemma block_amax_ext m t t' : (forall i j a b, t i j a b = t' i j a b) -> block_amax m t = block_amax m t'.
Proof. intros E. unfold block_amax. f_equal. apply flat_map_ext. intros i. apply flat_map_ext. intros j. apply flat_map_ext. intros a. apply map_ext. intros b. rewrite E. reflexivity. Qed.
Lemma recip_shells_scale recip : forall todo f acc acc', (forall i j a b, acc' i j a b = acc i j a b) ->
  fst (recip_shells (mscal s diel) recip (lam' ^ 2) atom_r todo f acc') = fst (recip_shells diel recip (lam ^ 2) atom_r todo f acc) /\
  forall i j a b, snd (recip_shells (mscal s diel) recip (lam' ^ 2) atom_r todo f acc') i j a b = snd (recip_shells diel recip (lam ^ 2) atom_r todo f acc) i j a b.
Proof.
  induction todo as [|sh todo IH]; intros f acc acc' E; cbn [recip_shells]; [split; [reflexivity|exact E]|].
  rewrite (block_amax_ext n _ _ (recip_tmp_scale (map (g_row recip atom_r) (shell sh)))). set (x := block_amax n _). set (f0 := if Nat.eqb sh 1 then x else f). destruct (Rltb (frac_tol * f0) x); [|split; [reflexivity|exact E]].
  match goal with |- context [recip_shells (mscal s diel) recip (lam' ^ 2) atom_r todo f0 ?A'] => match goal with |- context [recip_shells diel recip (lam ^ 2) atom_r todo f0 ?A] => assert (Q : forall i j a b, A' i j a b = A i j a b) by (intros i j a b; cbv beta; rewrite E, recip_tmp_scale; reflexivity); destruct (IH f0 A A' Q) as (I1 & I2); destruct (recip_shells diel recip (lam ^ 2) atom_r todo f0 A) as [l r]; destruct (recip_shells (mscal s diel) recip (lam' ^ 2) atom_r todo f0 A') as [l' r'] end end.
  cbn [fst snd] in *. rewrite I1. split; [reflexivity|exact I2].
Qed.
Lemma born_scale m m' i j a b : (forall a b, m' i j a b = Cscal (/ s) (m i j a b)) -> born_contract born m' i j a b = Cscal (/ s) (born_contract born m i j a b).
Proof.
  intros E. unfold born_contract. rewrite <- Csum_scal. apply Csum_ext. intros a' _. rewrite <- Csum_scal. apply Csum_ext. intros b' _. rewrite E. apply C_eq; cbn [re im Cscal]; ring.
Qed.
Lemma Csum_F2 hs hs' (f : (nat -> nat -> nat -> R) -> R) : Forall2 rows_scaled hs hs' -> (forall h h', rows_scaled h h' -> f h' = / s * f h) -> Sum hs' f = / s * Sum hs f.
Proof. intros H E. induction H as [|h h' l l' F H IH]; [rewrite !Sum_nil; ring|]. rewrite !Sum_cons, IH, (E _ _ F). ring. Qed.
Lemma triu_scale (f g : nat -> nat -> nat -> C) i j a b : (forall k a b, g k a b = Cscal (/ s) (f k a b)) -> triu_fill Czero n g i j a b = Cscal (/ s) (triu_fill Czero n f i j a b).
Proof. intros E. unfold triu_fill. destruct (pair_index i j (triu n)); [apply E|]. apply C_eq; cbn; ring. Qed.
Definition dd := dipole_init erfc cell atom_r born diel dp.
Definition dd' := dipole_init erfc cell atom_r born (mscal s diel) dp.
Lemma init_scale : dd_lambda dd = lam /\ dd_lambda dd' = lam' /\ dd_cells dd' = dd_cells dd /\ dd_gcart dd' = dd_gcart dd /\ dd_gph dd' = dd_gph dd /\ Forall2 rows_scaled (dd_H dd) (dd_H dd') /\ forall i a b, dd_q0 dd' i a b = Cscal (/ s) (dd_q0 dd i a b).
Proof.
  unfold dd, dd', dipole_init. cbv zeta.
  pose proof (real_shells_scale (H_row erfc (lam ^ 2) cell (inv3 diel) atom_r) (H_row erfc (lam' ^ 2) cell (inv3 (mscal s diel)) atom_r) n ltac:(intros sh c k a b; apply row_scale) (seq 0 50) 0) as (R1 & R2).
  rewrite Rmult_0_r in R1, R2. destruct (real_shells (H_row erfc (lam ^ 2) cell (inv3 diel) atom_r) n (seq 0 50) 0) as [cs hs]. destruct (real_shells (H_row erfc (lam' ^ 2) cell (inv3 (mscal s diel)) atom_r) n (seq 0 50) 0) as [cs' hs']. cbn [fst snd] in R1, R2. subst cs'.
  destruct (recip_shells_scale (reciprocal_cell cell) (seq 1 49) 0 (fun _ _ _ _ => Czero) (fun _ _ _ _ => Czero) ltac:(reflexivity)) as (G1 & G2).
  destruct (recip_shells diel (reciprocal_cell cell) (lam ^ 2) atom_r (seq 1 49) 0 _) as [gs rs]. destruct (recip_shells (mscal s diel) (reciprocal_cell cell) (lam' ^ 2) atom_r (seq 1 49) 0 _) as [gs' rs']. cbn [fst snd] in G1, G2. subst gs'.
  cbn [dd_lambda dd_cells dd_gcart dd_gph dd_H dd_q0]. repeat (split; [reflexivity || exact R2|]). intros i a b. unfold dipole_q0.
  match goal with |- context [born_contract born ?M1 i _ a b] => match goal with |- _ = Cscal (/ s) (Cscal _ (Cadd (Csum _ (fun j => born_contract born ?M2 i j a b)) _)) => assert (Q : forall i j a b, M1 i j a b = Cscal (/ s) (M2 i j a b)) end end.
  { clear i a b. intros i j a b. assert (P1 : forall i j a b, Cscal (PI / (cell_volume cell * lam' ^ 2)) (rs' i j a b) = Cscal (/ s) (Cscal (PI / (cell_volume cell * lam ^ 2)) (rs i j a b))).
    { intros i' j' a' b'. rewrite G2, lambda2_scale. unfold Rdiv. rewrite !Rinv_mult. apply C_eq; cbn [re im Cscal]; ring. }
    assert (P2 : forall i j a b, Cscal (real_factor lam' (mscal s diel)) (triu_fill Czero n (fun k a b => RtoC (Sum hs' (fun h => h k a b))) i j a b) = Cscal (/ s) (Cscal (real_factor lam diel) (triu_fill Czero n (fun k a b => RtoC (Sum hs (fun h => h k a b))) i j a b))).
    { intros i' j' a' b'. rewrite factor_scale. rewrite (triu_scale (fun k a b => RtoC (Sum hs (fun h => h k a b)))); [apply C_eq; cbn [re im Cscal]; ring|]. intros k x y. rewrite (Csum_F2 hs hs' _ R2) by (intros h h' F; apply F). apply C_eq; cbn [re im Cscal RtoC]; ring. }
    unfold fill_lower. destruct (Nat.ltb j i); rewrite P1, P2; apply C_eq; cbn [re im Cscal Csub Cconj]; ring. }
  rewrite (Csum_ext (seq 0 n) _ _ (fun j _ => born_scale _ _ i j a b (Q i j))). rewrite (Csum_ext (seq 0 n) _ _ (fun j _ => born_scale _ _ i j b a (Q i j))). rewrite !Csum_scal. apply C_eq; cbn [re im Cscal Cadd]; ring.
Qed.
Theorem dipole_scale q x y : dipole_correction cell atom_r born (mscal s diel) dd' q x y = Cscal (/ s) (dipole_correction cell atom_r born diel dd q x y).
Proof.
  destruct init_scale as (L & L' & C1 & G1 & G2 & R2 & Q0). unfold dipole_correction.
  assert (Q : forall i j a b, Csub (add_lower (recip_dipole cell atom_r (mscal s diel) dd' (qnorm q)) i j a b) (add_lower (real_dipole (mscal s diel) n dd' (qnorm q)) i j a b)
     = Cscal (/ s) (Csub (add_lower (recip_dipole cell atom_r diel dd (qnorm q)) i j a b) (add_lower (real_dipole diel n dd (qnorm q)) i j a b))).
  { assert (P1 : forall i j a b, recip_dipole cell atom_r (mscal s diel) dd' (qnorm q) i j a b = Cscal (/ s) (recip_dipole cell atom_r diel dd (qnorm q) i j a b)).
    { intros i j a b. unfold recip_dipole. destruct (Nat.ltb j i); [apply C_eq; cbn; ring|]. rewrite L, L'. replace (used_g dd' (qnorm q)) with (used_g dd (qnorm q)) by (unfold used_g; rewrite G1, G2; reflexivity).
      rewrite (Csum_ext _ _ _ (fun g _ => f_equal (fun t => Cscal t _) (recip_term_scale _ a b))). rewrite lambda2_scale. unfold Rdiv. rewrite !Rinv_mult. apply C_eq; cbn [re im Cscal]; ring. }
    assert (P2 : forall i j a b, real_dipole (mscal s diel) n dd' (qnorm q) i j a b = Cscal (/ s) (real_dipole diel n dd (qnorm q) i j a b)).
    { intros i j a b. unfold real_dipole. rewrite L, L', factor_scale, C1. rewrite (triu_scale (fun k a b => Csum (combine (dd_cells dd) (dd_H dd)) (fun ch => Cscal (snd ch k a b) (cis (2 * PI * dot (qnorm q) (zvec (fst ch))))))). { apply C_eq; cbn [re im Cscal]; ring. }
      intros k x0 y0. cbv beta. clear - R2 s. revert R2. generalize (dd_H dd) (dd_H dd') (dd_cells dd). intros hs hs' cs H. revert cs. induction H as [|h h' l l' F H IH]; intros cs; [destruct cs; cbn [combine]; rewrite !Csum_nil; apply C_eq; cbn; ring|].
      destruct cs as [|c cs]; cbn [combine]; [rewrite !Csum_nil; apply C_eq; cbn; ring|]. rewrite !Csum_cons, IH. cbn [fst snd]. rewrite (F k x0 y0). apply C_eq; cbn [re im Cadd Cscal]; ring. }
    intros i j a b. unfold add_lower. rewrite !P1, !P2. destruct (Nat.ltb j i); apply C_eq; cbn [re im Csub Cadd Cscal Cconj Czero RtoC]; ring. }
  cbv zeta. match goal with |- context [born_contract born ?M1 _ _ _ _] => match goal with |- _ = Cscal (/ s) (if _ then Csub (born_contract born ?M2 _ _ _ _) _ else _) => rewrite (born_scale M2 M1) by (intros; apply Q) end end. rewrite Q0. destruct (Nat.eqb (x / 3) (y / 3)); [apply C_eq; cbn [re im Csub Cscal]; ring|reflexivity].
Qed.
End Scale.
