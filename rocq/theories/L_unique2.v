(** Histograms, structure factor maps and Debye-Waller factors of two tables of the same modes. *)
From Verif Require Import Base Cpx Vec3 M_qpts M_path M_broad M_dos M_sf M_calc S_asr S_calc S_unique L_unique L_util.
From Verif Require L_cmain L_phmodes L_dynmat2.
From Verif Require Import L_dos L_dos2 L_sf L_sf2 L_spectral.
Open Scope R_scope.

Lemma mapE_ext {A B E} (f g : A -> res B E) l : (forall a, In a l -> f a = g a) -> mapE f l = mapE g l.
Proof.
  induction l as [|a l IH]; intros K; [reflexivity|]. cbn [mapE]. rewrite (K a (or_introl eq_refl)). rewrite IH; [reflexivity|]. intros b Ib. apply K. right. exact Ib.
Qed.

Lemma add_at1_same l ivs ivs' :
  (forall j, Sum ivs (fun iv => if Nat.eqb (fst iv) j then snd iv else 0) = Sum ivs' (fun iv => if Nat.eqb (fst iv) j then snd iv else 0)) ->
  add_at1 l ivs = add_at1 l ivs'.
Proof.
  intros H. apply (nth_ext _ _ 0 0); [rewrite !length_add_at1; reflexivity|]. intros j Hj. rewrite length_add_at1 in Hj.
  rewrite !nth_add_at1 by exact Hj. rewrite H. reflexivity.
Qed.

Lemma dos_hist_same t t' mw mw' bins : nq t = nq t' -> (forall q, (q < nq t)%nat -> wt t q = wt t' q) ->
  (forall q (h : R -> R), (q < nq t)%nat -> Sum (seq 0 (nm t)) (fun m => h (freq t q m) * mw q m) = Sum (seq 0 (nm t')) (fun m => h (freq t' q m) * mw' q m)) ->
  dos_hist t mw bins = dos_hist t' mw' bins.
Proof.
  intros Hn Hw Hh. unfold dos_hist. destruct (digitize bins) as [bin|e]; [|reflexivity]. do 3 f_equal. apply add_at1_same. intros j.
  rewrite !Sum_map, !pairs_sum, <- Hn. apply Sum_ext. intros q Iq. apply in_seq in Iq. cbn [fst snd]. 
  pose proof (Hh q (fun f => if Nat.eqb (bin f) j then wt t q / nth (bin f) (padded_widths bins) 0 else 0) ltac:(lia)) as K. cbv beta in K.
  rewrite (Sum_ext _ _ (fun m => (if Nat.eqb (bin (freq t q m)) j then wt t q / nth (bin (freq t q m)) (padded_widths bins) 0 else 0) * mw q m)).
  - rewrite K. apply Sum_ext. intros m _. rewrite Hw by lia. destruct (Nat.eqb _ j); unfold Rdiv; ring.
  - intros m _. destruct (Nat.eqb _ j); unfold Rdiv; ring.
Qed.

Lemma dos_data_same k bins t t' (mw mw' : nat -> nat -> R) w w' wmin meth : nq t = nq t' -> (forall q, (q < nq t)%nat -> wt t q = wt t' q) ->
  (match w with Some f => f | None => fun _ _ => 3 / INR (nm t) end) = mw -> (match w' with Some f => f | None => fun _ _ => 3 / INR (nm t') end) = mw' ->
  (forall q (h : R -> R), (q < nq t)%nat -> Sum (seq 0 (nm t)) (fun m => h (freq t q m) * mw q m) = Sum (seq 0 (nm t')) (fun m => h (freq t' q m) * mw' q m)) ->
  calculate_dos_data k bins t w None wmin meth = calculate_dos_data k bins t' w' None wmin meth.
Proof.
  intros Hn Hw E E' Hh. unfold calculate_dos_data. rewrite E, E', (dos_hist_same t t' mw mw' _ Hn Hw Hh).
  rewrite <- Hn, (Sum_ext (seq 0 (nq t)) (wt t) (wt t')); [reflexivity|]. intros q Iq. apply in_seq in Iq. apply Hw; lia.
Qed.

Section Tables.
Variables (e e' : etable) (mass : nat -> R) (D : nat -> nat -> nat -> C).
Hypothesis HS : same_points e e'.
Hypothesis H : table_modes e mass D.
Hypothesis H' : table_modes e' mass D.

Lemma same_nm : nm (et e) = nm (et e').
Proof. destruct HS as (A & _ & _), H as [B _], H' as [B' _]. rewrite B, B', A. reflexivity. Qed.
Lemma same_nq : nq (et e) = nq (et e'). Proof. exact (proj1 (proj2 HS)). Qed.
Lemma same_na : n_atoms e = n_atoms e'. Proof. exact (proj1 HS). Qed.
Lemma both q : (q < nq (et e))%nat -> modes_of (3 * n_atoms e) mass (D q) (modes_at e q) /\ modes_of (3 * n_atoms e) mass (D q) (modes_at e' q).
Proof. intros Hq. split; [apply H; exact Hq|]. rewrite same_na. apply H'. rewrite <- same_nq. exact Hq. Qed.

Lemma freq_sum q (h : R -> R) : (q < nq (et e))%nat ->
  Sum (seq 0 (nm (et e))) (fun m => h (freq (et e) q m)) = Sum (seq 0 (nm (et e'))) (fun m => h (freq (et e') q m)).
Proof.
  intros Hq. destruct (both q Hq) as [M M']. rewrite <- same_nm, (proj1 H). exact (modes_count _ mass (D q) _ _ M M' h).
Qed.
Lemma evec_sum q (h : R -> R) a l l' : (q < nq (et e))%nat -> (a < n_atoms e)%nat -> (l < 3)%nat -> (l' < 3)%nat ->
  Sum (seq 0 (nm (et e))) (fun m => h (freq (et e) q m) * evec_term e q m a l l') = Sum (seq 0 (nm (et e'))) (fun m => h (freq (et e') q m) * evec_term e' q m a l l').
Proof.
  intros Hq Ha Hl Hl'. destruct (both q Hq) as [M M']. rewrite <- same_nm, (proj1 H).
  pose proof (f_equal re (modes_fun _ mass (D q) _ _ M M' h (3 * a + l) (3 * a + l') ltac:(lia) ltac:(lia))) as E.
  rewrite !re_Csum in E. cbn [m_freq m_evec modes_at] in E.
  destruct (L_phmodes.div3 a l Hl) as [D1 D2]. destruct (L_phmodes.div3 a l' Hl') as [D3 D4].
  rewrite D1, D2, D3, D4 in E. exact E.
Qed.
Lemma weight_sum q (h : R -> R) (c : nat -> nat -> C) : (q < nq (et e))%nat ->
  Sum (seq 0 (nm (et e))) (fun m => h (freq (et e) q m) * Cnorm2 (Csum (seq 0 (n_atoms e)) (fun a => Csum (seq 0 3) (fun l => Cmul (c a l) (Cconj (evec e q m a l))))))
  = Sum (seq 0 (nm (et e'))) (fun m => h (freq (et e') q m) * Cnorm2 (Csum (seq 0 (n_atoms e)) (fun a => Csum (seq 0 3) (fun l => Cmul (c a l) (Cconj (evec e' q m a l)))))).
Proof.
  intros Hq. destruct (both q Hq) as [M M']. rewrite <- same_nm, (proj1 H).
  assert (K : forall (f : nat -> nat -> C), Csum (seq 0 (n_atoms e)) (fun a => Csum (seq 0 3) (fun l => f a l)) = Csum (seq 0 (3 * n_atoms e)) (fun i => f (i / 3) (i mod 3))%nat).
  { intros f.
    assert (P : forall g : nat -> nat -> R, Sum (seq 0 (n_atoms e)) (fun a => Sum (seq 0 3) (fun l => g a l)) = Sum (seq 0 (3 * n_atoms e)) (fun i => g (i / 3) (i mod 3))%nat).
    { intros g. rewrite <- (L_cmain.Sum_div3 (n_atoms e) (fun i => g (i / 3) (i mod 3))%nat). apply Sum_ext. intros a _. apply Sum_ext. intros l Il. apply in_seq in Il.
      destruct (L_phmodes.div3 a l ltac:(lia)) as [D1 D2]. rewrite D1, D2. reflexivity. }
    apply C_eq.
    - exact (P (fun a l => re (f a l))).
    - exact (P (fun a l => im (f a l))). }
  pose proof (modes_weight _ mass (D q) _ _ M M' h (fun i => c (i / 3) (i mod 3))%nat) as E. cbn [m_freq m_evec modes_at] in E.
  rewrite (Sum_ext _ _ (fun m => h (freq (et e) q m) * Cnorm2 (Csum (seq 0 (3 * n_atoms e)) (fun a => Cmul (c (a / 3) (a mod 3))%nat (Cconj (evec e q m (a / 3) (a mod 3))))))).
  - rewrite E. apply Sum_ext. intros m _. rewrite (K (fun a l => Cmul (c a l) (Cconj (evec e' q m a l)))). reflexivity.
  - intros m _. rewrite (K (fun a l => Cmul (c a l) (Cconj (evec e q m a l)))). reflexivity.
Qed.

Lemma same_zero : has_zero (et e) = has_zero (et e').
Proof.
  assert (P : forall q, (q < nq (et e))%nat -> Permutation.Permutation (map (freq (et e) q) (seq 0 (nm (et e)))) (map (freq (et e') q) (seq 0 (nm (et e'))))).
  { intros q Hq. apply sums_perm. intros h. rewrite !Sum_map. apply freq_sum; exact Hq. }
  destruct (has_zero (et e)) eqn:Z, (has_zero (et e')) eqn:Z'; try reflexivity; exfalso.
  - unfold has_zero in Z. apply existsb_exists in Z. destruct Z as [[q m] [I E]]. apply in_prod_iff in I. destruct I as [A B]. apply in_seq in A, B. cbn [fst snd] in E.
    destruct (Reqb_spec (freq (et e) q m) 0) as [F|]; [|discriminate].
    assert (I : In (freq (et e) q m) (map (freq (et e') q) (seq 0 (nm (et e'))))).
    { apply (Permutation.Permutation_in _ (P q ltac:(lia))). apply in_map, in_seq. lia. }
    apply in_map_iff in I. destruct I as (k & F' & Ik). apply in_seq in Ik. rewrite <- same_nq in A at 1 || idtac.
    apply (has_zero_false (et e') q k Z'); [rewrite <- same_nq; lia|lia|congruence].
  - unfold has_zero in Z'. apply existsb_exists in Z'. destruct Z' as [[q m] [I E]]. apply in_prod_iff in I. destruct I as [A B]. apply in_seq in A, B. cbn [fst snd] in E.
    destruct (Reqb_spec (freq (et e') q m) 0) as [F|]; [|discriminate]. rewrite <- same_nq in A.
    assert (I : In (freq (et e') q m) (map (freq (et e) q) (seq 0 (nm (et e))))).
    { apply (Permutation.Permutation_in _ (Permutation.Permutation_sym (P q ltac:(lia)))). apply in_map, in_seq. lia. }
    apply in_map_iff in I. destruct I as (k & F' & Ik). apply in_seq in Ik.
    apply (has_zero_false (et e) q k Z); [lia|lia|congruence].
Qed.

Lemma dos_same k bins wmin meth : calculate_dos k bins (et e) None wmin meth = calculate_dos k bins (et e') None wmin meth.
Proof.
  unfold calculate_dos. eapply dos_data_same; [exact same_nq|exact (proj2 (proj2 HS))|reflexivity|reflexivity|].
  intros q h Hq. rewrite <- same_nm. rewrite !Sum_scal_r. f_equal. rewrite (freq_sum q h Hq), same_nm. reflexivity.
Qed.

Lemma pdos_same k bins wmin meth cs : calculate_pdos k bins e None wmin meth cs = calculate_pdos k bins e' None wmin meth cs.
Proof.
  unfold calculate_pdos. rewrite <- same_na. apply mapE_ext. intros a Ia. apply in_seq in Ia.
  assert (E : calculate_dos_data k bins (et e) (Some (evec_weight e a)) None wmin meth = calculate_dos_data k bins (et e') (Some (evec_weight e' a)) None wmin meth).
  { eapply dos_data_same; [exact same_nq|exact (proj2 (proj2 HS))|reflexivity|reflexivity|].
    intros q h Hq. cbv beta. unfold evec_weight.
    assert (K : forall ex m, re (Csum (seq 0 3) (fun x => Cmul (evec ex q m a x) (Cconj (evec ex q m a x)))) = evec_term ex q m a 0 0 + evec_term ex q m a 1 1 + evec_term ex q m a 2 2).
    { intros ex m. rewrite re_Csum. cbn [seq]. rewrite !Sum_cons, Sum_nil. unfold evec_term. ring. }
    assert (T : forall ex, n_atoms ex = n_atoms e -> Sum (seq 0 (nm (et ex))) (fun m => h (freq (et ex) q m) * (re (Csum (seq 0 3) (fun x => Cmul (evec ex q m a x) (Cconj (evec ex q m a x)))) / INR (n_atoms ex)))
       = (Sum (seq 0 (nm (et ex))) (fun m => h (freq (et ex) q m) * evec_term ex q m a 0 0) + Sum (seq 0 (nm (et ex))) (fun m => h (freq (et ex) q m) * evec_term ex q m a 1 1)
          + Sum (seq 0 (nm (et ex))) (fun m => h (freq (et ex) q m) * evec_term ex q m a 2 2)) / INR (n_atoms e)).
    { intros ex N. unfold Rdiv. rewrite <- !Sum_plus, <- Sum_scal_r. apply Sum_ext. intros m _. rewrite K, N. ring. }
    rewrite (T e eq_refl), (T e' (eq_sym same_na)), !evec_sum by lia. reflexivity. }
  rewrite E. unfold pdos_scale. rewrite same_na. reflexivity.
Qed.
Lemma pdos_weighted_same k bins element ms wmin meth w src :
  calculate_pdos_weighted k bins e element ms None wmin meth w src = calculate_pdos_weighted k bins e' element ms None wmin meth w src.
Proof.
  unfold calculate_pdos_weighted. destruct (choose_cross_sections w src) as [s|]; [|apply pdos_same].
  rewrite <- same_na. destruct (resolve_cs (n_atoms e) element s); [apply pdos_same|reflexivity].
Qed.

Lemma dw_chunk_same x kB T fmin qi qf a l l' : (qf <= nq (et e))%nat -> (a < n_atoms e)%nat -> (l < 3)%nat -> (l' < 3)%nat ->
  dw_chunk e x kB T fmin qi qf a l l' = dw_chunk e' x kB T fmin qi qf a l l'.
Proof.
  intros Hq Ha Hl Hl'. unfold dw_chunk. apply Sum_ext. intros q Iq. apply in_seq in Iq.
  pose proof (evec_sum q (fun f => wt (et e) q * (1 / (4 * M_sf.mass x a)) * tanh_term kB T f * freq_mask fmin f) a l l' ltac:(lia) Ha Hl Hl') as E. cbv beta in E.
  rewrite E. rewrite (proj2 (proj2 HS) q) by lia. reflexivity.
Qed.
Lemma dw_raw_same chunk x kB T fmin a l l' : (a < n_atoms e)%nat -> (l < 3)%nat -> (l' < 3)%nat ->
  dw_raw chunk e x kB T fmin a l l' = dw_raw chunk e' x kB T fmin a l l'.
Proof.
  intros Ha Hl Hl'. unfold dw_raw. rewrite <- same_nq.
  assert (K : forall is acc, fold_left (fun acc i => acc + dw_chunk e x kB T fmin (i * chunk) (Nat.min ((i + 1) * chunk) (nq (et e))) a l l') is acc
     = fold_left (fun acc i => acc + dw_chunk e' x kB T fmin (i * chunk) (Nat.min ((i + 1) * chunk) (nq (et e))) a l l') is acc).
  { induction is as [|i is IH]; intros acc; cbn [fold_left]; [reflexivity|]. rewrite dw_chunk_same by (assumption || lia). apply IH. }
  apply K.
Qed.

Lemma dw_same chunk x kB T fmin ops :
  related same_dw (calculate_debye_waller chunk e x kB T fmin ops) (calculate_debye_waller chunk e' x kB T fmin ops).
Proof.
  unfold calculate_debye_waller. rewrite <- same_zero, <- same_nq.
  rewrite (Sum_ext (seq 0 (nq (et e))) (wt (et e')) (wt (et e))) by (intros q Iq; apply in_seq in Iq; symmetry; apply (proj2 (proj2 HS)); lia).
  destruct (has_zero (et e) || Reqb _ 0)%bool; [reflexivity|]. destruct ops as [[|o os]|].
  - reflexivity.
  - cbn [related]. split; [exact same_na|]. split; [reflexivity|]. cbn [dw_n dw_w]. intros a l l' Ha Hl Hl'.
    unfold symmetrise. f_equal. rewrite <- same_na.
    assert (K : forall ops acc acc' j i m, acc j i m = acc' j i m ->
      fold_left (sym_step (n_atoms e) (fun a l l' => dw_raw chunk e x kB T fmin a l l' / Sum (seq 0 (nq (et e))) (wt (et e)))) ops acc j i m
      = fold_left (sym_step (n_atoms e) (fun a l l' => dw_raw chunk e' x kB T fmin a l l' / Sum (seq 0 (nq (et e))) (wt (et e)))) ops acc' j i m).
    { induction ops as [|p ops IH]; intros acc acc' j i m E; cbn [fold_left]; [exact E|]. apply IH. unfold sym_step.
      assert (B : forall is o0 k, (forall i, In i is -> (i < n_atoms e)%nat) -> (forall k0, o0 = Some k0 -> (k0 < n_atoms e)%nat) ->
        fold_left (fun acc k => if Nat.eqb (image p k) j then Some k else acc) is o0 = Some k -> (k < n_atoms e)%nat).
      { induction is as [|i0 is IHs]; intros o0 k Hi Ho F; cbn [fold_left] in F; [apply Ho, F|]. eapply IHs; [intros i1 I1; apply Hi; right; exact I1| |exact F].
        intros k0 E0. destruct (Nat.eqb _ j); [injection E0 as <-; apply Hi; left; reflexivity|apply Ho, E0]. }
      destruct (last_source (n_atoms e) (image p) j) as [k|] eqn:L; [|exact E].
      assert (Hk : (k < n_atoms e)%nat) by (apply (B (seq 0 (n_atoms e)) None k); [intros i1 I1; apply in_seq in I1; lia|discriminate|exact L]).
      rewrite E. f_equal. unfold conjugate. apply Sum_ext. intros i1 I1. apply Sum_ext. intros l1 L1. apply in_seq in I1, L1. rewrite dw_raw_same by lia. reflexivity. }
    apply K. reflexivity.
  - cbn [related]. split; [exact same_na|]. split; [reflexivity|]. cbn [dw_n dw_w]. intros a l l' Ha Hl Hl'. rewrite dw_raw_same by assumption. reflexivity.
Qed.

Section Sf.
Variables (x : xtal) (sl : nat -> R) (qpt : nat -> V3) (dw dw' : option dwaller).
Hypothesis Hdw : related_opt same_dw dw dw'.
Hypothesis Hn : forall d, dw = Some d -> dw_n d = n_atoms e.

Lemma exp_same q a : (a < n_atoms e)%nat -> exp_factor x dw q a = exp_factor x dw' q a.
Proof.
  intros Ha. unfold exp_factor. destruct dw as [d|], dw' as [d'|]; cbn [related_opt] in Hdw; try contradiction; [|reflexivity].
  destruct Hdw as (_ & _ & W). f_equal. f_equal. f_equal. apply Sum_ext. intros k Ik. apply Sum_ext. intros l Il. apply in_seq in Ik, Il.
  rewrite W; [reflexivity| |lia|lia]. rewrite (Hn d eq_refl). exact Ha.
Qed.
Definition coef (q : nat) (a l : nat) : C := Cscal (sl a / sqrt (M_sf.mass x a)) (Cscal (comp (Qvec x (qpt q)) l) (exp_factor x dw (qpt q) a)).
Lemma sf_term_coef ex dx q m : n_atoms ex = n_atoms e -> (forall a, (a < n_atoms e)%nat -> exp_factor x dx (qpt q) a = exp_factor x dw (qpt q) a) ->
  sf_term ex x sl dx qpt q m = Csum (seq 0 (n_atoms e)) (fun a => Csum (seq 0 3) (fun l => Cmul (coef q a l) (Cconj (evec ex q m a l)))).
Proof.
  intros N Hx. unfold sf_term. rewrite N. apply Csum_ext. intros a Ia. apply in_seq in Ia. rewrite Hx by lia.
  unfold evec_dot_q, coef. rewrite <- Csum_mul_r, <- Csum_scal. apply Csum_ext. intros l _. rewrite !Cscal_mul. ring.
Qed.
Lemma sf_mode_coef ex dx q m : n_atoms ex = n_atoms e -> (forall a, (a < n_atoms e)%nat -> exp_factor x dx (qpt q) a = exp_factor x dw (qpt q) a) ->
  sf_mode ex x sl dx qpt q m = 1 / Rabs (freq (et ex) q m) / (2 * INR (n_atoms e)) * Cnorm2 (Csum (seq 0 (n_atoms e)) (fun a => Csum (seq 0 3) (fun l => Cmul (coef q a l) (Cconj (evec ex q m a l))))).
Proof.
  intros N Hx. unfold sf_mode. rewrite (sf_term_coef ex dx q m N Hx), N. set (t := Csum _ _).
  replace (Cabs (Cmul t (Cconj t))) with (Cnorm2 t); [unfold Rdiv; ring|].
  unfold Cabs. rewrite Cmul_conj. unfold Cnorm2 at 2. cbn [re im RtoC]. rewrite Rmult_0_l, Rplus_0_r. rewrite sqrt_square; [reflexivity|]. unfold Cnorm2. nra.
Qed.
Lemma sf_sum q (h : R -> R) : (q < nq (et e))%nat ->
  Sum (seq 0 (nm (et e))) (fun m => h (freq (et e) q m) * sf_mode e x sl dw qpt q m) = Sum (seq 0 (nm (et e'))) (fun m => h (freq (et e') q m) * sf_mode e' x sl dw' qpt q m).
Proof.
  intros Hq. pose proof (weight_sum q (fun f => h f * (1 / Rabs f / (2 * INR (n_atoms e)))) (coef q) Hq) as E. cbv beta in E.
  rewrite (Sum_ext _ _ (fun m => h (freq (et e) q m) * (1 / Rabs (freq (et e) q m) / (2 * INR (n_atoms e)))
      * Cnorm2 (Csum (seq 0 (n_atoms e)) (fun a => Csum (seq 0 3) (fun l => Cmul (coef q a l) (Cconj (evec e q m a l))))))).
  - rewrite E. apply Sum_ext. intros m _. rewrite (sf_mode_coef e' dw' q m (eq_sym same_na)); [ring|]. intros a Ha. symmetry. apply exp_same, Ha.
  - intros m _. rewrite (sf_mode_coef e dw q m eq_refl) by (intros; reflexivity). ring.
Qed.
End Sf.

Lemma row_same kB k c bin bc s s' bose temp q :
  (forall h : R -> R, Sum (seq 0 (nm (sft s))) (fun m => h (freq (sft s) q m) * sf_val s q m) = Sum (seq 0 (nm (sft s'))) (fun m => h (freq (sft s') q m) * sf_val s' q m)) ->
  sqw_row kB k c bin bc s bose temp q = sqw_row kB k c bin bc s' bose temp q.
Proof.
  intros E. unfold sqw_row. do 4 f_equal.
  assert (P : exists hp hn, forall v f, intensities kB bose temp v f = (hp f * v, hn f * v)).
  { unfold intensities. destruct bose; [destruct temp as [t|]|].
    - exists (fun f => 1 + bose_factor kB t f), (fun f => bose_factor kB t f). reflexivity.
    - exists (fun _ => 1), (fun _ => 1). intros v f. rewrite Rmult_1_l. reflexivity.
    - exists (fun _ => 1), (fun _ => 1). intros v f. rewrite Rmult_1_l. reflexivity. }
  destruct P as (hp & hn & P).
  assert (A1 : forall l, add_at1 l (map (fun m => (bin (freq (sft s) q m), fst (intensities kB bose temp (sf_val s q m) (freq (sft s) q m)))) (seq 0 (nm (sft s))))
     = add_at1 l (map (fun m => (bin (freq (sft s') q m), fst (intensities kB bose temp (sf_val s' q m) (freq (sft s') q m)))) (seq 0 (nm (sft s'))))).
  { intros l. apply add_at1_same. intros j. rewrite !Sum_map. cbn [fst snd]. pose proof (E (fun f => if Nat.eqb (bin f) j then hp f else 0)) as K. cbv beta in K.
    rewrite (Sum_ext _ _ (fun m => (if Nat.eqb (bin (freq (sft s) q m)) j then hp (freq (sft s) q m) else 0) * sf_val s q m)).
    - rewrite K. apply Sum_ext. intros m _. rewrite P. cbn [fst]. destruct (Nat.eqb _ j); ring.
    - intros m _. rewrite P. cbn [fst]. destruct (Nat.eqb _ j); ring. }
  rewrite A1. apply add_at1_same. intros j. rewrite !Sum_map. cbn [fst snd]. pose proof (E (fun f => if Nat.eqb (bin (- f)) j then hn f else 0)) as K. cbv beta in K.
  rewrite (Sum_ext _ _ (fun m => (if Nat.eqb (bin (- freq (sft s) q m)) j then hn (freq (sft s) q m) else 0) * sf_val s q m)).
  - rewrite K. apply Sum_ext. intros m _. rewrite P. cbn [snd]. destruct (Nat.eqb _ j); ring.
  - intros m _. rewrite P. cbn [snd]. destruct (Nat.eqb _ j); ring.
Qed.

Lemma sf_same x sl qpt dw dw' : related_opt same_dw dw dw' ->
  related same_maps (calculate_structure_factor e x sl dw qpt) (calculate_structure_factor e' x sl dw' qpt).
Proof.
  intros Hdw.
  assert (K : (forall d, dw = Some d -> dw_n d = n_atoms e) -> forall T,
    related (E := serr) same_maps (if has_zero (et e) then Err NonFinite else Ok (mkSF (mkF (nq (et e)) (nm (et e)) (freq (et e)) (fun _ => 1 / INR (nq (et e)))) (sf_mode e x sl dw qpt) T))
      (if has_zero (et e) then Err NonFinite else Ok (mkSF (mkF (nq (et e')) (nm (et e')) (freq (et e')) (fun _ => 1 / INR (nq (et e')))) (sf_mode e' x sl dw' qpt) T))).
  { intros Hn T. destruct (has_zero (et e)) eqn:Z; [reflexivity|]. cbn [related].
    assert (M : forall kB k c bins bose given,
      sqw_map kB k c bins (mkSF (mkF (nq (et e)) (nm (et e)) (freq (et e)) (fun _ => 1 / INR (nq (et e)))) (sf_mode e x sl dw qpt) T) bose given
      = sqw_map kB k c bins (mkSF (mkF (nq (et e')) (nm (et e')) (freq (et e')) (fun _ => 1 / INR (nq (et e')))) (sf_mode e' x sl dw' qpt) T) bose given).
    { intros. unfold sqw_map. cbn [sf_temp sft nq].
      assert (Z1 : has_zero (mkF (nq (et e)) (nm (et e)) (freq (et e)) (fun _ => 1 / INR (nq (et e)))) = false) by exact Z.
      assert (Z2 : has_zero (mkF (nq (et e')) (nm (et e')) (freq (et e')) (fun _ => 1 / INR (nq (et e')))) = false) by (rewrite same_zero in Z; exact Z).
      rewrite Z1, Z2. destruct (if bose then bose_temperature T given else Ok None) as [temp|er]; [|reflexivity].
      rewrite andb_false_r. destruct (digitize _) as [bin|er]; [|reflexivity]. f_equal. rewrite <- same_nq. apply map_ext_in. intros q Iq. apply in_seq in Iq.
      apply row_same. cbn [sft nm freq sf_val]. intros h. apply sf_sum; [exact Hdw|exact Hn|lia]. }
    split; [exact M|]. intros. unfold calculate_1d_average. rewrite M. cbn [sft nq wt]. rewrite <- same_nq. reflexivity. }
  unfold calculate_structure_factor. destruct dw as [d|], dw' as [d'|]; cbn [related_opt] in Hdw; try contradiction.
  - destruct Hdw as (A & B & W). rewrite <- A, <- B, <- same_na, <- same_zero. destruct (Nat.eqb_spec (dw_n d) (n_atoms e)) as [N|]; [|reflexivity].
    apply K. intros d0 E. injection E as <-. exact N.
  - rewrite <- same_zero. apply K. discriminate.
Qed.
End Tables.
