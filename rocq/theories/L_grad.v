(** Proofs for C11: the gradients are derivatives. *)
From Verif Require Import Base Cpx Vec3 M_grid M_cell L_cell M_dynmat L_dynmat S_dynmat L_dynmat2.
Open Scope R_scope.

Lemma deriv_ext (f g : R -> R) t l :
  (forall x, f x = g x) -> derivable_pt_lim f t l -> derivable_pt_lim g t l.
Proof.
  intros H D eps Heps. destruct (D eps Heps) as [del Hd]. exists del.
  intros h Hh Hl. rewrite <- !H. apply Hd; assumption.
Qed.

Lemma deriv_Sum {A} (l : list A) (f : A -> R -> R) (f' : A -> R) t :
  (forall x, In x l -> derivable_pt_lim (f x) t (f' x)) ->
  derivable_pt_lim (fun s => Sum l (fun x => f x s)) t (Sum l f').
Proof.
  induction l as [|a l IH]; intros H.
  - rewrite Sum_nil. apply (deriv_ext (fun _ => 0)); [reflexivity|]. apply derivable_pt_lim_const.
  - rewrite Sum_cons.
    apply (deriv_ext (fun s => f a s + Sum l (fun x => f x s))); [reflexivity|].
    apply (derivable_pt_lim_plus (f a) (fun s => Sum l (fun x => f x s))).
    + apply H. left; reflexivity.
    + apply IH. intros x Hx. apply H. right; exact Hx.
Qed.

Lemma deriv_mult f g t a b :
  derivable_pt_lim f t a -> derivable_pt_lim g t b ->
  derivable_pt_lim (fun x => f x * g x) t (a * g t + f t * b).
Proof. intros H1 H2. exact (derivable_pt_lim_mult f g t a b H1 H2). Qed.
Lemma deriv_minus f g t a b :
  derivable_pt_lim f t a -> derivable_pt_lim g t b ->
  derivable_pt_lim (fun x => f x - g x) t (a - b).
Proof. intros H1 H2. exact (derivable_pt_lim_minus f g t a b H1 H2). Qed.
Lemma deriv_plus f g t a b :
  derivable_pt_lim f t a -> derivable_pt_lim g t b ->
  derivable_pt_lim (fun x => f x + g x) t (a + b).
Proof. intros H1 H2. exact (derivable_pt_lim_plus f g t a b H1 H2). Qed.
Lemma deriv_opp f t a : derivable_pt_lim f t a -> derivable_pt_lim (fun x => - f x) t (- a).
Proof. intros H. exact (derivable_pt_lim_opp f t a H). Qed.
Lemma deriv_scal c f t a : derivable_pt_lim f t a -> derivable_pt_lim (fun x => c * f x) t (c * a).
Proof. intros H. exact (derivable_pt_lim_scal f c t a H). Qed.
Lemma deriv_comp f g t a b :
  derivable_pt_lim f t a -> derivable_pt_lim g (f t) b ->
  derivable_pt_lim (fun x => g (f x)) t (b * a).
Proof. intros H1 H2. exact (derivable_pt_lim_comp f g t a b H1 H2). Qed.

Lemma Cderiv_ext f g t l : (forall x, f x = g x) -> Cderiv f t l -> Cderiv g t l.
Proof.
  intros H [D1 D2]. split.
  - apply (deriv_ext (fun x => re (f x))); [intros x; rewrite H; reflexivity|exact D1].
  - apply (deriv_ext (fun x => im (f x))); [intros x; rewrite H; reflexivity|exact D2].
Qed.
Lemma Cderiv_eq f t l l' : l = l' -> Cderiv f t l -> Cderiv f t l'.
Proof. intros ->. exact (fun H => H). Qed.
Lemma Cderiv_sum {A} (l : list A) (f : A -> R -> C) (f' : A -> C) t :
  (forall x, In x l -> Cderiv (f x) t (f' x)) ->
  Cderiv (fun s => Csum l (fun x => f x s)) t (Csum l f').
Proof.
  intros H. split; cbn [Csum re im]; apply deriv_Sum; intros x Hx; apply (H x Hx).
Qed.
Lemma Cderiv_mul f g t a b : Cderiv f t a -> Cderiv g t b ->
  Cderiv (fun x => Cmul (f x) (g x)) t (Cadd (Cmul a (g t)) (Cmul (f t) b)).
Proof.
  intros [F1 F2] [G1 G2]. split; cbn [Cmul Cadd re im].
  - replace (re a * re (g t) - im a * im (g t) + (re (f t) * re b - im (f t) * im b))
      with ((re a * re (g t) + re (f t) * re b) - (im a * im (g t) + im (f t) * im b)) by ring.
    apply deriv_minus; apply deriv_mult; assumption.
  - replace (re a * im (g t) + im a * re (g t) + (re (f t) * im b + im (f t) * re b))
      with ((re a * im (g t) + re (f t) * im b) + (im a * re (g t) + im (f t) * re b)) by ring.
    apply deriv_plus; apply deriv_mult; assumption.
Qed.
Lemma Cderiv_conj f t a : Cderiv f t a -> Cderiv (fun x => Cconj (f x)) t (Cconj a).
Proof. intros [F1 F2]. split; cbn [Cconj re im]; [exact F1|apply deriv_opp; exact F2]. Qed.
Lemma Cderiv_scal c f t a : Cderiv f t a -> Cderiv (fun x => Cscal c (f x)) t (Cscal c a).
Proof. intros [F1 F2]. split; cbn [Cscal re im]; apply deriv_scal; assumption. Qed.
Lemma Cderiv_cis f t a : derivable_pt_lim f t a ->
  Cderiv (fun x => cis (f x)) t (Cscal a (Cmul Ci (cis (f t)))).
Proof.
  intros H. split; cbn [cis re im Cscal Cmul Ci].
  - replace (a * (0 * cos (f t) - 1 * sin (f t))) with (- sin (f t) * a) by ring.
    apply deriv_comp; [exact H|apply derivable_pt_lim_cos].
  - replace (a * (0 * sin (f t) + 1 * cos (f t))) with (cos (f t) * a) by ring.
    apply deriv_comp; [exact H|apply derivable_pt_lim_sin].
Qed.

Lemma cart_phase cell delta r : det3 cell <> 0 ->
  dot (vmul r cell) (vmul delta (reciprocal_cell cell)) = 2 * PI * dot r delta.
Proof.
  intros Hd. pose proof (reciprocal_dual cell Hd) as H.
  pose proof (H 0 0)%nat as H00. pose proof (H 0 1)%nat as H01. pose proof (H 0 2)%nat as H02.
  pose proof (H 1 0)%nat as H10. pose proof (H 1 1)%nat as H11. pose proof (H 1 2)%nat as H12.
  pose proof (H 2 0)%nat as H20. pose proof (H 2 1)%nat as H21. pose proof (H 2 2)%nat as H22.
  clear H. specialize (H00 ltac:(lia) ltac:(lia)). specialize (H01 ltac:(lia) ltac:(lia)).
  specialize (H02 ltac:(lia) ltac:(lia)). specialize (H10 ltac:(lia) ltac:(lia)).
  specialize (H11 ltac:(lia) ltac:(lia)). specialize (H12 ltac:(lia) ltac:(lia)).
  specialize (H20 ltac:(lia) ltac:(lia)). specialize (H21 ltac:(lia) ltac:(lia)).
  specialize (H22 ltac:(lia) ltac:(lia)).
  destruct (reciprocal_cell cell) as [[A B] Cc]. destruct cell as [[X Y] Z].
  cbn [row Nat.eqb] in *. destruct r as [[r1 r2] r3], delta as [[d1 d2] d3].
  assert (forall u v w x y z, dot (vadd (vadd (vscal u X) (vscal v Y)) (vscal w Z))
     (vadd (vadd (vscal x A) (vscal y B)) (vscal z Cc))
     = u * x * dot X A + u * y * dot X B + u * z * dot X Cc
       + v * x * dot Y A + v * y * dot Y B + v * z * dot Y Cc
       + w * x * dot Z A + w * y * dot Z B + w * z * dot Z Cc) as E.
  { intros. destruct X as [[? ?] ?], Y as [[? ?] ?], Z as [[? ?] ?],
      A as [[? ?] ?], B as [[? ?] ?], Cc as [[? ?] ?]. cbn. ring. }
  unfold vmul. rewrite E, H00, H01, H02, H10, H11, H12, H20, H21, H22.
  cbn [dot]. ring.
Qed.

Lemma along_sum {A} (l : list A) (g : A -> nat -> C) v :
  along (fun k => Csum l (fun x => g x k)) v = Csum l (fun x => along (g x) v).
Proof.
  unfold along. rewrite <- !Csum_scal, <- !Csum_plus. reflexivity.
Qed.
Lemma along_scal c g v : along (fun k => Cscal c (g k)) v = Cscal c (along g v).
Proof. unfold along. apply C_eq; simpl; ring. Qed.
Lemma along_ext g h v : (forall k, g k = h k) -> along g v = along h v.
Proof. intros H. unfold along. rewrite !H. reflexivity. Qed.

Lemma deriv_qdot q delta r t :
  derivable_pt_lim (fun s => 2 * PI * dot (vadd q (vscal s delta)) r) t (2 * PI * dot r delta).
Proof.
  apply (deriv_ext (fun s => 2 * PI * dot q r + 2 * PI * dot r delta * s)).
  { intros s. rewrite dot_vadd_l, dot_vscal_l, (dot_comm delta r). ring. }
  generalize (2 * PI * dot r delta). intros k.
  cut (derivable_pt_lim (fun s => 2 * PI * dot q r + k * s) t (0 + k * 1)).
  { replace (0 + k * 1) with k by ring. exact (fun H => H). }
  apply deriv_plus; [apply derivable_pt_lim_const|].
  apply deriv_scal. apply derivable_pt_lim_id.
Qed.

Lemma interp_deriv d junk q delta t a b : det3 (f_cell d) <> 0 ->
  Cderiv (fun s => interp_dyn_mat d junk (vadd q (vscal s delta)) a b) t
    (along (fun l => interp_dyn_mat_grad d junk (vadd q (vscal t delta)) a b l)
           (vmul delta (reciprocal_cell (f_cell d)))).
Proof.
  intros Hd. set (tb := sc_images d 2).
  set (fcw := fc_img_weighted tb junk (f_fc d)).
  apply (Cderiv_ext (fun s => Csum (seq 0 (n_cells d)) (fun nc =>
      Cscal (fcw nc a b)
        (Csum (tb nc (a / 3) (b / 3))%nat (fun k =>
           cis (2 * PI * dot (vadd q (vscal s delta)) (zvec (lat d 2 nc k)))))))).
  { intros s. unfold interp_dyn_mat. cbv zeta. symmetry. apply dyn_mat_closed. apply sc_images_ok. }
  rewrite (along_ext _ (fun l => Csum (seq 0 (n_cells d)) (fun nc =>
      Cscal (fcw nc a b)
        (Csum (tb nc (a / 3) (b / 3))%nat (fun k =>
           Cmul Ci (Cscal (comp (vmul (zvec (lat d 2 nc k)) (f_cell d)) l)
             (cis (2 * PI * dot (vadd q (vscal t delta)) (zvec (lat d 2 nc k))))))))) ).
  2:{ intros l. unfold interp_dyn_mat_grad. cbv zeta. apply dyn_mat_grad_closed. apply sc_images_ok. }
  rewrite (along_sum (seq 0 (n_cells d))).
  apply Cderiv_sum. intros nc _. rewrite along_scal. apply Cderiv_scal.
  rewrite (along_sum (tb nc (a / 3) (b / 3))%nat).
  apply Cderiv_sum. intros k _.
  eapply Cderiv_eq; [|apply Cderiv_cis, deriv_qdot].
  rewrite <- (cart_phase _ _ _ Hd).
  destruct (vmul (zvec (lat d 2 nc k)) (f_cell d)) as [[? ?] ?].
  destruct (vmul delta (reciprocal_cell (f_cell d))) as [[? ?] ?].
  unfold along. apply C_eq; cbn; ring.
Qed.

(** ** Perturbation of an eigenvalue *)
Section HF.
Variable n : nat.
Variable M : R -> nat -> nat -> C.
Variable M' : nat -> nat -> C.
Variable e : R -> nat -> C.
Variable e' : nat -> C.
Variable lam : R -> R.
Variable t0 : R.
Hypothesis HM : forall j k, (j < n)%nat -> (k < n)%nat -> Cderiv (fun t => M t j k) t0 (M' j k).
Hypothesis He : forall j, (j < n)%nat -> Cderiv (fun t => e t j) t0 (e' j).
Hypothesis Hherm : forall j k, (j < n)%nat -> (k < n)%nat -> M t0 k j = Cconj (M t0 j k).
Hypothesis Heig : forall t j, (j < n)%nat ->
  Csum (seq 0 n) (fun k => Cmul (M t j k) (e t k)) = Cscal (lam t) (e t j).
Hypothesis Hnorm : forall t, sumn n (fun j => Cnorm2 (e t j)) = 1.

Let quad (A : nat -> nat -> C) (u v : nat -> C) : C :=
  Csum (seq 0 n) (fun j => Csum (seq 0 n) (fun k => Cmul (Cmul (Cconj (u j)) (v k)) (A j k))).

Lemma norm_C t : Csum (seq 0 n) (fun j => Cmul (Cconj (e t j)) (e t j)) = Cone.
Proof.
  apply C_eq; unfold Csum; cbn [re im Cone].
  - rewrite <- (Hnorm t). unfold sumn. apply Sum_ext. intros j _. unfold Cnorm2. simpl. ring.
  - apply Sum_zero_ext. intros j _. simpl. ring.
Qed.

Lemma quad_right A u t : (forall j, (j < n)%nat ->
    Csum (seq 0 n) (fun k => Cmul (A j k) (e t k)) = Cscal (lam t) (e t j)) ->
  quad A u (e t) = Cscal (lam t) (Csum (seq 0 n) (fun j => Cmul (Cconj (u j)) (e t j))).
Proof.
  intros H. unfold quad. rewrite <- Csum_scal. apply Csum_ext. intros j Hj. apply in_seq in Hj.
  transitivity (Cmul (Cconj (u j)) (Cscal (lam t) (e t j))).
  - rewrite <- H by lia. rewrite <- Csum_mul. apply Csum_ext. intros k _. ring.
  - apply C_eq; simpl; ring.
Qed.

Lemma lam_quad t : RtoC (lam t) = quad (M t) (e t) (e t).
Proof.
  rewrite (quad_right (M t) (e t) t (Heig t)), norm_C. apply C_eq; simpl; ring.
Qed.

Lemma hellmann_feynman : Cderiv (fun t => RtoC (lam t)) t0 (quad M' (e t0) (e t0)).
Proof.
  apply (Cderiv_ext (fun t => quad (M t) (e t) (e t))); [intros t; symmetry; apply lam_quad|].
  assert (Cderiv (fun t => quad (M t) (e t) (e t)) t0
    (Cadd (Cadd (quad (M t0) e' (e t0)) (quad (M t0) (e t0) e')) (quad M' (e t0) (e t0)))) as D.
  { unfold quad at 1.
    eapply Cderiv_eq; cycle 1.
    - apply Cderiv_sum. intros j Hj. apply in_seq in Hj. apply Cderiv_sum.
      intros k Hk. apply in_seq in Hk.
      apply Cderiv_mul; [apply Cderiv_mul; [apply Cderiv_conj; apply He; lia|apply He; lia]|].
      apply HM; lia.
    - unfold quad. rewrite <- !Csum_plus. apply Csum_ext. intros j _.
      rewrite <- !Csum_plus. apply Csum_ext. intros k _. ring. }
  (* the first two terms are lam * d(norm) = 0 *)
  assert (Cderiv (fun t => Csum (seq 0 n) (fun j => Cmul (Cconj (e t j)) (e t j))) t0
    (Cadd (Csum (seq 0 n) (fun j => Cmul (Cconj (e' j)) (e t0 j)))
          (Csum (seq 0 n) (fun j => Cmul (Cconj (e t0 j)) (e' j))))) as DN.
  { rewrite <- Csum_plus. apply Cderiv_sum. intros j Hj. apply in_seq in Hj.
    apply Cderiv_mul; [apply Cderiv_conj|]; apply He; lia. }
  assert (Cadd (Csum (seq 0 n) (fun j => Cmul (Cconj (e' j)) (e t0 j)))
          (Csum (seq 0 n) (fun j => Cmul (Cconj (e t0 j)) (e' j))) = Czero) as Z.
  { pose proof (Cderiv_ext _ (fun _ => Cone) _ _ norm_C DN) as [Z1 Z2].
    apply C_eq.
    - eapply uniqueness_limite; [exact Z1|]. apply derivable_pt_lim_const.
    - eapply uniqueness_limite; [exact Z2|]. apply derivable_pt_lim_const. }
  assert (quad (M t0) (e t0) e' = Cscal (lam t0) (Csum (seq 0 n) (fun j => Cmul (Cconj (e t0 j)) (e' j)))) as Q2.
  { transitivity (Cconj (quad (M t0) e' (e t0))).
    - unfold quad. rewrite <- Csum_conj. rewrite Csum_exchange. apply Csum_ext.
      intros j Hj. apply in_seq in Hj. rewrite <- Csum_conj. apply Csum_ext.
      intros k Hk. apply in_seq in Hk. rewrite !Cconj_mul, Cconj_conj.
      rewrite <- (Hherm j k) by lia. ring.
    - rewrite (quad_right _ _ _ (Heig t0)). rewrite Cconj_scal, <- Csum_conj. f_equal.
      apply Csum_ext. intros j _. rewrite Cconj_mul, Cconj_conj. ring. }
  rewrite Q2, (quad_right _ _ _ (Heig t0)) in D.
  eapply Cderiv_eq; [|exact D].
  rewrite !Cscal_mul. 
  transitivity (Cadd (Cmul (RtoC (lam t0)) (Cadd (Csum (seq 0 n) (fun j => Cmul (Cconj (e' j)) (e t0 j)))
          (Csum (seq 0 n) (fun j => Cmul (Cconj (e t0 j)) (e' j))))) (quad M' (e t0) (e t0))); [ring|].
  rewrite Z. ring.
Qed.
End HF.

(** derivative of the signed square root *)
Lemma deriv_local (f g : R -> R) t l (e0 : posreal) :
  (forall x, Rabs (x - t) < e0 -> f x = g x) -> derivable_pt_lim f t l -> derivable_pt_lim g t l.
Proof.
  intros H D eps Heps. destruct (D eps Heps) as [del Hd].
  assert (0 < Rmin del e0) as Hm by (apply Rmin_pos; [apply cond_pos|apply cond_pos]).
  exists (mkposreal _ Hm). intros h Hh Hl. simpl in Hl.
  rewrite <- !H.
  - apply Hd; [exact Hh|]. eapply Rlt_le_trans; [exact Hl|apply Rmin_l].
  - rewrite Rminus_diag_eq by reflexivity. rewrite Rabs_R0. apply cond_pos.
  - replace (t + h - t) with h by ring. eapply Rlt_le_trans; [exact Hl|apply Rmin_r].
Qed.

Lemma freq_deriv_pos l : 0 < l -> derivable_pt_lim freq_of_eval l (1 / (2 * freq_of_eval l)).
Proof.
  intros Hl. 
  assert (freq_of_eval l = sqrt l) as ->.
  { unfold freq_of_eval. destruct (Rlt_dec l 0); [lra|]. rewrite Rabs_right by lra. reflexivity. }
  apply (deriv_local sqrt _ _ _ (mkposreal l Hl)).
  - simpl. intros x Hx. unfold freq_of_eval. apply Rabs_def2 in Hx.
    destruct (Rlt_dec x 0); [lra|]. rewrite Rabs_right by lra. reflexivity.
  - replace (1 / (2 * sqrt l)) with (/ (2 * sqrt l)) by (unfold Rdiv; ring).
    apply derivable_pt_lim_sqrt. exact Hl.
Qed.
Lemma freq_deriv_neg l : l < 0 -> derivable_pt_lim freq_of_eval l (- (1 / (2 * freq_of_eval l))).
Proof.
  intros Hl. assert (0 < - l) as Hl' by lra.
  assert (freq_of_eval l = - sqrt (- l)) as ->.
  { unfold freq_of_eval. destruct (Rlt_dec l 0); [|lra]. rewrite Rabs_left by lra. ring. }
  apply (deriv_local (fun x => - sqrt (- x)) _ _ _ (mkposreal (-l) Hl')).
  - simpl. intros x Hx. unfold freq_of_eval. apply Rabs_def2 in Hx.
    destruct (Rlt_dec x 0); [|lra]. rewrite Rabs_left by lra. ring.
  - assert (0 < sqrt (- l)) by (apply sqrt_lt_R0; lra).
    replace (- (1 / (2 * - sqrt (- l)))) with (- (/ (2 * sqrt (- l)) * -1)) by (field; lra).
    apply deriv_opp. apply (deriv_comp (fun x => - x) sqrt).
    + apply (deriv_opp (fun x => x)). apply derivable_pt_lim_id.
    + apply derivable_pt_lim_sqrt. exact Hl'.
Qed.

(** ** The mode gradient returned for a mode is the gradient of its frequency *)
Lemma Csum_along {A} (l : list A) (c : A -> C) (g : A -> nat -> C) v :
  Csum l (fun x => Cmul (c x) (along (g x) v))
  = along (fun k => Csum l (fun x => Cmul (c x) (g x k))) v.
Proof.
  rewrite along_sum. apply Csum_ext. intros x _. unfold along. apply C_eq; simpl; ring.
Qed.

Lemma choose_deriv n (e : R -> nat -> C) t0 :
  (forall j, (j < n)%nat -> exists e', Cderiv (fun t => e t j) t0 e') ->
  exists e' : nat -> C, forall j, (j < n)%nat -> Cderiv (fun t => e t j) t0 (e' j).
Proof.
  induction n as [|n IH]; intros H.
  - exists (fun _ => Czero). intros; lia.
  - destruct IH as [e' He']; [intros; apply H; lia|].
    destruct (H n) as [x Hx]; [lia|].
    exists (fun j => if Nat.eqb j n then x else e' j). intros j Hj.
    destruct (Nat.eqb_spec j n) as [->|]; [exact Hx|apply He'; lia].
Qed.

Lemma mass_deriv d junk mass q delta a b : det3 (f_cell d) <> 0 ->
  Cderiv (fun s => mass_weight mass (interp_dyn_mat d junk (vadd q (vscal s delta))) a b) 0
    (along (fun l => mass_weight_grad mass (interp_dyn_mat_grad d junk q) a b l)
           (vmul delta (reciprocal_cell (f_cell d)))).
Proof.
  intros Hd. unfold mass_weight, mass_weight_grad. rewrite along_scal. apply Cderiv_scal.
  assert (vadd q (vscal 0 delta) = q) as E.
  { destruct q as [[? ?] ?], delta as [[? ?] ?]. cbn. apply V3_eq; ring. }
  pose proof (interp_deriv d junk q delta 0 a b Hd) as D. rewrite E in D. exact D.
Qed.

Lemma eval_deriv d junk mass q delta e lam :
  det3 (f_cell d) <> 0 ->
  home_first d -> search_complete d -> fc_symmetric d ->
  mode_curve (3 * n_atoms d)
    (fun t => mass_weight mass (interp_dyn_mat d junk (vadd q (vscal t delta)))) e lam ->
  forall w, w <> 0 ->
  Cderiv (fun t => RtoC (lam t)) 0
    (Cscal (2 * w) (along (mode_gradient (3 * n_atoms d) (e 0) w
             (mass_weight_grad mass (interp_dyn_mat_grad d junk q)))
           (vmul delta (reciprocal_cell (f_cell d))))).
Proof.
  intros Hd Hh Hsc Hfc [Heig [Hnorm Hder]] w Hw.
  destruct (choose_deriv _ _ _ Hder) as [e' He'].
  set (n := (3 * n_atoms d)%nat) in *.
  set (M := fun t => mass_weight mass (interp_dyn_mat d junk (vadd q (vscal t delta)))) in *.
  pose proof (hellmann_feynman n M
    (fun j k => along (fun l => mass_weight_grad mass (interp_dyn_mat_grad d junk q) j k l)
           (vmul delta (reciprocal_cell (f_cell d)))) e e' lam 0) as HF.
  eapply Cderiv_eq; [|apply HF].
  - set (v := vmul delta _). set (g := mass_weight_grad mass _).
    unfold mode_gradient. rewrite along_scal.
    transitivity (along (fun l => Csum (seq 0 n) (fun j => Csum (seq 0 n) (fun k =>
      Cmul (Cmul (Cconj (e 0 j)) (e 0 k)) (g j k l)))) v).
    + rewrite along_sum. apply Csum_ext. intros j _. rewrite along_sum.
      apply Csum_ext. intros k _. unfold along. apply C_eq; simpl; ring.
    + apply C_eq; cbn [Cscal re im]; field; exact Hw.
  - intros j k _ _. apply mass_deriv. exact Hd.
  - exact He'.
  - intros j k Hj Hk. unfold M, mass_weight. rewrite Cconj_scal.
    rewrite (interp_hermitian d junk _ j k) by assumption.
    rewrite (Rmult_comm (mass (j / 3)%nat)). reflexivity.
  - exact Heig.
  - exact Hnorm.
Qed.

Lemma mode_gradient_pos d junk mass q delta e lam :
  det3 (f_cell d) <> 0 ->
  home_first d -> search_complete d -> fc_symmetric d ->
  mode_curve (3 * n_atoms d)
    (fun t => mass_weight mass (interp_dyn_mat d junk (vadd q (vscal t delta)))) e lam ->
  0 < lam 0 ->
  Cderiv (fun t => RtoC (freq_of_eval (lam t))) 0
    (along (mode_gradient (3 * n_atoms d) (e 0) (freq_of_eval (lam 0))
             (mass_weight_grad mass (interp_dyn_mat_grad d junk q)))
           (vmul delta (reciprocal_cell (f_cell d)))).
Proof.
  intros Hd Hh Hsc Hfc Hc Hl.
  assert (0 < freq_of_eval (lam 0)) as Hw.
  { unfold freq_of_eval. destruct (Rlt_dec (lam 0) 0); [lra|]. rewrite Rabs_right by lra.
    apply sqrt_lt_R0; exact Hl. }
  destruct (eval_deriv d junk mass q delta e lam Hd Hh Hsc Hfc Hc (freq_of_eval (lam 0)))
    as [D1 D2]; [lra|].
  set (G := along _ _) in *.
  assert (im G = 0) as HG.
  { cbn [RtoC im Cscal] in D2.
    assert (2 * freq_of_eval (lam 0) * im G = 0) as E.
    { eapply uniqueness_limite; [exact D2|]. apply derivable_pt_lim_const. }
    apply Rmult_integral in E. lra. }
  split.
  - cbn [RtoC re]. 
    replace (re G) with (1 / (2 * freq_of_eval (lam 0)) * (2 * freq_of_eval (lam 0) * re G))
      by (field; lra).
    apply (deriv_comp lam freq_of_eval).
    + exact D1.
    + apply freq_deriv_pos. exact Hl.
  - cbn [RtoC im]. rewrite HG. apply derivable_pt_lim_const.
Qed.

Lemma mode_gradient_neg d junk mass q delta e lam :
  det3 (f_cell d) <> 0 ->
  home_first d -> search_complete d -> fc_symmetric d ->
  mode_curve (3 * n_atoms d)
    (fun t => mass_weight mass (interp_dyn_mat d junk (vadd q (vscal t delta)))) e lam ->
  lam 0 < 0 ->
  Cderiv (fun t => RtoC (freq_of_eval (lam t))) 0
    (Copp (along (mode_gradient (3 * n_atoms d) (e 0) (freq_of_eval (lam 0))
             (mass_weight_grad mass (interp_dyn_mat_grad d junk q)))
           (vmul delta (reciprocal_cell (f_cell d))))).
Proof.
  intros Hd Hh Hsc Hfc Hc Hl.
  assert (freq_of_eval (lam 0) < 0) as Hw.
  { unfold freq_of_eval. destruct (Rlt_dec (lam 0) 0); [|lra]. rewrite Rabs_left by lra.
    assert (0 < sqrt (- lam 0)) by (apply sqrt_lt_R0; lra). lra. }
  destruct (eval_deriv d junk mass q delta e lam Hd Hh Hsc Hfc Hc (freq_of_eval (lam 0)))
    as [D1 D2]; [lra|].
  set (G := along _ _) in *.
  assert (im G = 0) as HG.
  { cbn [RtoC im Cscal] in D2.
    assert (2 * freq_of_eval (lam 0) * im G = 0) as E.
    { eapply uniqueness_limite; [exact D2|]. apply derivable_pt_lim_const. }
    apply Rmult_integral in E. lra. }
  split.
  - cbn [RtoC re Copp].
    replace (- re G) with (- (1 / (2 * freq_of_eval (lam 0))) * (2 * freq_of_eval (lam 0) * re G))
      by (field; lra).
    apply (deriv_comp lam freq_of_eval).
    + exact D1.
    + apply freq_deriv_neg. exact Hl.
  - cbn [RtoC im Copp]. rewrite HG. rewrite Ropp_0. apply derivable_pt_lim_const.
Qed.
