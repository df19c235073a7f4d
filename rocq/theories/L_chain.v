(** A concrete crystal: one atom in a unit cubic cell, 2x1x1 supercell, self
    force constant k0 and neighbour force constant k1 (both isotropic).  Used
    to show that hypotheses can be met and for counterexamples. *)
From Verif Require Import Base Cpx Vec3 M_grid M_cell L_cell M_dynmat L_dynmat S_dynmat L_dynmat2 L_grad.
Open Scope R_scope.

Definition chain (k0 k1 : R) : fcdata :=
  mkFC ((1,0,0), (0,1,0), (0,0,1)) [(0,0,0)]
       ((2,0,0), (0,1,0), (0,0,1))%Z [(0,0,0); (1,0,0)]%Z
       (fun nc a b => if Nat.eqb a b then match nc with O => k0 | _ => k1 end else 0).

Lemma chain_home k0 k1 : home_first (chain k0 k1).
Proof. reflexivity. Qed.
Lemma chain_vecs k0 k1 : sc_vecs (chain k0 k1) = ((2,0,0), (0,1,0), (0,0,1)).
Proof. unfold sc_vecs, chain. cbn. f_equal; [f_equal|]; apply V3_eq; ring. Qed.
Lemma chain_orth k0 k1 : orthogonal_supercell (chain k0 k1).
Proof. unfold orthogonal_supercell. rewrite chain_vecs. cbn. repeat split; lra. Qed.
Lemma chain_inside k0 k1 : inside_supercell (chain k0 k1).
Proof.
  intros nc j Hnc Hj. cbn in Hnc, Hj. assert (j = 0)%nat as -> by lia.
  destruct nc as [|[|nc]]; [| |lia].
  - exists (0, 0, 0). rewrite chain_vecs. cbn. split; [apply V3_eq; ring|repeat split; lra].
  - exists (1/2, 0, 0). rewrite chain_vecs. cbn. split; [apply V3_eq; field|repeat split; lra].
Qed.
Lemma chain_complete k0 k1 : search_complete (chain k0 k1).
Proof. apply orth_complete; [reflexivity|apply chain_orth|apply chain_inside]. Qed.
Lemma chain_sym k0 k1 : fc_symmetric (chain k0 k1).
Proof.
  exists (fun nc => nc). split.
  - intros nc Hnc. cbn in Hnc. split; [exact Hnc|]. split; [reflexivity|].
    destruct nc as [|[|nc]]; [| |lia].
    + exists (0,0,0)%Z. reflexivity.
    + exists (1,0,0)%Z. reflexivity.
  - intros nc a b _ _ _. cbn. rewrite (Nat.eqb_sym b a). reflexivity.
Qed.
Lemma chain_det k0 k1 : det3 (f_cell (chain k0 k1)) <> 0.
Proof. cbn. lra. Qed.

Lemma chain_ms0 k0 k1 : Permutation (ms (chain k0 k1) 2 0 0 0) [(0,0,0)%Z].
Proof.
  apply NoDup_Permutation; [apply ms_NoDup|repeat constructor; simpl; tauto|].
  intros [[m1 m2] m3]. rewrite ms_In by reflexivity.
  assert (orth_coord (chain k0 k1) 0 0 0 (0,0,0)) as Hs.
  { unfold orth_coord. rewrite chain_vecs. cbn. apply V3_eq; ring. }
  rewrite (near_orth _ _ _ _ _ _ (chain_orth k0 k1) Hs). cbn.
  rewrite !Rabs_bound. split.
  - intros [_ [H1 [H2 H3]]]. left.
    assert (m1 = 0)%Z as ->. { assert (IZR m1 < 1) as A by lra. assert (-1 < IZR m1) as B by lra. apply lt_IZR in A. apply lt_IZR in B. lia. }
    assert (m2 = 0)%Z as ->. { assert (IZR m2 < 1) as A by lra. assert (-1 < IZR m2) as B by lra. apply lt_IZR in A. apply lt_IZR in B. lia. }
    assert (m3 = 0)%Z as ->. { assert (IZR m3 < 1) as A by lra. assert (-1 < IZR m3) as B by lra. apply lt_IZR in A. apply lt_IZR in B. lia. }
    reflexivity.
  - intros [E|[]]. injection E as <- <- <-. split; [lia|]. repeat split; lra.
Qed.
Lemma chain_ms1 k0 k1 : Permutation (ms (chain k0 k1) 2 1 0 0) [(-1,0,0); (0,0,0)]%Z.
Proof.
  apply NoDup_Permutation; [apply ms_NoDup|repeat constructor; simpl; intuition congruence|].
  intros [[m1 m2] m3]. rewrite ms_In by reflexivity.
  assert (orth_coord (chain k0 k1) 0 0 1 (-1/2,0,0)) as Hs.
  { unfold orth_coord. rewrite chain_vecs. cbn. apply V3_eq; field. }
  rewrite (near_orth _ _ _ _ _ _ (chain_orth k0 k1) Hs). cbn.
  rewrite !Rabs_bound. split.
  - intros [_ [H1 [H2 H3]]].
    assert (-1 <= m1 <= 0)%Z as H. { assert (IZR m1 < 1) as A by lra. assert (-2 < IZR m1) as B by lra. apply lt_IZR in A. apply lt_IZR in B. lia. }
    assert (m2 = 0)%Z as ->. { assert (IZR m2 < 1) as A by lra. assert (-1 < IZR m2) as B by lra. apply lt_IZR in A. apply lt_IZR in B. lia. }
    assert (m3 = 0)%Z as ->. { assert (IZR m3 < 1) as A by lra. assert (-1 < IZR m3) as B by lra. apply lt_IZR in A. apply lt_IZR in B. lia. }
    assert (m1 = -1 \/ m1 = 0)%Z as [->| ->] by lia; tauto.
  - intros [E|[E|[]]]; injection E as <- <- <-; (split; [lia|]; repeat split; lra).
Qed.

Lemma chain_dyn k0 k1 junk q a b : (a < 3)%nat -> (b < 3)%nat ->
  interp_dyn_mat (chain k0 k1) junk q a b
  = if Nat.eqb a b then RtoC (k0 + k1 * cos (2 * PI * comp q 0)) else Czero.
Proof.
  intros Ha Hb. rewrite interp_closed by (cbn; lia).
  assert (a / 3 = 0)%nat as -> by (apply Nat.div_small; exact Ha).
  assert (b / 3 = 0)%nat as -> by (apply Nat.div_small; exact Hb).
  change (seq 0 (n_cells (chain k0 k1))) with [0; 1]%nat.
  rewrite !Csum_cons, Csum_nil.
  rewrite (Permutation_length (chain_ms0 k0 k1)), (Permutation_length (chain_ms1 k0 k1)).
  rewrite (Csum_perm _ _ _ (chain_ms0 k0 k1)), (Csum_perm _ _ _ (chain_ms1 k0 k1)).
  rewrite !Csum_cons, Csum_nil. destruct q as [[q1 q2] q3].
  unfold latv. cbn [chain f_origins f_sc nth zmul3 zadd3 zvec dot comp f_fc length].
  cbn [Z.mul Z.add Pos.mul Z.pos_sub Pos.pred_double]. 
  replace (2 * PI * (q1 * 0 + q2 * 0 + q3 * 0)) with 0 by ring.
  replace (2 * PI * (q1 * -1 + q2 * 0 + q3 * 0)) with (- (2 * PI * q1)) by ring.
  replace (2 * PI * (q1 * 1 + q2 * 0 + q3 * 0)) with (2 * PI * q1) by ring.
  rewrite cis_0, cis_opp.
  destruct (Nat.eqb a b); apply C_eq; cbn; field.
Qed.

(** The mode polarised along x. *)
Definition ex (t : R) (j : nat) : C := if Nat.eqb j 0 then Cone else Czero.

Lemma chain_curve k0 k1 junk q delta :
  mode_curve 3
    (fun t => mass_weight (fun _ => 1) (interp_dyn_mat (chain k0 k1) junk (vadd q (vscal t delta))))
    ex (fun t => k0 + k1 * cos (2 * PI * comp (vadd q (vscal t delta)) 0)).
Proof.
  split; [|split].
  - intros t j Hj. cbn [seq]. rewrite !Csum_cons, Csum_nil.
    unfold mass_weight. rewrite !chain_dyn by lia. unfold ex.
    replace (1 / sqrt (1 * 1)) with 1 by (rewrite Rmult_1_r, sqrt_1; field).
    destruct j as [|[|[|j]]]; [| | |lia]; cbn [Nat.eqb];
      apply C_eq; cbn -[vadd comp]; ring.
  - intros t. unfold sumn, Sum. cbn. unfold Cnorm2, ex. cbn. ring.
  - intros j _. exists Czero. split; [apply (derivable_pt_lim_const (re (ex 0 j)))|apply (derivable_pt_lim_const (im (ex 0 j)))].
Qed.

Lemma chain_eval_deriv k0 k1 q1 :
  derivable_pt_lim (fun t => k0 + k1 * cos (2 * PI * comp (vadd (q1,0,0) (vscal t (1,0,0))) 0)) 0
    (- k1 * sin (2 * PI * q1) * (2 * PI)).
Proof.
  apply (deriv_ext (fun t => k0 + k1 * cos (2 * PI * q1 + 2 * PI * t))).
  { intros t. cbn. do 3 f_equal. ring. }
  replace (- k1 * sin (2 * PI * q1) * (2 * PI))
    with (0 + k1 * (- sin (2 * PI * q1 + 2 * PI * 0) * (0 + 2 * PI * 1))).
  2:{ rewrite Rmult_0_r, Rplus_0_r. ring. }
  apply deriv_plus; [apply derivable_pt_lim_const|].
  apply deriv_scal. apply (deriv_comp (fun t => 2 * PI * q1 + 2 * PI * t) cos).
  - apply deriv_plus; [apply derivable_pt_lim_const|].
    apply deriv_scal. apply derivable_pt_lim_id.
  - apply derivable_pt_lim_cos.
Qed.

(** At q = (1/4, 0, 0) with k0 = -2, k1 = 1 the frequency is imaginary and
    the returned gradient has the wrong sign. *)
Lemma chain_imaginary junk :
  let d := chain (-2) 1 in
  let q := (1/4, 0, 0) in let delta := (1, 0, 0) in
  let lam := fun t => -2 + 1 * cos (2 * PI * comp (vadd q (vscal t delta)) 0) in
  let G := along (mode_gradient 3 (ex 0) (freq_of_eval (lam 0))
              (mass_weight_grad (fun _ => 1) (interp_dyn_mat_grad d junk q)))
            (vmul delta (reciprocal_cell (f_cell d))) in
  Cderiv (fun t => RtoC (freq_of_eval (lam t))) 0 (Copp G) /\ G <> Copp G.
Proof.
  intros d q delta lam G.
  assert (lam 0 = -2) as Hl0.
  { unfold lam. cbn. replace (2 * PI * (1 / 4 + 0 * 1)) with (PI/2) by field.
    rewrite cos_PI2. ring. }
  split.
  - apply (mode_gradient_neg d junk (fun _ => 1) q delta ex lam).
    + apply chain_det.
    + reflexivity.
    + apply chain_complete.
    + apply chain_sym.
    + apply chain_curve.
    + rewrite Hl0. lra.
  - assert (freq_of_eval (lam 0) < 0) as Hw.
    { rewrite Hl0. unfold freq_of_eval. destruct (Rlt_dec (-2) 0); [|lra].
      assert (0 < sqrt (Rabs (-2))). { apply sqrt_lt_R0. rewrite Rabs_left by lra. lra. } lra. }
    destruct (eval_deriv d junk (fun _ => 1) q delta ex lam) with (w := freq_of_eval (lam 0)) as [D _].
    + apply chain_det.
    + reflexivity.
    + apply chain_complete.
    + apply chain_sym.
    + apply chain_curve.
    + lra.
    + assert (2 * freq_of_eval (lam 0) * re G = - 1 * sin (2 * PI * (1/4)) * (2 * PI)) as E.
      { eapply uniqueness_limite; [exact D|]. cbn [RtoC re]. apply chain_eval_deriv. }
      replace (2 * PI * (1/4)) with (PI/2) in E by field. rewrite sin_PI2 in E.
      intros EG. assert (re G = - re G) as ER. { rewrite EG at 1. reflexivity. }
      assert (re G = 0) as ER0 by lra. rewrite ER0 in E. pose proof PI_RGT_0. lra.
Qed.

Lemma chain_imaginary_ex : forall junk,
  exists d q delta e (lam : R -> R),
    n_atoms d = 1%nat /\
    mode_curve 3
      (fun t => mass_weight (fun _ => 1) (interp_dyn_mat d junk (vadd q (vscal t delta)))) e lam /\
    lam 0 < 0 /\
    let G := along (mode_gradient 3 (e 0) (freq_of_eval (lam 0))
                (mass_weight_grad (fun _ => 1) (interp_dyn_mat_grad d junk q)))
              (vmul delta (reciprocal_cell (f_cell d))) in
    Cderiv (fun t => RtoC (freq_of_eval (lam t))) 0 (Copp G) /\ G <> Copp G.
Proof.
  intros junk. exists (chain (-2) 1), (1/4, 0, 0), (1, 0, 0), ex.
  exists (fun t => -2 + 1 * cos (2 * PI * comp (vadd (1/4, 0, 0) (vscal t (1, 0, 0))) 0)).
  split; [reflexivity|]. split; [apply chain_curve|]. split.
  - pose proof (COS_bound (2 * PI * comp (vadd (1/4, 0, 0) (vscal 0 (1, 0, 0))) 0)). lra.
  - exact (chain_imaginary junk).
Qed.
