(** Lemmas for C06: the Ewald sums at opposite faces of the Brillouin zone differ. *)
From Verif Require Import Base Cpx Vec3 M_grid M_cell M_qpts M_dynmat M_dipole S_dynmat S_dipole L_dynmat L_dynmat2 L_dipole L_nac L_spectral.
From Coq Require Import Permutation.
Open Scope R_scope.

Definition two_r : list V3 := [(0, 0, 0); (1/2, 0, 0)].
Definition opposite (z : R) (i : nat) : M3 :=
  match i with O => ((z, 0, 0), (0, z, 0), (0, 0, z)) | _ => ((- z, 0, 0), (0, - z, 0), (0, 0, - z)) end.
(** Unit cubic cell, two atoms half the cell apart; any supercell and force constants. *)
Definition pair_fc sc origins fc : fcdata := mkFC unit_cell3 two_r sc origins fc.

Lemma int_part_is (r : R) (z : Z) : IZR z <= r < IZR z + 1 -> Int_part r = z.
Proof.
  intros [H1 H2]. destruct (base_Int_part r) as [H3 H4]. assert (A : IZR (Int_part r) < IZR (z + 1)) by (rewrite plus_IZR; lra).
  assert (B : IZR z < IZR (Int_part r + 1)) by (rewrite plus_IZR; lra). apply lt_IZR in A. apply lt_IZR in B. lia.
Qed.
Lemma rint_half : rint (1/2) = 0%Z.
Proof.
  unfold rint. assert (Int_part (1/2) = 0%Z) as ->.
  { apply int_part_is. lra. }
  destruct (Rlt_dec _ _); [lra|]. destruct (Rlt_dec _ _); [lra|]. reflexivity.
Qed.
Lemma rint_three_halves : rint (3/2) = 2%Z.
Proof.
  unfold rint. assert (Int_part (3/2) = 1%Z) as ->.
  { apply int_part_is. lra. }
  destruct (Rlt_dec _ _); [lra|]. destruct (Rlt_dec _ _); [lra|]. reflexivity.
Qed.
Lemma rint_0 : rint 0 = 0%Z.
Proof.
  unfold rint. assert (Int_part 0 = 0%Z) as -> by (apply int_part_is; lra).
  destruct (Rlt_dec _ _); [reflexivity|]. lra.
Qed.
Definition face : V3 := (1/2, 0, 0).
Lemma qnorm_face : qnorm face = face.
Proof. unfold face, qnorm. rewrite rint_half, rint_0. apply V3_eq; ring. Qed.
Lemma qnorm_next : qnorm (vadd face (zvec (1, 0, 0)%Z)) = vopp face.
Proof.
  unfold face. cbn [zvec vadd qnorm]. replace (1/2 + 1) with (3/2) by field. replace (0 + 0) with 0 by ring.
  rewrite rint_three_halves, rint_0. cbn [vopp]. apply V3_eq; field.
Qed.

Lemma sin_face (x : Z) : sin (2 * PI * ((IZR x + 1/2) * 0 - (IZR x + 1/2) * (1/2))) = - cos (PI * IZR x).
Proof.
  replace (2 * PI * ((IZR x + 1/2) * 0 - (IZR x + 1/2) * (1/2))) with (- (PI / 2 + PI * IZR x)) by field.
  rewrite sin_neg, <- cos_sin. reflexivity.
Qed.
Lemma cos_PI_Z (x : Z) : cos (PI * IZR x) * cos (PI * IZR x) = 1.
Proof.
  assert (S : sin (PI * IZR x) = 0) by (apply sin_eq_0_1; exists x; ring).
  pose proof (sin2_cos2 (PI * IZR x)) as H. unfold Rsqr in H. rewrite S in H. lra.
Qed.
Lemma cos_PI_flip (x : Z) : cos (PI * IZR (-1 - x)) = - cos (PI * IZR x).
Proof.
  rewrite minus_IZR. replace (PI * (IZR (-1) - IZR x)) with (- (PI * IZR x + PI)) by (cbn; ring). rewrite cos_neg. apply neg_cos.
Qed.

Section Box.
Variable l2 : R.
Hypothesis l2pos : 0 < l2.
Definition kterm (g : Z3) : R :=
  recip_term unit_cell3 l2 (vmul (vadd (zvec g) face) (reciprocal_cell unit_cell3)) 0 0.
Definition kval (g : Z3) : R := let '(x, _, _) := g in kterm g * - cos (PI * IZR x).
Definition flip (g : Z3) : Z3 := let '(x, y, z) := g in ((-1 - x)%Z, y, z).
Lemma k_vec g : vmul (vadd (zvec g) face) (reciprocal_cell unit_cell3)
  = let '(x, y, z) := g in (2 * PI * (IZR x + 1/2), 2 * PI * IZR y, 2 * PI * IZR z).
Proof. destruct g as [[x y] z]. rewrite unit_recip. unfold face. cbn [zvec vadd vmul]. cbn. apply V3_eq; ring. Qed.
Lemma kterm_flip g : kterm (flip g) = kterm g.
Proof.
  unfold kterm. rewrite !k_vec. destruct g as [[x y] z]. cbn [flip]. rewrite minus_IZR.
  unfold recip_term, k_len_2, Sum, idx3, unit_cell3, mget. cbn.
  assert (E : forall u v w, (u * u * 1 + (u * v * 0 + (u * w * 0 + 0)) + (v * u * 0 + (v * v * 1 + (v * w * 0 + 0)) + (w * u * 0 + (w * v * 0 + (w * w * 1 + 0)) + 0))) = u * u + v * v + w * w) by (intros; ring).
  rewrite !E. replace (2 * PI * (IZR (-1) - IZR x + 1 / 2)) with (- (2 * PI * (IZR x + 1/2))) by (cbn; field). rewrite Rmult_opp_opp. reflexivity.
Qed.
Lemma half_nz (x : Z) : IZR x + 1/2 <> 0.
Proof.
  intros E. assert (H : IZR (2 * x + 1) = 0) by (rewrite plus_IZR, mult_IZR; lra). apply eq_IZR in H. lia.
Qed.
Lemma kterm_pos g : 0 < kterm g.
Proof.
  unfold kterm. rewrite k_vec. destruct g as [[x y] z].
  unfold recip_term, k_len_2, Sum, idx3, unit_cell3, mget. cbn.
  assert (E : forall u v w, (u * u * 1 + (u * v * 0 + (u * w * 0 + 0)) + (v * u * 0 + (v * v * 1 + (v * w * 0 + 0)) + (w * u * 0 + (w * v * 0 + (w * w * 1 + 0)) + 0))) = u * u + v * v + w * w) by (intros; ring).
  rewrite !E. set (u := 2 * PI * (IZR x + 1/2)). set (v := 2 * PI * IZR y). set (w := 2 * PI * IZR z).
  assert (Hu : 0 < u * u).
  { assert (u <> 0). { unfold u. pose proof PI_RGT_0. pose proof (half_nz x). apply Rmult_integral_contrapositive_currified; [lra|assumption]. }
    destruct (Rtotal_order u 0) as [?|[?|?]]; [nra|contradiction|nra]. }
  pose proof (Rle_0_sqr v) as Hv. pose proof (Rle_0_sqr w) as Hw. unfold Rsqr in *.
  apply Rmult_lt_0_compat; [exact Hu|]. apply Rmult_lt_0_compat; [apply exp_pos|]. apply Rinv_0_lt_compat. apply Rmult_lt_0_compat; [lra|]. apply Rinv_0_lt_compat. lra.
Qed.
Lemma kval_flip g : kval (flip g) = - kval g.
Proof. pose proof (kterm_flip g) as H. destruct g as [[x y] z]. unfold kval. cbn [flip] in *. rewrite H, cos_PI_flip. ring. Qed.

Variable gs : list Z3.
Variable M : nat.
Hypothesis gs_in : forall g, In g gs <-> (znorm g <= M)%nat.
Hypothesis gs_nodup : NoDup gs.
Let last_layer (g : Z3) : bool := let '(x, _, _) := g in Z.eqb x (Z.of_nat M).

Lemma inner_zero : Sum (filter (fun g => negb (last_layer g)) gs) kval = 0.
Proof.
  set (A := filter _ gs). assert (P : Permutation (map flip A) A).
  { apply NoDup_Permutation.
    - apply NoDup_map_inj; [|apply NoDup_filter; exact gs_nodup].
      intros [[x y] z] [[x' y'] z'] _ _ E. cbn [flip] in E. assert (E1 : (-1 - x = -1 - x')%Z) by congruence. assert (x = x') by lia. congruence.
    - apply NoDup_filter. exact gs_nodup.
    - assert (H : forall g, In g A -> In (flip g) A).
      { intros [[x y] z] Hg. apply filter_In in Hg. destruct Hg as [H1 H2]. apply gs_in in H1. cbn [last_layer] in H2. apply negb_true_iff, Z.eqb_neq in H2.
        apply filter_In. cbn [flip]. split; [apply gs_in; unfold znorm in *; lia|]. apply negb_true_iff, Z.eqb_neq. unfold znorm in *. lia. }
      intros g. split.
      + intros Hg. apply in_map_iff in Hg. destruct Hg as (h & <- & Hh). apply H. exact Hh.
      + intros Hg. apply in_map_iff. exists (flip g). split; [destruct g as [[x y] z]; cbn [flip]; replace (-1 - (-1 - x))%Z with x by lia; reflexivity|]. apply H. exact Hg. }
  assert (E : Sum A kval = - Sum A kval); [|lra].
  rewrite <- (Sum_perm _ _ kval P) at 1. rewrite Sum_map. rewrite (Sum_ext _ _ (fun g => - kval g)) by (intros; apply kval_flip). apply Sum_opp.
Qed.
Lemma box_sum_nz : Sum gs kval <> 0.
Proof.
  assert (E : Sum gs kval = Sum (filter last_layer gs) kval + Sum (filter (fun g => negb (last_layer g)) gs) kval).
  { clear. induction gs as [|g l IH]; [unfold Sum; cbn; ring|]. cbn [filter]. destruct (last_layer g); cbn [negb]; rewrite !Sum_cons, IH; ring. }
  rewrite E, inner_zero. set (c := - cos (PI * IZR (Z.of_nat M))).
  rewrite (Sum_ext _ _ (fun g => kterm g * c)).
  2:{ intros [[x y] z] Hg. apply filter_In in Hg. destruct Hg as [_ Hg]. cbn in Hg. apply Z.eqb_eq in Hg. subst x. reflexivity. }
  rewrite Sum_scal_r. assert (Hc : c <> 0). { intros Hc. pose proof (cos_PI_Z (Z.of_nat M)) as H. unfold c in Hc. nra. }
  assert (In ((Z.of_nat M), 0, 0)%Z (filter last_layer gs)) as Hin.
  { apply filter_In. split; [apply gs_in; unfold znorm; lia|]. cbn. apply Z.eqb_refl. }
  assert (0 < Sum (filter last_layer gs) kterm).
  { destruct (filter last_layer gs) as [|g l]; [destruct Hin|]. rewrite Sum_cons. pose proof (kterm_pos g).
    assert (0 <= Sum l kterm) by (apply Sum_nonneg; intros h _; left; apply kterm_pos). lra. }
  intros H0. rewrite Rplus_0_r in H0. apply Rmult_integral in H0. destruct H0; [lra|contradiction].
Qed.
End Box.

Lemma shells_in M g : In g ((0, 0, 0)%Z :: flat_map shell (seq 1 M)) <-> (znorm g <= M)%nat.
Proof.
  cbn [In]. rewrite in_flat_map. split.
  - intros [<-|(s & Hs & Hg)]; [cbn; lia|]. apply in_seq in Hs. apply in_shell in Hg. lia.
  - intros H. destruct (Nat.eq_dec (znorm g) 0) as [E|E].
    + left. destruct g as [[x y] z]. unfold znorm in E. assert (x = 0 /\ y = 0 /\ z = 0)%Z as (-> & -> & ->) by lia. reflexivity.
    + right. exists (znorm g). split; [apply in_seq; lia|apply in_shell; reflexivity].
Qed.
Lemma shells_nodup M : NoDup ((0, 0, 0)%Z :: flat_map shell (seq 1 M)).
Proof.
  constructor.
  - intros H. apply in_flat_map in H. destruct H as (s & Hs & Hg). apply in_seq in Hs. apply in_shell in Hg. cbn in Hg. lia.
  - apply NoDup_flat_map; [apply seq_NoDup|intros; apply NoDup_shell|]. intros x y z _ _ H1 H2. apply in_shell in H1, H2. congruence.
Qed.
Lemma init_rows erfc cell atom_r born diel dp : let dd := dipole_init erfc cell atom_r born diel dp in
  dd_lambda dd = upper_lambda cell diel (length atom_r) dp /\
  exists M, combine (dd_gcart dd) (dd_gph dd) = map (g_row (reciprocal_cell cell) atom_r) ((0, 0, 0)%Z :: flat_map shell (seq 1 M)).
Proof.
  unfold dipole_init. cbv zeta. set (lam := upper_lambda _ _ _ _). set (mk := H_row _ _ _ _ _).
  destruct (real_shells mk (length atom_r) (seq 0 50) 0) as [cells H].
  pose proof (recip_shells_spec diel (reciprocal_cell cell) (lam ^ 2) atom_r (seq 1 49) 0 (fun _ _ _ _ => Czero)) as [M [HM [Hg _]]].
  destruct (recip_shells diel (reciprocal_cell cell) (lam ^ 2) atom_r (seq 1 49) 0 (fun _ _ _ _ => Czero)) as [gs sum]. cbn [fst snd] in Hg.
  rewrite seq_length in HM. rewrite firstn_seq in Hg by exact HM. cbn [dd_lambda dd_gcart dd_gph]. split; [reflexivity|].
  exists M. rewrite combine_fst_snd. cbn [map]. rewrite g_row_zero, Hg. reflexivity.
Qed.
Lemma lambda_nz dp : dp <> 0 -> upper_lambda unit_cell3 unit_cell3 2 dp <> 0.
Proof.
  intros H. unfold upper_lambda. assert (HP : forall x y, 0 < Rpower x y) by (intros; apply exp_pos).
  assert (0 < sqrt PI) by (apply sqrt_lt_R0; apply PI_RGT_0).
  apply Rmult_integral_contrapositive_currified; [|exact H]. apply Rgt_not_eq. repeat apply Rmult_lt_0_compat; try apply HP; [assumption|]. apply Rinv_0_lt_compat. apply HP.
Qed.

Lemma real_part_real erfc born dp a b : let dd := dipole_init erfc unit_cell3 two_r born unit_cell3 dp in
  im (real_dipole unit_cell3 2 dd face 0 1 a b) = 0.
Proof.
  cbv zeta. pose proof (dipole_init_ok erfc unit_cell3 two_r born unit_cell3 dp) as Hok. destruct (ok_c _ _ _ _ Hok) as (cs & Ec & _).
  change 2%nat with (length two_r) at 1.
  rewrite (real_closed _ _ two_r unit_cell3 _ face 0 1 a b Hok) with (cs := cs); [|lia|cbn; lia|exact Ec].
  apply im_scal_zero. apply im_csum_zero. intros c _. apply im_scal_zero. cbn [cis im]. apply sin_eq_0_1.
  destruct c as [[x y] z]. exists x. unfold face. cbn [zvec dot]. field.
Qed.

Lemma face_im erfc z dp : z <> 0 -> dp <> 0 -> let dd := dipole_init erfc unit_cell3 two_r (opposite z) unit_cell3 dp in
  im (dipole_correction unit_cell3 two_r (opposite z) unit_cell3 dd face 0 3) <> 0.
Proof.
  intros Hz Hdp. cbv zeta. set (dd := dipole_init _ _ _ _ _ _). unfold dipole_correction. cbv zeta. change (Nat.eqb (0/3) (3/3)) with false. cbv iota.
  change (0 / 3)%nat with 0%nat. change (0 mod 3)%nat with 0%nat. change (3 / 3)%nat with 1%nat. change (3 mod 3)%nat with 0%nat. rewrite qnorm_face.
  change (fun i j a b => Csub (add_lower (recip_dipole unit_cell3 two_r unit_cell3 dd face) i j a b) (add_lower (real_dipole unit_cell3 (length two_r) dd face) i j a b))
    with (dip_diff unit_cell3 two_r unit_cell3 dd face).
  assert (E : im (born_contract (opposite z) (dip_diff unit_cell3 two_r unit_cell3 dd face) 0 1 0 0) = - (z * z) * im (dip_diff unit_cell3 two_r unit_cell3 dd face 0 1 0 0)).
  { unfold born_contract, idx3. rewrite !im_Csum. unfold Sum. cbn [map Rsum]. rewrite !im_Csum. unfold Sum. cbn [map Rsum fold_right]. unfold mget, opposite. cbn. ring. }
  rewrite E. apply Rmult_integral_contrapositive_currified; [nra|].
  rewrite dip_diff_upper by lia. cbn [Csub im]. pose proof (real_part_real erfc (opposite z) dp 0 0) as Hr. cbv zeta in Hr. fold dd in Hr. change (length two_r) with 2%nat. rewrite Hr, Rminus_0_r.
  destruct (init_rows erfc unit_cell3 two_r (opposite z) unit_cell3 dp) as [Hl [M HM]]. fold dd in Hl, HM. change (length two_r) with 2%nat in Hl.
  assert (Hu : used_g dd face = map (g_row (reciprocal_cell unit_cell3) two_r) ((0, 0, 0)%Z :: flat_map shell (seq 1 M))).
  { unfold used_g. unfold face. rewrite half_not_gamma. exact HM. }
  pose proof (dipole_init_ok erfc unit_cell3 two_r (opposite z) unit_cell3 dp) as Hok. fold dd in Hok.
  rewrite (recip_closed _ _ _ unit_cell3 _ face 0 1 0 0 Hok) with (gs := (0, 0, 0)%Z :: flat_map shell (seq 1 M)); [|lia|cbn; lia|exact Hu].
  set (gs := (0, 0, 0)%Z :: flat_map shell (seq 1 M)). set (l2 := dd_lambda dd ^ 2).
  assert (Hl2 : 0 < l2). { unfold l2. rewrite Hl. pose proof (lambda_nz dp Hdp) as Hn. rewrite <- Rsqr_pow2. apply Rlt_0_sqr. exact Hn. }
  cbn [Cscal im]. rewrite im_Csum. apply Rmult_integral_contrapositive_currified.
  - assert (cell_volume unit_cell3 = 1) as -> by (unfold cell_volume, cell_vectors_to_volume, unit_cell3; cbn; ring).
    apply Rgt_not_eq. apply Rmult_lt_0_compat; [apply PI_RGT_0|]. apply Rinv_0_lt_compat. lra.
  - rewrite (Sum_ext _ _ (kval l2)).
    + apply (box_sum_nz l2 Hl2 gs M); [apply shells_in|apply shells_nodup].
    + intros [[x y] w] _. cbn [Cscal im cis]. unfold kval, kterm. f_equal. rewrite <- sin_face. f_equal. unfold face. cbn. ring.
Qed.

Lemma zone_face erfc sc origins fc junk z dp : z <> 0 -> dp <> 0 ->
  polar_dyn_mat erfc (pair_fc sc origins fc) junk (opposite z) unit_cell3 dp (vadd face (zvec (1, 0, 0)%Z)) 0 3
  <> polar_dyn_mat erfc (pair_fc sc origins fc) junk (opposite z) unit_cell3 dp face 0 3.
Proof.
  intros Hz Hdp H. unfold polar_dyn_mat in H. rewrite interp_periodic in H. cbn [pair_fc f_cell f_atom_r] in H.
  set (dd := dipole_init _ _ _ _ _ _) in *. apply (face_im erfc z dp Hz Hdp). fold dd.
  pose proof (dipole_init_ok erfc unit_cell3 two_r (opposite z) unit_cell3 dp) as Hok. fold dd in Hok.
  pose proof (dipole_conj _ unit_cell3 two_r (opposite z) unit_cell3 dd face 0 3 Hok) as Hc.
  assert (E : dipole_correction unit_cell3 two_r (opposite z) unit_cell3 dd (vadd face (zvec (1, 0, 0)%Z)) 0 3
            = dipole_correction unit_cell3 two_r (opposite z) unit_cell3 dd (vopp face) 0 3).
  { unfold dipole_correction. rewrite qnorm_next, qnorm_opp, qnorm_face. reflexivity. }
  rewrite E, Hc in H by (cbn; lia). set (w := dipole_correction _ _ _ _ _ face 0 3) in *.
  apply (f_equal im) in H. cbn [Cadd Cconj im] in H. lra.
Qed.
Lemma zone_face' erfc sc origins fc junk z dp : z <> 0 -> dp <> 0 ->
  let d := mkFC unit_cell3 [(0, 0, 0); (1/2, 0, 0)] sc origins fc in
  let born := fun i : nat => match i with O => ((z, 0, 0), (0, z, 0), (0, 0, z)) | _ => ((- z, 0, 0), (0, - z, 0), (0, 0, - z)) end in
  polar_dyn_mat erfc d junk born unit_cell3 dp (vadd (1/2, 0, 0) (zvec (1, 0, 0)%Z)) 0 3
  <> polar_dyn_mat erfc d junk born unit_cell3 dp (1/2, 0, 0) 0 3.
Proof. exact (zone_face erfc sc origins fc junk z dp). Qed.
