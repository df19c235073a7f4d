(** Proofs for C06 and C10. *)
From Verif Require Import Base Cpx Vec3 M_grid L_grid M_dynmat L_dynmat S_dynmat.
Open Scope R_scope.

(** ** The searched images *)
Lemma sc_image_r_spec s : (0 <= s)%Z ->
  NoDup (sc_image_r s) /\
  forall x y z, In (x, y, z) (sc_image_r s)
    <-> (- s <= x <= s /\ - s <= y <= s /\ - s <= z <= s)%Z.
Proof.
  intros Hs. unfold sc_image_r.
  destruct (get_all_origins_box (-s) (-s) (-s) (s+1) (s+1) (s+1)) as [l [E [Hnd [HIn _]]]];
    [lia|lia|lia|].
  rewrite E. split; [exact Hnd|]. intros x y z. rewrite HIn. lia.
Qed.
Lemma sc_image_r_In m : In m (sc_image_r 2) <-> in_search_range m.
Proof.
  destruct m as [[x y] z]. destruct (sc_image_r_spec 2) as [_ H]; [lia|].
  rewrite H. reflexivity.
Qed.

(** Images as lattice offsets rather than list positions. *)
Definition ms (d : fcdata) (s : Z) (nc i j : nat) : list Z3 :=
  filter (fun m => in_ws d (image_dist d nc i j m)) (sc_image_r s).

Lemma filter_seq_nth {A} (p : A -> bool) (l : list A) d0 :
  map (fun k => nth k l d0) (filter (fun k => p (nth k l d0)) (seq 0 (length l)))
  = filter p l.
Proof.
  induction l as [|a l IH]; [reflexivity|].
  cbn [length seq]. rewrite <- seq_shift. cbn [filter].
  change (nth 0 (a :: l) d0) with a.
  assert (map (fun k => nth k (a :: l) d0)
    (filter (fun k => p (nth k (a :: l) d0)) (map S (seq 0 (length l)))) = filter p l) as E.
  { rewrite <- IH. generalize (seq 0 (length l)) as ks. intros ks.
    induction ks as [|k ks IHk]; [reflexivity|].
    cbn [map filter]. change (nth (S k) (a :: l) d0) with (nth k l d0).
    destruct (p (nth k l d0)); cbn [map]; [|exact IHk].
    change (nth (S k) (a :: l) d0) with (nth k l d0). rewrite IHk. reflexivity. }
  destruct (p a); cbn [map]; rewrite E; reflexivity.
Qed.

Lemma images_of_ms d s nc i j :
  map (fun k => nth k (sc_image_r s) (0,0,0)%Z) (images_of d s nc i j) = ms d s nc i j.
Proof.
  apply (filter_seq_nth (fun m => in_ws d (image_dist d nc i j m))).
Qed.
Lemma images_of_length d s nc i j :
  length (images_of d s nc i j) = length (ms d s nc i j).
Proof. rewrite <- images_of_ms. rewrite map_length. reflexivity. Qed.

(** Lattice vector of offset m of cell nc. *)
Definition latv (d : fcdata) (nc : nat) (m : Z3) : Z3 :=
  zadd3 (nth nc (f_origins d) (0,0,0)%Z) (zmul3 m (f_sc d)).

Lemma Csum_images d s nc i j (F : Z3 -> C) :
  Csum (images_of d s nc i j) (fun k => F (lat d s nc k))
  = Csum (ms d s nc i j) (fun m => F (latv d nc m)).
Proof. rewrite <- images_of_ms, Csum_map. reflexivity. Qed.

Lemma div3_lt a n : (a < 3 * n)%nat -> (a / 3 < n)%nat.
Proof. intros H. apply Nat.div_lt_upper_bound; lia. Qed.

(** The interpolated matrix in closed form. *)
Lemma interp_closed d junk q a b :
  (a < 3 * n_atoms d)%nat -> (b < 3 * n_atoms d)%nat ->
  interp_dyn_mat d junk q a b
  = Csum (seq 0 (n_cells d)) (fun nc =>
      Csum (ms d 2 nc (a / 3) (b / 3))%nat (fun m =>
        Cscal (f_fc d nc a b / INR (length (ms d 2 nc (a / 3) (b / 3))%nat))
           (cis (2 * PI * dot q (zvec (latv d nc m)))))).
Proof.
  intros Ha Hb. apply div3_lt in Ha. apply div3_lt in Hb.
  unfold interp_dyn_mat. cbv zeta. rewrite dyn_mat_closed by apply sc_images_ok.
  apply Csum_ext. intros nc Hnc. apply in_seq in Hnc.
  unfold fc_img_weighted. cbv zeta. rewrite sc_images_spec by (lia || assumption).
  rewrite (Csum_images d 2 nc (a/3) (b/3) (fun r => cis (2 * PI * dot q (zvec r)))).
  rewrite images_of_length, Csum_scal.
  destruct (ms d 2 nc (a / 3) (b / 3))%nat as [|m l] eqn:E.
  - rewrite !Csum_nil. apply C_eq; simpl; ring.
  - reflexivity.
Qed.

(** ** Periodicity and time reversal, for every table *)
Lemma cis_dot_shift q G r :
  cis (2 * PI * dot (vadd q (zvec G)) (zvec r)) = cis (2 * PI * dot q (zvec r)).
Proof.
  rewrite dot_vadd_l. destruct G as [[g1 g2] g3], r as [[r1 r2] r3].
  cbn [zvec dot].
  replace (2 * PI * (dot q (IZR r1, IZR r2, IZR r3)
             + (IZR g1 * IZR r1 + IZR g2 * IZR r2 + IZR g3 * IZR r3)))
    with (2 * PI * dot q (IZR r1, IZR r2, IZR r3)
          + 2 * PI * IZR (g1 * r1 + g2 * r2 + g3 * r3)).
  - apply cis_period.
  - rewrite !plus_IZR, !mult_IZR. ring.
Qed.

Lemma interp_periodic d junk q G a b :
  interp_dyn_mat d junk (vadd q (zvec G)) a b = interp_dyn_mat d junk q a b.
Proof.
  unfold interp_dyn_mat. cbv zeta. rewrite !dyn_mat_closed by apply sc_images_ok.
  apply Csum_ext. intros nc _. f_equal. apply Csum_ext. intros k _.
  apply cis_dot_shift.
Qed.

Lemma dot_vopp_l u v : dot (vopp u) v = - dot u v.
Proof. unfold vopp. rewrite dot_vscal_l. ring. Qed.

Lemma interp_conj d junk q a b :
  interp_dyn_mat d junk (vopp q) a b = Cconj (interp_dyn_mat d junk q a b).
Proof.
  unfold interp_dyn_mat. cbv zeta. rewrite !dyn_mat_closed by apply sc_images_ok.
  rewrite <- Csum_conj. apply Csum_ext. intros nc _.
  rewrite Cconj_scal, <- Csum_conj. f_equal. apply Csum_ext. intros k _.
  rewrite <- cis_opp. f_equal. rewrite dot_vopp_l. ring.
Qed.

Lemma interp_grad_periodic d junk q G a b l :
  interp_dyn_mat_grad d junk (vadd q (zvec G)) a b l = interp_dyn_mat_grad d junk q a b l.
Proof.
  unfold interp_dyn_mat_grad. cbv zeta. rewrite !dyn_mat_grad_closed by apply sc_images_ok.
  apply Csum_ext. intros nc _. f_equal. apply Csum_ext. intros k _.
  rewrite cis_dot_shift. reflexivity.
Qed.

(** ** The image test is the specification's *)
Lemma vmul_zmul3 m s cell :
  vmul (zvec (zmul3 m s)) cell
  = vmul (zvec m) (let '(a, b, c) := zrows s in (vmul a cell, vmul b cell, vmul c cell)).
Proof.
  destruct m as [[m1 m2] m3], s as [[[[a1 a2] a3] [[b1 b2] b3]] [[c1 c2] c3]].
  destruct cell as [[[[x1 x2] x3] [[y1 y2] y3]] [[z1 z2] z3]].
  cbn. rewrite !plus_IZR, !mult_IZR. apply V3_eq; ring.
Qed.

Lemma image_dist_pos d nc i j m : home_first d ->
  image_dist d nc i j m = vsub (atom_pos d (0,0,0)%Z i) (atom_pos d (latv d nc m) j).
Proof.
  intros Hh. unfold image_dist, sc_atom_cart, atom_pos, latv.
  unfold home_first in Hh. rewrite Hh. rewrite zvec_add.
  unfold sc_vecs. destruct (zrows (f_sc d)) as [[za zb] zc] eqn:E.
  pose proof (vmul_zmul3 m (f_sc d) (f_cell d)) as HM. rewrite E in HM. rewrite <- HM.
  rewrite !vmul_vadd.
  destruct (vmul (zvec (0,0,0)%Z) (f_cell d)) as [[? ?] ?].
  destruct (vmul (nth i (f_atom_r d) vzero) (f_cell d)) as [[? ?] ?].
  destruct (vmul (nth j (f_atom_r d) vzero) (f_cell d)) as [[? ?] ?].
  destruct (vmul (zvec (nth nc (f_origins d) (0,0,0)%Z)) (f_cell d)) as [[? ?] ?].
  destruct (vmul (zvec (zmul3 m (f_sc d))) (f_cell d)) as [[? ?] ?].
  simpl. apply V3_eq; ring.
Qed.

Lemma dot_self_zero w : dot w w = 0 -> w = vzero.
Proof.
  destruct w as [[a b] c]. cbn [dot]. intros H. unfold vzero. apply V3_eq; nra.
Qed.

Lemma ws_pass_spec w v :
  ws_pass (vscal (1 / dot w w) w) v = true <-> Rabs (dot v w) <= ws_cutoff * dot w w.
Proof.
  unfold ws_pass. destruct (Rleb_spec (Rabs (dot v (vscal (1 / dot w w) w))) ws_cutoff) as [H|H];
    rewrite dot_vscal_r in H.
  - split; [intros _|reflexivity].
    destruct (Req_dec (dot w w) 0) as [Hz|Hnz].
    + rewrite Hz. rewrite (dot_self_zero w Hz).
      destruct v as [[? ?] ?]. cbn [dot vzero].
      replace (r * 0 + r0 * 0 + r1 * 0) with 0 by ring. rewrite Rabs_R0. lra.
    + pose proof (dot_self_nonneg w). assert (0 < dot w w) as Hp by lra.
      replace (1 / dot w w * dot v w) with (dot v w / dot w w) in H by (field; lra).
      unfold Rdiv in H. rewrite Rabs_mult, (Rabs_right (/ dot w w)) in H.
      2:{ apply Rle_ge. left. apply Rinv_0_lt_compat. exact Hp. }
      apply (Rmult_le_compat_r (dot w w)) in H; [|lra].
      rewrite Rmult_assoc, Rinv_l, Rmult_1_r in H by lra. exact H.
  - split; [discriminate|]. intros Hc. exfalso. apply H.
    destruct (Req_dec (dot w w) 0) as [Hz|Hnz].
    + rewrite (dot_self_zero w Hz).
      destruct v as [[? ?] ?]. cbn [dot vzero].
      replace (1 / (0 * 0 + 0 * 0 + 0 * 0) * (r * 0 + r0 * 0 + r1 * 0)) with 0 by (unfold Rdiv; ring).
      rewrite Rabs_R0. unfold ws_cutoff. lra.
    + pose proof (dot_self_nonneg w). assert (0 < dot w w) as Hp by lra.
      replace (1 / dot w w * dot v w) with (dot v w * / dot w w) by (field; lra).
      rewrite Rabs_mult, (Rabs_right (/ dot w w)).
      2:{ apply Rle_ge. left. apply Rinv_0_lt_compat. exact Hp. }
      apply (Rmult_le_reg_r (dot w w)); [exact Hp|].
      rewrite Rmult_assoc, Rinv_l, Rmult_1_r by lra. exact Hc.
Qed.

Lemma near_image_ws d i j r : near_image d i j r <-> forall f, In f (tl ws_frac) ->
    let w := vmul (zvec f) (sc_vecs d) in
    Rabs (dot (vsub (atom_pos d (0,0,0)%Z i) (atom_pos d r j)) w) <= (1/2 + 1/1000) * dot w w.
Proof.
  unfold near_image. set (v := vsub _ _). clearbody v. split.
  - intros H f Hf. apply H. unfold ws_frac in Hf. cbn [tl] in Hf.
    repeat (destruct Hf as [<-|Hf]; [split; [discriminate|lia]|]). destruct Hf.
  - intros H f [Hn Hr].
    assert (Hs : forall g, In g (tl ws_frac) -> f = zopp3 g -> 
      let w := vmul (zvec f) (sc_vecs d) in Rabs (dot v w) <= (1/2 + 1/1000) * dot w w).
    { intros g Hg ->. specialize (H g Hg). cbv zeta in *.
      assert (E : vmul (zvec (zopp3 g)) (sc_vecs d) = vopp (vmul (zvec g) (sc_vecs d))).
      { destruct g as [[g1 g2] g3], (sc_vecs d) as [[[[? ?] ?] [[? ?] ?]] [[? ?] ?]].
        unfold vopp. cbn [zopp3 zvec vmul vscal vadd]. rewrite !opp_IZR. apply V3_eq; ring. }
      rewrite E. destruct v as [[v1 v2] v3], (vmul (zvec g) (sc_vecs d)) as [[w1 w2] w3]. unfold vopp. cbn [dot vscal] in *.
      replace (v1 * (-1 * w1) + v2 * (-1 * w2) + v3 * (-1 * w3)) with (- (v1 * w1 + v2 * w2 + v3 * w3)) by ring.
      rewrite Rabs_Ropp. replace (-1 * w1 * (-1 * w1) + -1 * w2 * (-1 * w2) + -1 * w3 * (-1 * w3)) with (w1 * w1 + w2 * w2 + w3 * w3) by ring. exact H. }
    destruct f as [[x y] z].
    assert (Cx : (x = -1 \/ x = 0 \/ x = 1)%Z) by lia. assert (Cy : (y = -1 \/ y = 0 \/ y = 1)%Z) by lia. assert (Cz : (z = -1 \/ z = 0 \/ z = 1)%Z) by lia.
    clear Hr. destruct Cx as [-> | [-> | ->]]; destruct Cy as [-> | [-> | ->]]; destruct Cz as [-> | [-> | ->]];
      try (exfalso; apply Hn; reflexivity);
      first [ apply H; unfold ws_frac; cbn; tauto
            | match goal with |- context [zvec (?a, ?b, ?c)] => apply (Hs (- a, - b, - c)%Z); [unfold ws_frac; cbn; tauto | reflexivity] end ].
Qed.

Lemma in_ws_near d nc i j m : home_first d ->
  in_ws d (image_dist d nc i j m) = true <-> near_image d i j (latv d nc m).
Proof.
  intros Hh. rewrite near_image_ws. rewrite image_dist_pos by exact Hh. unfold in_ws, ws_list_norm.
  rewrite forallb_forall. unfold ws_frac. cbn [map tl].
  split.
  - intros H f Hf. cbv zeta.
    apply (ws_pass_spec (vmul (zvec f) (sc_vecs d))).
    apply H. apply (in_map (fun f => vscal (1 / dot (vmul (zvec f) (sc_vecs d)) (vmul (zvec f) (sc_vecs d))) (vmul (zvec f) (sc_vecs d)))) in Hf.
    exact Hf.
  - intros H w Hw.
    change (In w (map (fun f => vscal (1 / dot (vmul (zvec f) (sc_vecs d)) (vmul (zvec f) (sc_vecs d))) (vmul (zvec f) (sc_vecs d))) (tl ws_frac))) in Hw.
    apply in_map_iff in Hw. destruct Hw as [f [<- Hf]].
    apply ws_pass_spec. exact (H f Hf).
Qed.

Lemma ms_In d nc i j m : home_first d ->
  In m (ms d 2 nc i j) <-> in_search_range m /\ near_image d i j (latv d nc m).
Proof.
  intros Hh. unfold ms. rewrite filter_In, sc_image_r_In, in_ws_near by exact Hh. reflexivity.
Qed.
Lemma ms_NoDup d nc i j : NoDup (ms d 2 nc i j).
Proof. apply NoDup_filter. apply sc_image_r_spec. lia. Qed.

(** ** Hermiticity *)
Lemma zvec_opp a : zvec (zopp3 a) = vopp (zvec a).
Proof.
  destruct a as [[x y] z]. unfold vopp. simpl. rewrite !opp_IZR. apply V3_eq; ring.
Qed.

Lemma near_sym d i j r : near_image d i j r <-> near_image d j i (zopp3 r).
Proof.
  unfold near_image. split; intros H f Hf; specialize (H f Hf); cbv zeta in *;
  match goal with
  | H : Rabs ?x <= ?c |- Rabs ?y <= ?c =>
      replace y with (- x); [rewrite Rabs_Ropp; exact H|]
  end;
  unfold atom_pos; rewrite ?zvec_opp; unfold vopp;
  destruct (f_cell d) as [[[[x1 x2] x3] [[y1 y2] y3]] [[z1 z2] z3]];
  destruct (nth i (f_atom_r d) vzero) as [[? ?] ?];
  destruct (nth j (f_atom_r d) vzero) as [[? ?] ?];
  destruct r as [[? ?] ?];
  destruct (vmul (zvec f) (sc_vecs d)) as [[? ?] ?];
  cbn; ring.
Qed.

Definition zsub3 (a b : Z3) : Z3 := zadd3 a (zopp3 b).

Lemma flip_lat d nc nc' T m :
  nth nc' (f_origins d) (0,0,0)%Z
    = zadd3 (zopp3 (nth nc (f_origins d) (0,0,0)%Z)) (zmul3 T (f_sc d)) ->
  latv d nc' (zsub3 (zopp3 T) m) = zopp3 (latv d nc m).
Proof.
  intros H. unfold latv. rewrite H.
  destruct (nth nc (f_origins d) (0,0,0)%Z) as [[o1 o2] o3].
  destruct T as [[t1 t2] t3], m as [[m1 m2] m3].
  destruct (f_sc d) as [[[[a1 a2] a3] [[b1 b2] b3]] [[c1 c2] c3]].
  unfold zsub3. cbn -[Z.mul Z.add Z.opp]. f_equal; [f_equal|]; ring.
Qed.
Lemma zsub_sub T m : zsub3 (zopp3 T) (zsub3 (zopp3 T) m) = m.
Proof.
  destruct T as [[t1 t2] t3], m as [[m1 m2] m3]. unfold zsub3. cbn -[Z.add Z.opp].
  f_equal; [f_equal|]; ring.
Qed.
Lemma zopp_opp m : zopp3 (zopp3 m) = m.
Proof. destruct m as [[m1 m2] m3]. cbn -[Z.opp]. f_equal; [f_equal|]; ring. Qed.

Lemma ms_flip d nc nc' i j T :
  home_first d -> search_complete d ->
  (nc < n_cells d)%nat -> (nc' < n_cells d)%nat ->
  (i < n_atoms d)%nat -> (j < n_atoms d)%nat ->
  nth nc' (f_origins d) (0,0,0)%Z
    = zadd3 (zopp3 (nth nc (f_origins d) (0,0,0)%Z)) (zmul3 T (f_sc d)) ->
  Permutation (map (fun m => zsub3 (zopp3 T) m) (ms d 2 nc i j)) (ms d 2 nc' j i).
Proof.
  intros Hh Hsc Hnc Hnc' Hi Hj HT. apply NoDup_Permutation.
  - apply NoDup_map_inj; [|apply ms_NoDup]. intros x y _ _ E.
    rewrite <- (zsub_sub T x), <- (zsub_sub T y), E. reflexivity.
  - apply ms_NoDup.
  - assert (forall m, near_image d i j (latv d nc m)
              <-> near_image d j i (latv d nc' (zsub3 (zopp3 T) m))) as Hnear.
    { intros m. rewrite (flip_lat d nc nc' T m HT). apply near_sym. }
    intros m'. rewrite in_map_iff. rewrite ms_In by exact Hh. split.
    + intros [m [<- Hm]]. apply ms_In in Hm; [|exact Hh]. destruct Hm as [_ Hm].
      apply Hnear in Hm. split; [|exact Hm]. apply (Hsc nc' j i); assumption.
    + intros [_ Hm]. exists (zsub3 (zopp3 T) m'). split; [apply zsub_sub|].
      apply ms_In; [exact Hh|].
      assert (near_image d i j (latv d nc (zsub3 (zopp3 T) m'))) as Hn.
      { apply Hnear. rewrite zsub_sub. exact Hm. }
      split; [|exact Hn]. apply (Hsc nc i j); assumption.
Qed.

Lemma perm_of_involution n (p : nat -> nat) :
  (forall x, (x < n)%nat -> (p x < n)%nat /\ p (p x) = x) ->
  Permutation (map p (seq 0 n)) (seq 0 n).
Proof.
  intros H. apply NoDup_Permutation; [|apply seq_NoDup|].
  - apply NoDup_map_inj; [|apply seq_NoDup]. intros x y Hx Hy E.
    apply in_seq in Hx. apply in_seq in Hy.
    destruct (H x) as [_ H1]; [lia|]. destruct (H y) as [_ H2]; [lia|]. congruence.
  - intros x. rewrite in_map_iff. split.
    + intros [y [<- Hy]]. apply in_seq in Hy. apply in_seq.
      destruct (H y) as [H1 _]; lia.
    + intros Hx. apply in_seq in Hx. exists (p x).
      destruct (H x) as [H1 H2]; [lia|]. split; [exact H2|apply in_seq; lia].
Qed.

Lemma interp_hermitian d junk q a b :
  home_first d -> search_complete d -> fc_symmetric d ->
  (a < 3 * n_atoms d)%nat -> (b < 3 * n_atoms d)%nat ->
  interp_dyn_mat d junk q b a = Cconj (interp_dyn_mat d junk q a b).
Proof.
  intros Hh Hsc [p [Hp Hfc]] Ha Hb.
  rewrite !interp_closed by assumption.
  pose proof (div3_lt _ _ Ha) as Hi. pose proof (div3_lt _ _ Hb) as Hj.
  rewrite <- (Csum_perm (map p (seq 0 (n_cells d))) (seq 0 (n_cells d))).
  2:{ apply perm_of_involution. intros x Hx. destruct (Hp x Hx) as [H1 [H2 _]]. auto. }
  rewrite Csum_map, <- Csum_conj. apply Csum_ext. intros nc Hnc. apply in_seq in Hnc.
  destruct (Hp nc) as [Hpn [Hpp [T HT]]]; [lia|].
  pose proof (ms_flip d nc (p nc) (a/3) (b/3) T Hh Hsc) as HP.
  specialize (HP ltac:(lia) Hpn Hi Hj HT).
  rewrite <- (Csum_perm _ _ _ HP), Csum_map, <- Csum_conj.
  rewrite <- (Permutation_length HP), map_length.
  rewrite (Hfc nc a b) by (lia || assumption).
  apply Csum_ext. intros m _. rewrite Cconj_scal. f_equal.
  rewrite (flip_lat d nc (p nc) T m HT), zvec_opp.
  rewrite <- cis_opp. f_equal. rewrite dot_comm, dot_vopp_l, dot_comm. ring.
Qed.

Lemma herm_upper_id m a b :
  (forall x y, (x = a /\ y = b) \/ (x = b /\ y = a) -> m y x = Cconj (m x y)) ->
  herm_upper m a b = m a b.
Proof.
  intros H. unfold herm_upper. destruct (Nat.ltb_spec a b); [reflexivity|].
  destruct (Nat.ltb_spec b a).
  - rewrite <- (H b a); [reflexivity|right; auto].
  - assert (a = b) as -> by lia. pose proof (H b b (or_introl (conj eq_refl eq_refl))) as E.
    destruct (m b b) as [x y]. unfold Cconj in E. simpl in E. injection E as E.
    apply C_eq; simpl; [reflexivity|lra].
Qed.

Lemma solver_full_matrix d junk mass q a b : home_first d -> search_complete d -> fc_symmetric d ->
  (a < 3 * n_atoms d)%nat -> (b < 3 * n_atoms d)%nat ->
  herm_upper (mass_weight mass (interp_dyn_mat d junk q)) a b = mass_weight mass (interp_dyn_mat d junk q) a b.
Proof.
  intros Hh Hs Hf Ha Hb. apply herm_upper_id. intros x y Hxy.
  assert (Hx : (x < 3 * n_atoms d)%nat /\ (y < 3 * n_atoms d)%nat) by (destruct Hxy as [[-> ->]|[-> ->]]; tauto).
  unfold mass_weight. rewrite (interp_hermitian d junk q x y Hh Hs Hf (proj1 Hx) (proj2 Hx)).
  rewrite (Rmult_comm (mass (x / 3)%nat)). apply C_eq; simpl; ring.
Qed.

(** ** Orthogonal supercells: every force constant has an image *)
Definition orth_coord (d : fcdata) (i j nc : nat) (s : V3) : Prop :=
  vsub (atom_pos d (0,0,0)%Z i) (atom_pos d (nth nc (f_origins d) (0,0,0)%Z) j)
  = vmul s (sc_vecs d).

Lemma atom_pos_latv d nc m j :
  atom_pos d (latv d nc m) j
  = vadd (atom_pos d (nth nc (f_origins d) (0,0,0)%Z) j) (vmul (zvec m) (sc_vecs d)).
Proof.
  unfold atom_pos, latv. rewrite zvec_add.
  unfold sc_vecs. pose proof (vmul_zmul3 m (f_sc d) (f_cell d)) as HM.
  destruct (zrows (f_sc d)) as [[za zb] zc] eqn:E. rewrite <- HM.
  rewrite !vmul_vadd.
  destruct (vmul (nth j (f_atom_r d) vzero) (f_cell d)) as [[? ?] ?].
  destruct (vmul (zvec (nth nc (f_origins d) (0,0,0)%Z)) (f_cell d)) as [[? ?] ?].
  destruct (vmul (zvec (zmul3 m (f_sc d))) (f_cell d)) as [[? ?] ?].
  simpl. apply V3_eq; ring.
Qed.

Lemma Rabs_bound x c : Rabs x <= c <-> - c <= x <= c.
Proof. unfold Rabs. destruct (Rcase_abs x); split; lra. Qed.

(** Dot product of two combinations of orthogonal edges. *)
Lemma dot_orth S s f :
  (let '(a, b, c) := S in dot a b = 0 /\ dot b c = 0 /\ dot a c = 0) ->
  dot (vmul s S) (vmul f S)
  = let '(a, b, c) := S in let '(x, y, z) := s in let '(u, v, w) := f in
    x * u * dot a a + y * v * dot b b + z * w * dot c c.
Proof.
  destruct S as [[[[a1 a2] a3] [[b1 b2] b3]] [[c1 c2] c3]], s as [[x y] z], f as [[u v] w].
  cbn. intros [H1 [H2 H3]].
  transitivity (x * u * (a1 * a1 + a2 * a2 + a3 * a3) + y * v * (b1 * b1 + b2 * b2 + b3 * b3) +
    z * w * (c1 * c1 + c2 * c2 + c3 * c3)
    + (x * v + y * u) * (a1 * b1 + a2 * b2 + a3 * b3)
    + (y * w + z * v) * (b1 * c1 + b2 * c2 + b3 * c3)
    + (x * w + z * u) * (a1 * c1 + a2 * c2 + a3 * c3)); [ring|].
  rewrite H1, H2, H3. ring.
Qed.

Lemma near_orth d i j nc m s : orthogonal_supercell d -> orth_coord d i j nc s ->
  near_image d i j (latv d nc m) <->
  (let '(x, y, z) := vsub s (zvec m) in
   Rabs x <= 1/2 + 1/1000 /\ Rabs y <= 1/2 + 1/1000 /\ Rabs z <= 1/2 + 1/1000).
Proof.
  intros Ho Hs. rewrite near_image_ws. rewrite atom_pos_latv.
  assert (vsub (atom_pos d (0, 0, 0)%Z i)
     (vadd (atom_pos d (nth nc (f_origins d) (0, 0, 0)%Z) j) (vmul (zvec m) (sc_vecs d)))
     = vmul (vsub s (zvec m)) (sc_vecs d)) as Hv.
  { unfold orth_coord in Hs.
    assert (vmul (vsub s (zvec m)) (sc_vecs d)
            = vsub (vmul s (sc_vecs d)) (vmul (zvec m) (sc_vecs d))) as ->.
    { destruct s as [[? ?] ?], (zvec m) as [[? ?] ?],
        (sc_vecs d) as [[[[? ?] ?] [[? ?] ?]] [[? ?] ?]]. cbn. apply V3_eq; ring. }
    rewrite <- Hs.
    destruct (atom_pos d (0, 0, 0)%Z i) as [[? ?] ?], (atom_pos d (nth nc (f_origins d) (0, 0, 0)%Z) j) as [[? ?] ?],
      (vmul (zvec m) (sc_vecs d)) as [[? ?] ?]. cbn. apply V3_eq; ring. }
  rewrite Hv. clear Hv Hs. set (v := vsub s (zvec m)). clearbody v.
  unfold orthogonal_supercell in Ho.
  destruct (sc_vecs d) as [[A B] Cc] eqn:ES. destruct v as [[x y] z].
  destruct Ho as [H1 [H2 [H3 [Ha [Hb Hc]]]]].
  assert (forall f, dot (vmul (x, y, z) (A, B, Cc)) (vmul f (A, B, Cc))
     = let '(u, v, w) := f in x * u * dot A A + y * v * dot B B + z * w * dot Cc Cc) as D1.
  { intros f. rewrite dot_orth by auto. destruct f as [[? ?] ?]. reflexivity. }
  assert (forall f, dot (vmul f (A, B, Cc)) (vmul f (A, B, Cc))
     = let '(u, v, w) := f in u * u * dot A A + v * v * dot B B + w * w * dot Cc Cc) as D2.
  { intros f. rewrite dot_orth by auto. destruct f as [[? ?] ?]. reflexivity. }
  set (k := 1/2 + 1/1000) in *.
  assert (0 < k) as Hk by (unfold k; lra). clearbody k.
  split.
  - intros H.
    pose proof (H (1,0,0)%Z ltac:(unfold ws_frac; simpl; tauto)) as Hx.
    pose proof (H (0,1,0)%Z ltac:(unfold ws_frac; simpl; tauto)) as Hy.
    pose proof (H (0,0,1)%Z ltac:(unfold ws_frac; simpl; tauto)) as Hz.
    cbv zeta in Hx, Hy, Hz. rewrite D1, D2 in Hx, Hy, Hz. cbn [zvec] in *.
    rewrite !Rabs_bound in *. split; [|split]; nra.
  - intros [Hx [Hy Hz]] f Hf. cbv zeta. rewrite D1, D2.
    rewrite !Rabs_bound in *.
    unfold ws_frac in Hf. cbn [tl] in Hf.
    assert (0 <= dot A A * (k - x)) by nra. assert (0 <= dot A A * (k + x)) by nra.
    assert (0 <= dot B B * (k - y)) by nra. assert (0 <= dot B B * (k + y)) by nra.
    assert (0 <= dot Cc Cc * (k - z)) by nra. assert (0 <= dot Cc Cc * (k + z)) by nra.
    repeat (destruct Hf as [<-|Hf]; [cbn [zvec]; nra|]). destruct Hf.
Qed.

Lemma inside_coord d nc i j : home_first d -> inside_supercell d -> (0 < n_cells d)%nat ->
  (nc < n_cells d)%nat -> (i < n_atoms d)%nat -> (j < n_atoms d)%nat ->
  exists s, orth_coord d i j nc s /\ let '(x, y, z) := s in
    -1 < x < 1 /\ -1 < y < 1 /\ -1 < z < 1.
Proof.
  intros Hh Hin Hn0 Hnc Hi Hj.
  destruct (Hin 0%nat i Hn0 Hi) as [[[x y] z] [E [Hx [Hy Hz]]]].
  destruct (Hin nc j Hnc Hj) as [[[x' y'] z'] [E' [Hx' [Hy' Hz']]]].
  unfold home_first in Hh. rewrite Hh in E.
  exists (x - x', y - y', z - z'). split; [|split; [|split]; lra].
  unfold orth_coord. rewrite E, E'.
  destruct (sc_vecs d) as [[[[? ?] ?] [[? ?] ?]] [[? ?] ?]]. cbn. apply V3_eq; ring.
Qed.

Lemma round_near x : -1 < x < 1 -> exists m : Z, (-1 <= m <= 1)%Z /\ Rabs (x - IZR m) <= 1/2 + 1/1000.
Proof.
  intros H. destruct (Rle_dec x (-1/2)).
  - exists (-1)%Z. split; [lia|]. apply Rabs_bound. lra.
  - destruct (Rle_dec x (1/2)).
    + exists 0%Z. split; [lia|]. apply Rabs_bound. lra.
    + exists 1%Z. split; [lia|]. apply Rabs_bound. lra.
Qed.

Lemma IZR_small m x : -1 < x < 1 -> Rabs (x - IZR m) <= 1/2 + 1/1000 -> (-2 <= m <= 2)%Z.
Proof.
  intros Hx H. apply Rabs_bound in H. 
  assert (IZR m < 2) by lra. assert (-2 < IZR m) by lra.
  apply lt_IZR in H0. apply lt_IZR in H1. lia.
Qed.

Lemma orth_complete d :
  home_first d -> orthogonal_supercell d -> inside_supercell d -> search_complete d.
Proof.
  intros Hh Ho Hin nc i j m Hnc Hi Hj Hnear.
  destruct (inside_coord d nc i j) as [[[x y] z] [Hs [Hx [Hy Hz]]]]; try assumption; [lia|].
  apply (near_orth d i j nc m _ Ho Hs) in Hnear. destruct m as [[m1 m2] m3]. cbn in Hnear.
  destruct Hnear as [H1 [H2 H3]].
  repeat split; (eapply IZR_small; [|eassumption]; assumption) || idtac.
  all: first [apply (IZR_small m1 x)|apply (IZR_small m2 y)|apply (IZR_small m3 z)]; assumption.
Qed.

Lemma orth_nonempty d nc i j :
  home_first d -> orthogonal_supercell d -> inside_supercell d ->
  (nc < n_cells d)%nat -> (i < n_atoms d)%nat -> (j < n_atoms d)%nat ->
  ms d 2 nc i j <> [].
Proof.
  intros Hh Ho Hin Hnc Hi Hj E.
  destruct (inside_coord d nc i j) as [[[x y] z] [Hs [Hx [Hy Hz]]]]; try assumption; [lia|].
  destruct (round_near x Hx) as [m1 [B1 R1]], (round_near y Hy) as [m2 [B2 R2]],
    (round_near z Hz) as [m3 [B3 R3]].
  assert (In (m1, m2, m3) (ms d 2 nc i j)) as Hin'.
  { apply ms_In; [exact Hh|]. split; [cbn; lia|].
    apply (near_orth d i j nc _ _ Ho Hs). cbn. auto. }
  rewrite E in Hin'. exact Hin'.
Qed.

Lemma latv_inj d nc x y : orthogonal_supercell d -> latv d nc x = latv d nc y -> x = y.
Proof.
  intros Ho E. unfold latv in E.
  assert (zmul3 x (f_sc d) = zmul3 y (f_sc d)) as E'.
  { destruct (nth nc (f_origins d) (0,0,0)%Z) as [[? ?] ?],
      (zmul3 x (f_sc d)) as [[? ?] ?], (zmul3 y (f_sc d)) as [[? ?] ?].
    cbn -[Z.add] in E. injection E as E1 E2 E3. f_equal; [f_equal|]; lia. }
  pose proof (vmul_zmul3 x (f_sc d) (f_cell d)) as Hx.
  pose proof (vmul_zmul3 y (f_sc d) (f_cell d)) as Hy.
  rewrite E' in Hx. rewrite Hx in Hy. clear Hx E E'.
  change (vmul (zvec x) (sc_vecs d) = vmul (zvec y) (sc_vecs d)) in Hy.
  unfold orthogonal_supercell in Ho. destruct (sc_vecs d) as [[A B] Cc].
  destruct Ho as [H1 [H2 [H3 [Ha [Hb Hc]]]]].
  pose proof (fun f => dot_orth (A, B, Cc) (zvec x) f (conj H1 (conj H2 H3))) as Dx.
  pose proof (fun f => dot_orth (A, B, Cc) (zvec y) f (conj H1 (conj H2 H3))) as Dy.
  rewrite Hy in Dx. destruct x as [[x1 x2] x3], y as [[y1 y2] y3]. cbn [zvec] in Dx, Dy.
  pose proof (Dx (1,0,0)) as X1. rewrite (Dy (1,0,0)) in X1.
  pose proof (Dx (0,1,0)) as X2. rewrite (Dy (0,1,0)) in X2.
  pose proof (Dx (0,0,1)) as X3. rewrite (Dy (0,0,1)) in X3.
  assert (IZR x1 = IZR y1) by (apply (Rmult_eq_reg_r (dot A A)); lra).
  assert (IZR x2 = IZR y2) by (apply (Rmult_eq_reg_r (dot B B)); lra).
  assert (IZR x3 = IZR y3) by (apply (Rmult_eq_reg_r (dot Cc Cc)); lra).
  f_equal; [f_equal|]; apply eq_IZR; assumption.
Qed.

Lemma interp_fourier d junk :
  home_first d -> orthogonal_supercell d -> inside_supercell d ->
  exists L : nat -> nat -> nat -> list Z3,
    (forall nc i j, (nc < n_cells d)%nat -> (i < n_atoms d)%nat -> (j < n_atoms d)%nat ->
       L nc i j <> [] /\ NoDup (L nc i j) /\
       (forall r, In r (L nc i j) <->
          same_mod_supercell (f_sc d) (nth nc (f_origins d) (0,0,0)%Z) r /\
          near_image d i j r)) /\
    (forall q a b, (a < 3 * n_atoms d)%nat -> (b < 3 * n_atoms d)%nat ->
       interp_dyn_mat d junk q a b = fourier_sum d L q a b).
Proof.
  intros Hh Ho Hin. exists (fun nc i j => map (latv d nc) (ms d 2 nc i j)). split.
  - intros nc i j Hnc Hi Hj. split.
    + intros E. apply map_eq_nil in E. revert E. apply orth_nonempty; assumption.
    + split.
      { apply NoDup_map_inj; [|apply ms_NoDup]. intros x y _ _ E. exact (latv_inj d nc x y Ho E). }
      intros r. rewrite in_map_iff. split.
      * intros [m [<- Hm]]. apply ms_In in Hm; [|exact Hh]. split; [exists m; reflexivity|tauto].
      * intros [[m ->] Hn]. exists m. split; [reflexivity|]. apply ms_In; [exact Hh|].
        split; [|exact Hn]. apply (orth_complete d Hh Ho Hin nc i j); assumption.
  - intros q a b Ha Hb. rewrite interp_closed by assumption. unfold fourier_sum.
    apply Csum_ext. intros nc _. rewrite Csum_map, map_length. reflexivity.
Qed.

(** ** Any supercell wide enough for the search *)
Lemma latv_inj' d nc x y : det3 (zrows (f_sc d)) <> 0 -> latv d nc x = latv d nc y -> x = y.
Proof.
  intros Hdet E. unfold latv in E.
  assert (E' : zmul3 x (f_sc d) = zmul3 y (f_sc d)).
  { destruct (nth nc (f_origins d) (0,0,0)%Z) as [[? ?] ?], (zmul3 x (f_sc d)) as [[? ?] ?], (zmul3 y (f_sc d)) as [[? ?] ?].
    cbn -[Z.add] in E. injection E as E1 E2 E3. f_equal; [f_equal|]; lia. }
  destruct x as [[x1 x2] x3], y as [[y1 y2] y3].
  destruct (f_sc d) as [[[[a1 a2] a3] [[b1 b2] b3]] [[c1 c2] c3]]. cbn [zmul3] in E'. injection E' as E1 E2 E3.
  pose (D := (a1 * (b2 * c3 - b3 * c2) - a2 * (b1 * c3 - b3 * c1) + a3 * (b1 * c2 - b2 * c1))%Z).
  assert (HD : D <> 0%Z).
  { intros HD. apply Hdet. cbn [zrows zvec det3]. rewrite <- !mult_IZR, <- !minus_IZR, <- !mult_IZR, <- minus_IZR, <- plus_IZR.
    fold D. rewrite HD. reflexivity. }
  assert (F1 : (D * (x1 - y1) = 0)%Z).
  { replace (D * (x1 - y1))%Z with ((x1*a1+x2*b1+x3*c1 - (y1*a1+y2*b1+y3*c1)) * (b2*c3-b3*c2)
      + (x1*a2+x2*b2+x3*c2 - (y1*a2+y2*b2+y3*c2)) * (b3*c1-b1*c3) + (x1*a3+x2*b3+x3*c3 - (y1*a3+y2*b3+y3*c3)) * (b1*c2-b2*c1))%Z by (unfold D; ring).
    rewrite E1, E2, E3. ring. }
  assert (F2 : (D * (x2 - y2) = 0)%Z).
  { replace (D * (x2 - y2))%Z with ((x1*a1+x2*b1+x3*c1 - (y1*a1+y2*b1+y3*c1)) * (c2*a3-c3*a2)
      + (x1*a2+x2*b2+x3*c2 - (y1*a2+y2*b2+y3*c2)) * (c3*a1-c1*a3) + (x1*a3+x2*b3+x3*c3 - (y1*a3+y2*b3+y3*c3)) * (c1*a2-c2*a1))%Z by (unfold D; ring).
    rewrite E1, E2, E3. ring. }
  assert (F3 : (D * (x3 - y3) = 0)%Z).
  { replace (D * (x3 - y3))%Z with ((x1*a1+x2*b1+x3*c1 - (y1*a1+y2*b1+y3*c1)) * (a2*b3-a3*b2)
      + (x1*a2+x2*b2+x3*c2 - (y1*a2+y2*b2+y3*c2)) * (a3*b1-a1*b3) + (x1*a3+x2*b3+x3*c3 - (y1*a3+y2*b3+y3*c3)) * (a1*b2-a2*b1))%Z by (unfold D; ring).
    rewrite E1, E2, E3. ring. }
  apply Z.mul_eq_0 in F1. apply Z.mul_eq_0 in F2. apply Z.mul_eq_0 in F3. f_equal; [f_equal|]; lia.
Qed.

Lemma closest_near d s i j r : closest_image d s i j r -> near_image d i j r.
Proof.
  intros [[m ->] Hmin] f _. cbv zeta. set (u := vsub _ _).
  assert (key : forall sg : Z, (sg = 1 \/ sg = -1)%Z -> 2 * (IZR sg * dot u (vmul (zvec f) (sc_vecs d))) <= dot (vmul (zvec f) (sc_vecs d)) (vmul (zvec f) (sc_vecs d))).
  { intros sg Hsg.
    pose (m' := zadd3 m (let '(a, b, c) := f in (sg * a, sg * b, sg * c)%Z)).
    specialize (Hmin (zadd3 s (zmul3 m' (f_sc d)))). assert (H := Hmin (ex_intro _ m' eq_refl)). clear Hmin.
    assert (E : vsub (atom_pos d (0,0,0)%Z i) (atom_pos d (zadd3 s (zmul3 m' (f_sc d))) j) = vsub u (vscal (IZR sg) (vmul (zvec f) (sc_vecs d)))).
    { unfold u, atom_pos, m', sc_vecs. destruct s as [[s1 s2] s3], m as [[m1 m2] m3], f as [[f1 f2] f3].
      destruct (f_sc d) as [[[[a1 a2] a3] [[b1 b2] b3]] [[c1 c2] c3]].
      destruct (f_cell d) as [[[[x1 x2] x3] [[y1 y2] y3]] [[z1 z2] z3]].
      destruct (nth i (f_atom_r d) vzero) as [[? ?] ?], (nth j (f_atom_r d) vzero) as [[? ?] ?].
      cbn [zadd3 zmul3 zvec zrows vmul vadd vsub vscal].
      rewrite !plus_IZR, !mult_IZR, !plus_IZR, !mult_IZR. apply V3_eq; ring. }
    rewrite E in H. fold u in H. set (w := vmul (zvec f) (sc_vecs d)) in *. clearbody u w. clear E.
    unfold norm in H. apply sqrt_le_0 in H; try (apply dot_self_nonneg).
    destruct u as [[u1 u2] u3], w as [[w1 w2] w3]. cbn [dot vsub vscal] in *.
    destruct Hsg as [-> | ->]; lra. }
  pose proof (key 1%Z (or_introl eq_refl)) as K1. pose proof (key (-1)%Z (or_intror eq_refl)) as K2.
  set (w := vmul (zvec f) (sc_vecs d)) in *. apply Rabs_bound.
  assert (0 <= dot w w) by apply dot_self_nonneg. lra.
Qed.

Lemma interp_fourier_general d junk :
  home_first d -> search_complete d -> det3 (zrows (f_sc d)) <> 0 ->
  exists L : nat -> nat -> nat -> list Z3,
    (forall nc i j, (nc < n_cells d)%nat -> (i < n_atoms d)%nat -> (j < n_atoms d)%nat ->
       NoDup (L nc i j) /\
       (forall r, In r (L nc i j) <->
          same_mod_supercell (f_sc d) (nth nc (f_origins d) (0,0,0)%Z) r /\ near_image d i j r) /\
       (forall r, closest_image d (nth nc (f_origins d) (0,0,0)%Z) i j r -> In r (L nc i j))) /\
    (forall q a b, (a < 3 * n_atoms d)%nat -> (b < 3 * n_atoms d)%nat ->
       interp_dyn_mat d junk q a b = fourier_sum d L q a b).
Proof.
  intros Hh Hs Hdet. exists (fun nc i j => map (latv d nc) (ms d 2 nc i j)). split.
  - intros nc i j Hnc Hi Hj.
    assert (HI : forall r, In r (map (latv d nc) (ms d 2 nc i j)) <->
          same_mod_supercell (f_sc d) (nth nc (f_origins d) (0,0,0)%Z) r /\ near_image d i j r).
    { intros r. rewrite in_map_iff. split.
      * intros [m [<- Hm]]. apply ms_In in Hm; [|exact Hh]. split; [exists m; reflexivity|tauto].
      * intros [[m ->] Hn]. exists m. split; [reflexivity|]. apply ms_In; [exact Hh|].
        split; [|exact Hn]. apply (Hs nc i j); assumption. }
    split; [|split; [exact HI|]].
    + apply NoDup_map_inj; [|apply ms_NoDup]. intros x y _ _ E. exact (latv_inj' d nc x y Hdet E).
    + intros r Hr. apply HI. split; [exact (proj1 Hr)|exact (closest_near _ _ _ _ _ Hr)].
  - intros q a b Ha Hb. rewrite interp_closed by assumption. unfold fourier_sum.
    apply Csum_ext. intros nc _. rewrite Csum_map, map_length. reflexivity.
Qed.

Lemma Csum_const {A} (l : list A) (c : C) : Csum l (fun _ => c) = Cscal (INR (length l)) c.
Proof. apply C_eq; simpl; apply Sum_const. Qed.

Lemma gamma_sum d junk a b :
  home_first d -> orthogonal_supercell d -> inside_supercell d ->
  (a < 3 * n_atoms d)%nat -> (b < 3 * n_atoms d)%nat ->
  interp_dyn_mat d junk vzero a b = RtoC (sumn (n_cells d) (fun nc => f_fc d nc a b)).
Proof.
  intros Hh Ho Hin Ha Hb. rewrite interp_closed by assumption.
  transitivity (Csum (seq 0 (n_cells d)) (fun nc => RtoC (f_fc d nc a b))).
  - apply Csum_ext. intros nc Hnc. apply in_seq in Hnc.
    assert (ms d 2 nc (a/3) (b/3) <> [])%nat as Hne.
    { apply orth_nonempty; try assumption; try lia; apply div3_lt; assumption. }
    destruct (ms d 2 nc (a/3) (b/3))%nat as [|m l] eqn:E; [contradiction|].
    assert (0 < INR (length (m :: l))) as Hpos.
    { apply lt_0_INR. simpl. lia. }
    rewrite (Csum_ext _ _ (fun _ => Cscal (f_fc d nc a b / INR (length (m :: l))) Cone)).
    2:{ intros x _. f_equal. rewrite <- cis_0. f_equal.
        destruct (zvec (latv d nc x)) as [[? ?] ?]. cbn. ring. }
    rewrite Csum_const. apply C_eq; cbn -[INR length]; [field; lra|ring].
  - apply C_eq; simpl; [reflexivity|apply Sum_zero].
Qed.

(** ** A skewed supercell whose middle cell has no image in the search range *)
Definition skew : fcdata :=
  mkFC ((1,0,0), (0,1,0), (0,0,1)) [(0,0,0)]
       ((1,0,0), (10,3,0), (0,0,1))%Z [(0,0,0); (4,1,0); (7,2,0)]%Z
       (fun nc a b => if Nat.eqb nc 1 then 1 else 0).

Lemma skew_empty : ms skew 2 1 0 0 = [].
Proof.
  destruct (ms skew 2 1 0 0) as [|m l] eqn:E; [reflexivity|exfalso].
  assert (In m (ms skew 2 1 0 0)) as Hin by (rewrite E; left; reflexivity).
  apply ms_In in Hin; [|reflexivity]. destruct m as [[m1 m2] m3]. destruct Hin as [Hr Hn].
  cbn [in_search_range] in Hr.
  specialize (Hn (1,0,0)%Z ltac:(split; [discriminate|lia])). cbv zeta in Hn.
  assert (dot (vsub (atom_pos skew (0, 0, 0)%Z 0) (atom_pos skew (latv skew 1 (m1, m2, m3)) 0))
              (vmul (zvec (1, 0, 0)%Z) (sc_vecs skew)) = IZR (- 4 - m1 - 10 * m2)) as E1.
  { unfold atom_pos, latv, skew, sc_vecs. cbn -[IZR Z.mul Z.add]. 
    rewrite !minus_IZR, !plus_IZR, !mult_IZR. ring. }
  assert (dot (vmul (zvec (1, 0, 0)%Z) (sc_vecs skew)) (vmul (zvec (1, 0, 0)%Z) (sc_vecs skew)) = 1) as E2.
  { unfold skew, sc_vecs. cbn -[IZR]. ring. }
  rewrite E1, E2 in Hn. apply Rabs_bound in Hn.
  assert (IZR (-4 - m1 - 10 * m2) < 1) as B1 by lra. assert (-1 < IZR (-4 - m1 - 10 * m2)) as B2 by lra.
  apply lt_IZR in B1. apply lt_IZR in B2. lia.
Qed.

Lemma skew_classes : forall x y, In x (f_origins skew) -> In y (f_origins skew) ->
  same_mod_supercell (f_sc skew) x y -> x = y.
Proof.
  intros x y Hx Hy [[[m1 m2] m3] E].
  cbn in Hx, Hy. unfold skew in E. cbn -[Z.mul Z.add] in E.
  destruct Hx as [<-|[<-|[<-|[]]]], Hy as [<-|[<-|[<-|[]]]]; try reflexivity; exfalso;
    unfold zadd3 in E; pose proof (f_equal (fun p : Z3 => snd (fst p)) E) as E2;
    cbn [fst snd] in E2; lia.
Qed.

Lemma skew_dropped junk q a b : (a < 3)%nat -> (b < 3)%nat ->
  interp_dyn_mat skew junk q a b = Czero.
Proof.
  intros Ha Hb. rewrite interp_closed by (cbn; lia).
  assert (a / 3 = 0)%nat as -> by (apply Nat.div_small; exact Ha).
  assert (b / 3 = 0)%nat as -> by (apply Nat.div_small; exact Hb).
  apply Csum_zero. intros nc Hnc. apply in_seq in Hnc. cbn in Hnc.
  destruct nc as [|[|[|nc]]]; [| |  |lia].
  - apply Csum_zero. intros m _. apply C_eq; cbn -[INR]; unfold Rdiv; ring.
  - rewrite skew_empty. apply Csum_nil.
  - apply Csum_zero. intros m _. apply C_eq; cbn -[INR]; unfold Rdiv; ring.
Qed.
