(** Supercells for which the image search is wide enough (C10). *)
From Verif Require Import Base Cpx Vec3 M_grid M_cell M_dynmat S_dynmat L_dynmat2 L_near.
Open Scope R_scope.

Lemma coord_sq (a b c : V3) (x y z : R) : let n1 := cross b c in let n2 := cross c a in let n3 := cross a b in
  let V := dot a n1 in let v := vmul (x, y, z) (a, b, c) in
  V * V * x = dot n1 n1 * dot v a + dot n1 n2 * dot v b + dot n1 n3 * dot v c /\
  V * V * y = dot n2 n1 * dot v a + dot n2 n2 * dot v b + dot n2 n3 * dot v c /\
  V * V * z = dot n3 n1 * dot v a + dot n3 n2 * dot v b + dot n3 n3 * dot v c.
Proof. destruct a as [[a1 a2] a3], b as [[b1 b2] b3], c as [[c1 c2] c3]. cbn. repeat split; ring. Qed.
Lemma coord_small k1 k2 k3 u v w A B C0 W x : W * x = k1 * u + k2 * v + k3 * w -> Rabs u <= (1/2 + 1/1000) * A -> Rabs v <= (1/2 + 1/1000) * B -> Rabs w <= (1/2 + 1/1000) * C0 ->
  0 <= W -> Rabs k1 * A + Rabs k2 * B + Rabs k3 * C0 < 399/100 * W -> Rabs x < 2.
Proof.
  intros E U V0 W0 P Q.
  assert (T : W * Rabs x <= Rabs k1 * Rabs u + Rabs k2 * Rabs v + Rabs k3 * Rabs w).
  { rewrite <- (Rabs_pos_eq W) by exact P. rewrite <- Rabs_mult, E, <- !Rabs_mult. eapply Rle_trans; [apply Rabs_triang|]. apply Rplus_le_compat_r. apply Rabs_triang. }
  pose proof (Rmult_le_compat_l (Rabs k1) _ _ (Rabs_pos k1) U). pose proof (Rmult_le_compat_l (Rabs k2) _ _ (Rabs_pos k2) V0). pose proof (Rmult_le_compat_l (Rabs k3) _ _ (Rabs_pos k3) W0).
  assert (Wp : 0 < W). { destruct P as [P|P]; [exact P|]. subst W. assert (0 <= Rabs k1 * A + Rabs k2 * B + Rabs k3 * C0); [|lra].
    assert (0 <= A) by (pose proof (Rabs_pos u); lra). assert (0 <= B) by (pose proof (Rabs_pos v); lra). assert (0 <= C0) by (pose proof (Rabs_pos w); lra).
    pose proof (Rmult_le_pos _ _ (Rabs_pos k1) H2). pose proof (Rmult_le_pos _ _ (Rabs_pos k2) H3). pose proof (Rmult_le_pos _ _ (Rabs_pos k3) H4). lra. }
  apply (Rmult_lt_reg_l W); [exact Wp|]. lra.
Qed.
Lemma shift_small m x : -1 < x < 1 -> Rabs (x - IZR m) < 2 -> (-2 <= m <= 2)%Z.
Proof.
  intros Hx H. unfold Rabs in H. assert (-3 < IZR m < 3) by (destruct (Rcase_abs (x - IZR m)); lra).
  destruct H0 as [P Q]. apply lt_IZR in P. apply lt_IZR in Q. lia.
Qed.
Lemma compact_complete d : home_first d -> compact_supercell d -> inside_supercell d -> search_complete d.
Proof.
  intros Hh Ho Hin nc i j m Hnc Hi Hj Hnear.
  destruct (inside_coord d nc i j) as [[[x y] z] [Hs [Hx [Hy Hz]]]]; try assumption; [lia|].
  change (zadd3 _ _) with (latv d nc m) in Hnear. pose proof (Hnear (1,0,0)%Z ltac:(split; [discriminate|lia])) as N1. pose proof (Hnear (0,1,0)%Z ltac:(split; [discriminate|lia])) as N2. pose proof (Hnear (0,0,1)%Z ltac:(split; [discriminate|lia])) as N3.
  clear Hnear. cbv zeta in N1, N2, N3. rewrite atom_pos_latv in N1, N2, N3. unfold orth_coord in Hs.
  assert (Hv : vsub (atom_pos d (0, 0, 0)%Z i) (vadd (atom_pos d (nth nc (f_origins d) (0, 0, 0)%Z) j) (vmul (zvec m) (sc_vecs d))) = vmul (vsub (x, y, z) (zvec m)) (sc_vecs d)).
  { assert (vmul (vsub (x, y, z) (zvec m)) (sc_vecs d) = vsub (vmul (x, y, z) (sc_vecs d)) (vmul (zvec m) (sc_vecs d))) as ->.
    { destruct (zvec m) as [[? ?] ?], (sc_vecs d) as [[[[? ?] ?] [[? ?] ?]] [[? ?] ?]]. cbn. apply V3_eq; ring. }
    rewrite <- Hs. destruct (atom_pos d (0, 0, 0)%Z i) as [[? ?] ?], (atom_pos d (nth nc (f_origins d) (0, 0, 0)%Z) j) as [[? ?] ?], (vmul (zvec m) (sc_vecs d)) as [[? ?] ?]. cbn. apply V3_eq; ring. }
  rewrite Hv in N1, N2, N3. clear Hv Hs. unfold compact_supercell in Ho. destruct (sc_vecs d) as [[a b] c]. destruct m as [[m1 m2] m3]. cbn [zvec vsub] in N1, N2, N3.
  replace (vmul (IZR 1, IZR 0, IZR 0) (a, b, c)) with a in N1 by (destruct a as [[? ?] ?], b as [[? ?] ?], c as [[? ?] ?]; cbn; apply V3_eq; ring).
  replace (vmul (IZR 0, IZR 1, IZR 0) (a, b, c)) with b in N2 by (destruct a as [[? ?] ?], b as [[? ?] ?], c as [[? ?] ?]; cbn; apply V3_eq; ring).
  replace (vmul (IZR 0, IZR 0, IZR 1) (a, b, c)) with c in N3 by (destruct a as [[? ?] ?], b as [[? ?] ?], c as [[? ?] ?]; cbn; apply V3_eq; ring).
  destruct (coord_sq a b c (x - IZR m1) (y - IZR m2) (z - IZR m3)) as (E1 & E2 & E3).
  pose proof (Ho _ (or_introl eq_refl)) as H1. pose proof (Ho _ (or_intror (or_introl eq_refl))) as H2. pose proof (Ho _ (or_intror (or_intror eq_refl))) as H3. clear Ho.
  assert (P : 0 <= dot a (cross b c) * dot a (cross b c)) by apply Rle_0_sqr.
  repeat split.
  1-2: apply (shift_small m1 x Hx); exact (coord_small _ _ _ _ _ _ _ _ _ _ _ E1 N1 N2 N3 P H1).
  1-2: apply (shift_small m2 y Hy); exact (coord_small _ _ _ _ _ _ _ _ _ _ _ E2 N1 N2 N3 P H2).
  1-2: apply (shift_small m3 z Hz); exact (coord_small _ _ _ _ _ _ _ _ _ _ _ E3 N1 N2 N3 P H3).
Qed.
(** Boxes *)
Lemma orthogonal_compact d : orthogonal_supercell d -> compact_supercell d.
Proof.
  unfold orthogonal_supercell, compact_supercell. destruct (sc_vecs d) as [[a b] c]. intros (H1 & H2 & H3 & Ha & Hb & Hc).
  assert (L : forall u v w t, dot (cross u v) (cross w t) = dot u w * dot v t - dot u t * dot v w) by (intros [[? ?] ?] [[? ?] ?] [[? ?] ?] [[? ?] ?]; cbn; ring).
  assert (Sy : forall u v, dot u v = dot v u) by (intros [[? ?] ?] [[? ?] ?]; cbn; ring).
  assert (W : dot a (cross b c) * dot a (cross b c) = dot a a * dot b b * dot c c).
  { transitivity (dot a a * (dot b b * dot c c - dot b c * dot b c) - dot a b * (dot a b * dot c c - dot b c * dot a c) + dot a c * (dot a b * dot b c - dot b b * dot a c)).
    - destruct a as [[? ?] ?], b as [[? ?] ?], c as [[? ?] ?]. cbn. ring.
    - rewrite H1, H2, H3. ring. }
  assert (P : 0 < dot a a * dot b b * dot c c) by (apply Rmult_lt_0_compat; [apply Rmult_lt_0_compat|]; assumption).
  intros n Hn. rewrite W. destruct Hn as [-> | [-> | ->]]; rewrite !L, ?(Sy c a), ?(Sy c b), ?(Sy b a), ?H1, ?H2, ?H3.
  - rewrite ?Rmult_0_l, ?Rmult_0_r, ?Rminus_0_r, ?Rminus_0_l, ?Ropp_0, ?Rabs_R0. rewrite Rabs_pos_eq by (apply Rmult_le_pos; lra). lra.
  - rewrite ?Rmult_0_l, ?Rmult_0_r, ?Rminus_0_r, ?Rminus_0_l, ?Ropp_0, ?Rabs_R0. rewrite Rabs_pos_eq by (apply Rmult_le_pos; lra). lra.
  - rewrite ?Rmult_0_l, ?Rmult_0_r, ?Rminus_0_r, ?Rminus_0_l, ?Ropp_0, ?Rabs_R0. rewrite Rabs_pos_eq by (apply Rmult_le_pos; lra). lra.
Qed.
(** In terms of lengths and angles *)
Lemma compact_gram d a b c aa bb cc ab ac bc : sc_vecs d = (a, b, c) -> dot a a = aa -> dot b b = bb -> dot c c = cc -> dot a b = ab -> dot a c = ac -> dot b c = bc ->
  let W := aa * (bb * cc - bc * bc) - ab * (ab * cc - bc * ac) + ac * (ab * bc - bb * ac) in
  Rabs (bb * cc - bc * bc) * aa + Rabs (bc * ac - ab * cc) * bb + Rabs (ab * bc - bb * ac) * cc < 399/100 * W ->
  Rabs (bc * ac - ab * cc) * aa + Rabs (aa * cc - ac * ac) * bb + Rabs (ab * ac - aa * bc) * cc < 399/100 * W ->
  Rabs (ab * bc - bb * ac) * aa + Rabs (ab * ac - aa * bc) * bb + Rabs (aa * bb - ab * ab) * cc < 399/100 * W -> compact_supercell d.
Proof.
  intros E <- <- <- <- <- <- W H1 H2 H3. unfold compact_supercell. rewrite E.
  assert (L : forall u v w t, dot (cross u v) (cross w t) = dot u w * dot v t - dot u t * dot v w) by (intros [[? ?] ?] [[? ?] ?] [[? ?] ?] [[? ?] ?]; cbn; ring).
  assert (Sy : forall u v, dot u v = dot v u) by (intros [[? ?] ?] [[? ?] ?]; cbn; ring).
  assert (HW : dot a (cross b c) * dot a (cross b c) = W) by (unfold W; destruct a as [[? ?] ?], b as [[? ?] ?], c as [[? ?] ?]; cbn; ring).
  intros n Hn. rewrite HW. clearbody W.
  assert (X12 : dot (cross b c) (cross c a) = dot b c * dot a c - dot a b * dot c c) by (rewrite L, (Sy c a), (Sy b a); ring).
  assert (X13 : dot (cross b c) (cross a b) = dot a b * dot b c - dot b b * dot a c) by (rewrite L, (Sy c a), (Sy b a), (Sy c b); ring).
  assert (X23 : dot (cross c a) (cross a b) = dot a b * dot a c - dot a a * dot b c) by (rewrite L, (Sy c a), (Sy c b); ring).
  assert (X11 : dot (cross b c) (cross b c) = dot b b * dot c c - dot b c * dot b c) by (rewrite L, (Sy c b); ring).
  assert (X22 : dot (cross c a) (cross c a) = dot a a * dot c c - dot a c * dot a c) by (rewrite L, (Sy c a); ring).
  assert (X33 : dot (cross a b) (cross a b) = dot a a * dot b b - dot a b * dot a b) by (rewrite L, (Sy b a); ring).
  destruct Hn as [-> | [-> | ->]].
  - rewrite X11, X12, X13. exact H1.
  - rewrite (Sy (cross c a) (cross b c)), X12, X22, X23. exact H2.
  - rewrite (Sy (cross a b) (cross b c)), (Sy (cross a b) (cross c a)), X13, X23, X33. exact H3.
Qed.
(** Three equal edges with equal angles between them, the cosine of which is t: cubic, and the
    face-centred (t = 1/2) and body-centred (t = -1/3) cells *)
Lemma rhombohedral_compact d a b c g t : sc_vecs d = (a, b, c) -> 0 < g -> -37/100 <= t <= 2/3 ->
  dot a a = g -> dot b b = g -> dot c c = g -> dot a b = t * g -> dot a c = t * g -> dot b c = t * g -> compact_supercell d.
Proof.
  intros E G T Ha Hb Hc Hab Hac Hbc.
  assert (P1 : 0 <= 1 - t * t) by nra.
  assert (G2 : 0 < g * g) by nra. assert (G3 : 0 < g * g * g) by (apply Rmult_lt_0_compat; assumption).
  assert (A1 : Rabs (g * g - t * g * (t * g)) = g * g * (1 - t * t)) by (rewrite Rabs_pos_eq; nra).
  assert (A2 : Rabs (t * g * (t * g) - t * g * g) = g * g * ((1 - t) * Rabs t)).
  { replace (t * g * (t * g) - t * g * g) with (- (g * g * ((1 - t) * t))) by ring. rewrite Rabs_Ropp, !Rabs_mult. rewrite (Rabs_pos_eq g), (Rabs_pos_eq (1 - t)) by lra. ring. }
  assert (A3 : Rabs (t * g * (t * g) - g * (t * g)) = g * g * ((1 - t) * Rabs t)) by (rewrite <- A2; f_equal; ring).
  assert (K : (1 - t * t) + 2 * ((1 - t) * Rabs t) < 399/100 * ((1 - t) * (1 - t) * (1 + 2 * t))).
  { assert (H : 1 + t + 2 * Rabs t < 399/100 * ((1 - t) * (1 + 2 * t))) by (unfold Rabs; destruct (Rcase_abs t); nra). nra. }
  assert (K3 := Rmult_lt_compat_l _ _ _ G3 K).
  eapply (compact_gram d a b c g g g (t * g) (t * g) (t * g)); try eassumption; cbv zeta; rewrite ?A1, ?A2, ?A3; lra.
Qed.
(** One edge perpendicular to the two others, and these reduced: hexagonal and monoclinic cells *)
Lemma upright_c_compact d a b c : sc_vecs d = (a, b, c) -> 0 < dot a a -> 0 < dot b b -> 0 < dot c c -> dot a c = 0 -> dot b c = 0 ->
  2 * Rabs (dot a b) <= dot a a -> 2 * Rabs (dot a b) <= dot b b -> compact_supercell d.
Proof.
  intros E A B C0 Hac Hbc H1 H2. set (aa := dot a a) in *. set (bb := dot b b) in *. set (cc := dot c c) in *. set (ab := dot a b) in *.
  assert (Q : ab * ab = Rabs ab * Rabs ab) by (unfold Rabs; destruct (Rcase_abs ab); ring). pose proof (Rabs_pos ab) as P.
  assert (M : 4 * (ab * ab) <= aa * bb) by (rewrite Q; nra).
  assert (N : 0 < aa * bb) by nra. assert (N1 : 2 * (Rabs ab * bb) <= aa * bb) by nra. assert (N2 : 2 * (Rabs ab * aa) <= aa * bb) by nra.
  assert (X1 : Rabs (bb * cc - 0 * 0) = bb * cc) by (rewrite Rabs_pos_eq; nra).
  assert (X2 : Rabs (0 * 0 - ab * cc) = Rabs ab * cc) by (replace (0 * 0 - ab * cc) with (- (ab * cc)) by ring; rewrite Rabs_Ropp, Rabs_mult, (Rabs_pos_eq cc) by lra; reflexivity).
  assert (X3 : Rabs (ab * 0 - bb * 0) = 0) by (replace (ab * 0 - bb * 0) with 0 by ring; apply Rabs_R0).
  assert (X4 : Rabs (ab * 0 - aa * 0) = 0) by (replace (ab * 0 - aa * 0) with 0 by ring; apply Rabs_R0).
  assert (X5 : Rabs (aa * cc - 0 * 0) = aa * cc) by (rewrite Rabs_pos_eq; nra).
  assert (X6 : Rabs (aa * bb - ab * ab) = aa * bb - ab * ab) by (apply Rabs_pos_eq; nra).
  assert (M' := Rmult_le_compat_r cc _ _ (Rlt_le _ _ C0) M). assert (N1' := Rmult_le_compat_r cc _ _ (Rlt_le _ _ C0) N1). assert (N2' := Rmult_le_compat_r cc _ _ (Rlt_le _ _ C0) N2). assert (N' := Rmult_lt_compat_r cc _ _ C0 N).
  eapply (compact_gram d a b c aa bb cc ab 0 0); try eassumption; try reflexivity; cbv zeta; rewrite ?X1, ?X2, ?X3, ?X4, ?X5, ?X6; lra.
Qed.
Lemma upright_b_compact d a b c : sc_vecs d = (a, b, c) -> 0 < dot a a -> 0 < dot b b -> 0 < dot c c -> dot a b = 0 -> dot b c = 0 ->
  2 * Rabs (dot a c) <= dot a a -> 2 * Rabs (dot a c) <= dot c c -> compact_supercell d.
Proof.
  intros E A B C0 Hab Hbc H1 H2. set (aa := dot a a) in *. set (bb := dot b b) in *. set (cc := dot c c) in *. set (ac := dot a c) in *.
  assert (Q : ac * ac = Rabs ac * Rabs ac) by (unfold Rabs; destruct (Rcase_abs ac); ring). pose proof (Rabs_pos ac) as P.
  assert (M : 4 * (ac * ac) <= aa * cc) by (rewrite Q; nra).
  assert (N : 0 < aa * cc) by nra. assert (N1 : 2 * (Rabs ac * cc) <= aa * cc) by nra. assert (N2 : 2 * (Rabs ac * aa) <= aa * cc) by nra.
  assert (X1 : Rabs (bb * cc - 0 * 0) = bb * cc) by (rewrite Rabs_pos_eq; nra).
  assert (X2 : Rabs (0 * ac - 0 * cc) = 0) by (replace (0 * ac - 0 * cc) with 0 by ring; apply Rabs_R0).
  assert (X3 : Rabs (0 * 0 - bb * ac) = Rabs ac * bb) by (replace (0 * 0 - bb * ac) with (- (ac * bb)) by ring; rewrite Rabs_Ropp, Rabs_mult, (Rabs_pos_eq bb) by lra; reflexivity).
  assert (X4 : Rabs (0 * ac - aa * 0) = 0) by (replace (0 * ac - aa * 0) with 0 by ring; apply Rabs_R0).
  assert (X5 : Rabs (aa * cc - ac * ac) = aa * cc - ac * ac) by (apply Rabs_pos_eq; nra).
  assert (X6 : Rabs (aa * bb - 0 * 0) = aa * bb) by (rewrite Rabs_pos_eq; nra).
  assert (M' := Rmult_le_compat_r bb _ _ (Rlt_le _ _ B) M). assert (N1' := Rmult_le_compat_r bb _ _ (Rlt_le _ _ B) N1). assert (N2' := Rmult_le_compat_r bb _ _ (Rlt_le _ _ B) N2). assert (N' := Rmult_lt_compat_r bb _ _ B N).
  eapply (compact_gram d a b c aa bb cc 0 ac 0); try eassumption; try reflexivity; cbv zeta; rewrite ?X1, ?X2, ?X3, ?X4, ?X5, ?X6; lra.
Qed.
(** Face-centred rock salt, one cell *)
Definition face_centred : fcdata :=
  mkFC ((0,1,1), (1,0,1), (1,1,0)) [(0,0,0); (1/2,1/2,1/2)] ((1,0,0), (0,1,0), (0,0,1))%Z [(0,0,0)]%Z (fun _ a b => if Nat.eqb a b then 1 else 0).
Lemma face_vecs : sc_vecs face_centred = ((0,1,1), (1,0,1), (1,1,0)).
Proof. unfold sc_vecs, face_centred. cbn. f_equal; [f_equal|]; apply V3_eq; ring. Qed.
Lemma face_compact : compact_supercell face_centred.
Proof. apply (rhombohedral_compact face_centred _ _ _ 2 (1/2) face_vecs); try lra; cbn; lra. Qed.
Lemma face_inside : inside_supercell face_centred.
Proof.
  intros c j C0 J. change (n_cells face_centred) with 1%nat in C0. change (n_atoms face_centred) with 2%nat in J. assert (c = 0)%nat as -> by lia. destruct j as [|[|]]; [| |lia].
  - exists (0, 0, 0). rewrite face_vecs. split; [unfold atom_pos; cbn; apply V3_eq; ring|lra].
  - exists (1/2, 1/2, 1/2). rewrite face_vecs. split; [unfold atom_pos; cbn; apply V3_eq; field|lra].
Qed.
Lemma compact_shapes d a b c : sc_vecs d = (a, b, c) -> 0 < dot a a -> 0 < dot b b -> 0 < dot c c ->
  (dot a b = 0 /\ dot a c = 0 /\ dot b c = 0) \/
  (exists t, -37/100 <= t <= 2/3 /\ dot a a = dot b b /\ dot b b = dot c c /\ dot a b = t * dot a a /\ dot a c = t * dot a a /\ dot b c = t * dot a a) \/
  (dot a c = 0 /\ dot b c = 0 /\ 2 * Rabs (dot a b) <= dot a a /\ 2 * Rabs (dot a b) <= dot b b) \/
  (dot a b = 0 /\ dot b c = 0 /\ 2 * Rabs (dot a c) <= dot a a /\ 2 * Rabs (dot a c) <= dot c c) -> compact_supercell d.
Proof.
  intros E A B C0 [(H1 & H2 & H3) | [(t & T & H1 & H2 & H3 & H4 & H5) | [(H1 & H2 & H3 & H4) | (H1 & H2 & H3 & H4)]]].
  - apply orthogonal_compact. unfold orthogonal_supercell. rewrite E. tauto.
  - apply (rhombohedral_compact d a b c (dot a a) t); try assumption; congruence.
  - apply (upright_c_compact d a b c); assumption.
  - apply (upright_b_compact d a b c); assumption.
Qed.
