(** Every atom of the supercell has a near image: stepping towards the home atom by supercell
    points ends.  At gamma nothing is lost, whatever the shape of the supercell (C10, C15). *)
From Verif Require Import Base Cpx Vec3 M_grid L_grid M_dynmat L_dynmat S_dynmat L_dynmat2.
Open Scope R_scope.

Lemma list_floor (l : list R) : exists del, 0 < del /\ forall x, In x l -> 0 < x -> del <= x.
Proof.
  induction l as [|y l (del & P & H)]; [exists 1; split; [lra|intros x []]|].
  destruct (Rlt_dec 0 y) as [Y|Y].
  - exists (Rmin y del). split; [apply Rmin_pos; assumption|]. intros x [<-|I] Px; [apply Rmin_l|]. apply Rle_trans with del; [apply Rmin_r|auto].
  - exists del. split; [exact P|]. intros x [<-|I] Px; [lra|auto].
Qed.
Lemma list_check {A} (P : A -> Prop) (l : list A) : (forall a, P a \/ ~ P a) -> (forall a, In a l -> P a) \/ exists a, In a l /\ ~ P a.
Proof.
  intros D. induction l as [|a l [H|(b & I & N)]].
  - left. intros a [].
  - destruct (D a) as [Pa|Na]; [left; intros b [<-|I]; auto|right; exists a; split; [left; reflexivity|exact Na]].
  - right. exists b. split; [right; exact I|exact N].
Qed.
Lemma neighbour_list : exists l : list Z3, forall f, neighbour f -> In f l.
Proof.
  exists (sc_image_r 1). intros [[x y] z] [_ H]. destruct (sc_image_r_spec 1) as [_ S]; [lia|]. apply S. exact H.
Qed.

Definition near_to (S : M3) (u : V3) : Prop :=
  forall f, neighbour f -> let w := vmul (zvec f) S in Rabs (dot u w) <= (1/2 + 1/1000) * dot w w.
Definition zneg (f : Z3) : Z3 := let '(x, y, z) := f in (- x, - y, - z)%Z.

Lemma descent S (l : list Z3) del : (forall f, neighbour f -> In f l) -> 0 < del ->
  (forall f, In f l -> 0 < dot (vmul (zvec f) S) (vmul (zvec f) S) / 500 -> del <= dot (vmul (zvec f) S) (vmul (zvec f) S) / 500) ->
  forall k u, dot u u <= INR k * del -> exists m : Z3, near_to S (vsub u (vmul (zvec m) S)).
Proof.
  intros HL Hd HF. induction k as [|k IH]; intros u U.
  - exists (0,0,0)%Z. assert (u = vzero) as ->.
    { cbn [INR] in U. destruct u as [[x y] z]. cbn [dot] in U. assert (x = 0 /\ y = 0 /\ z = 0) as (-> & -> & ->) by (repeat split; nra). reflexivity. }
    intros f _. cbv zeta. set (w := vmul (zvec f) S). assert (E : dot (vsub vzero (vmul (zvec (0,0,0)%Z) S)) w = 0).
    { unfold vzero. destruct S as [[[[a1 a2] a3] [[b1 b2] b3]] [[c1 c2] c3]], w as [[w1 w2] w3]. cbn. ring. }
    rewrite E, Rabs_R0. pose proof (dot_self_nonneg w). lra.
  - destruct (list_check (fun f => neighbour f -> Rabs (dot u (vmul (zvec f) S)) <= (1/2 + 1/1000) * dot (vmul (zvec f) S) (vmul (zvec f) S)) l) as [G|(f & If & N)].
    { intros f. destruct (Rle_dec (Rabs (dot u (vmul (zvec f) S))) ((1/2 + 1/1000) * dot (vmul (zvec f) S) (vmul (zvec f) S))) as [D|D]; [left; intros _; exact D|].
      assert (Dn : neighbour f \/ ~ neighbour f).
      { destruct f as [[x y] z]. unfold neighbour. destruct (Z.eq_dec x 0), (Z.eq_dec y 0), (Z.eq_dec z 0); try (right; intros [A _]; apply A; congruence);
        (assert (E : ((-1 <= x <= 1 /\ -1 <= y <= 1 /\ -1 <= z <= 1) \/ ~ (-1 <= x <= 1 /\ -1 <= y <= 1 /\ -1 <= z <= 1))%Z) by lia; destruct E as [E|E]; [left; split; [congruence|exact E]|right; intros [_ A]; exact (E A)]). }
      destruct Dn as [Dn|Dn]; [right; intros A; exact (D (A Dn))|left; intros A; contradiction]. }
    + exists (0,0,0)%Z. intros f Hf. cbv zeta. replace (vsub u (vmul (zvec (0,0,0)%Z) S)) with u; [apply G; [apply HL; exact Hf|exact Hf]|].
      destruct u as [[x y] z], S as [[[[a1 a2] a3] [[b1 b2] b3]] [[c1 c2] c3]]. cbn. apply V3_eq; ring.
    + set (w := vmul (zvec f) S) in *. assert (V : (1/2 + 1/1000) * dot w w < Rabs (dot u w)) by (apply Rnot_le_lt; intros A; apply N; intros _; exact A). clear N.
      pose proof (dot_self_nonneg w) as W0.
      assert (W : 0 < dot w w).
      { destruct (Rle_lt_or_eq_dec _ _ W0) as [W|W]; [exact W|]. exfalso. assert (w = vzero) as Ew.
        { clear - W. destruct w as [[x y] z]. cbn [dot] in W. assert (x = 0 /\ y = 0 /\ z = 0) as (-> & -> & ->) by (repeat split; nra). reflexivity. }
        rewrite Ew in V. destruct u as [[x y] z]. cbn in V. replace (x * 0 + y * 0 + z * 0) with 0 in V by ring. rewrite Rabs_R0 in V. lra. }
      pose proof (HF f If ltac:(fold w; lra)) as F. fold w in F. rewrite S_INR in U.
      assert (Hm : exists g : Z3, dot (vsub u (vmul (zvec g) S)) (vsub u (vmul (zvec g) S)) <= INR k * del).
      { destruct (Rle_dec 0 (dot u w)) as [P|P].
        - exists f. fold w. rewrite Rabs_right in V by lra. clearbody w. destruct u as [[u1 u2] u3], w as [[w1 w2] w3]. cbn [dot vsub] in *. lra.
        - exists (zneg f). replace (vmul (zvec (zneg f)) S) with (vopp w).
          + rewrite Rabs_left in V by lra. clearbody w. destruct u as [[u1 u2] u3], w as [[w1 w2] w3]. cbn [dot vsub vopp vscal] in *. lra.
          + unfold w. destruct f as [[x y] z], S as [[[[a1 a2] a3] [[b1 b2] b3]] [[c1 c2] c3]]. cbn [zneg zvec vmul vopp vscal vadd]. rewrite !opp_IZR. apply V3_eq; ring. }
      destruct Hm as (g & Hg). destruct (IH _ Hg) as (m & Hm). exists (zadd3 g m).
      replace (vsub u (vmul (zvec (zadd3 g m)) S)) with (vsub (vsub u (vmul (zvec g) S)) (vmul (zvec m) S)); [exact Hm|].
      destruct u as [[u1 u2] u3], g as [[g1 g2] g3], m as [[m1 m2] m3], S as [[[[a1 a2] a3] [[b1 b2] b3]] [[c1 c2] c3]]. cbn [zadd3 zvec vmul vscal vadd vsub]. rewrite !plus_IZR. apply V3_eq; ring.
Qed.
Lemma near_exists S u : exists m : Z3, near_to S (vsub u (vmul (zvec m) S)).
Proof.
  destruct neighbour_list as (l & HL). destruct (list_floor (map (fun f => dot (vmul (zvec f) S) (vmul (zvec f) S) / 500) l)) as (del & Hd & HF).
  assert (exists k, dot u u / del < INR k) as (k & K).
  { exists (Z.to_nat (up (dot u u / del))). destruct (archimed (dot u u / del)) as [A _]. apply Rlt_le_trans with (1 := A). rewrite INR_IZR_INZ. apply IZR_le. lia. }
  apply (descent S l del HL Hd) with (k := k).
  - intros f If P. apply HF; [apply in_map_iff; exists f; split; [reflexivity|exact If]|exact P].
  - apply Rmult_lt_compat_r with (r := del) in K; [|exact Hd]. unfold Rdiv in K. rewrite Rmult_assoc, Rinv_l in K by lra. lra.
Qed.

(** Every cell of every pair of atoms has a near image. *)
Lemma near_image_exists d s i j : exists r, same_mod_supercell (f_sc d) s r /\ near_image d i j r.
Proof.
  destruct (near_exists (sc_vecs d) (vsub (atom_pos d (0,0,0)%Z i) (atom_pos d s j))) as (m & Hm).
  exists (zadd3 s (zmul3 m (f_sc d))). split; [exists m; reflexivity|]. intros f Hf. specialize (Hm f Hf). cbv zeta in *.
  replace (vsub (atom_pos d (0,0,0)%Z i) (atom_pos d (zadd3 s (zmul3 m (f_sc d))) j)) with (vsub (vsub (atom_pos d (0,0,0)%Z i) (atom_pos d s j)) (vmul (zvec m) (sc_vecs d))); [exact Hm|].
  unfold atom_pos, sc_vecs. destruct s as [[s1 s2] s3], m as [[m1 m2] m3]. destruct (f_sc d) as [[[[a1 a2] a3] [[b1 b2] b3]] [[c1 c2] c3]].
  destruct (f_cell d) as [[[[x1 x2] x3] [[y1 y2] y3]] [[z1 z2] z3]]. destruct (nth i (f_atom_r d) vzero) as [[? ?] ?], (nth j (f_atom_r d) vzero) as [[? ?] ?].
  cbn [zadd3 zmul3 zvec zrows vmul vadd vsub vscal]. rewrite !plus_IZR, ?mult_IZR, ?plus_IZR, ?mult_IZR. apply V3_eq; ring.
Qed.
Lemma ms_nonempty d nc i j : home_first d -> search_complete d -> (nc < n_cells d)%nat -> (i < n_atoms d)%nat -> (j < n_atoms d)%nat -> ms d 2 nc i j <> [].
Proof.
  intros Hh Hs A B C0 E. destruct (near_image_exists d (nth nc (f_origins d) (0,0,0)%Z) i j) as (r & (m & ->) & N).
  assert (I : In m (ms d 2 nc i j)) by (apply ms_In; [exact Hh|]; split; [exact (Hs nc i j m A B C0 N)|exact N]). rewrite E in I. destruct I.
Qed.
Lemma gamma_sum_general d junk a b : home_first d -> search_complete d -> (a < 3 * n_atoms d)%nat -> (b < 3 * n_atoms d)%nat ->
  interp_dyn_mat d junk vzero a b = RtoC (sumn (n_cells d) (fun nc => f_fc d nc a b)).
Proof.
  intros Hh Hs Ha Hb. rewrite interp_closed by assumption.
  transitivity (Csum (seq 0 (n_cells d)) (fun nc => RtoC (f_fc d nc a b))).
  - apply Csum_ext. intros nc Hnc. apply in_seq in Hnc.
    assert (ms d 2 nc (a/3) (b/3) <> [])%nat as Hne.
    { apply ms_nonempty; try assumption; try lia; apply div3_lt; assumption. }
    destruct (ms d 2 nc (a/3) (b/3))%nat as [|m l] eqn:E; [contradiction|].
    assert (0 < INR (length (m :: l))) as Hpos by (apply lt_0_INR; simpl; lia).
    rewrite (Csum_ext _ _ (fun _ => Cscal (f_fc d nc a b / INR (length (m :: l))) Cone)).
    2:{ intros x _. f_equal. rewrite <- cis_0. f_equal.
        destruct (zvec (latv d nc x)) as [[? ?] ?]. cbn. ring. }
    rewrite Csum_const. apply C_eq; cbn -[INR length]; [field; lra|ring].
  - apply C_eq; simpl; [reflexivity|apply Sum_zero].
Qed.
Lemma fourier_shared d junk : home_first d -> search_complete d -> det3 (zrows (f_sc d)) <> 0 ->
  exists L : nat -> nat -> nat -> list Z3,
    (forall nc i j, (nc < n_cells d)%nat -> (i < n_atoms d)%nat -> (j < n_atoms d)%nat ->
       L nc i j <> [] /\ NoDup (L nc i j) /\
       (forall r, In r (L nc i j) <->
          same_mod_supercell (f_sc d) (nth nc (f_origins d) (0,0,0)%Z) r /\ near_image d i j r) /\
       (forall r, closest_image d (nth nc (f_origins d) (0,0,0)%Z) i j r -> In r (L nc i j))) /\
    (forall q a b, (a < 3 * n_atoms d)%nat -> (b < 3 * n_atoms d)%nat ->
       interp_dyn_mat d junk q a b = fourier_sum d L q a b).
Proof.
  intros Hh Hs Hd. destruct (interp_fourier_general d junk Hh Hs Hd) as (L & H & F). exists L. split; [|exact F].
  intros nc i j A B C0. destruct (H nc i j A B C0) as (H1 & H2 & H3). split; [|split; [exact H1|split; [exact H2|exact H3]]].
  intros E. destruct (near_image_exists d (nth nc (f_origins d) (0,0,0)%Z) i j) as (r & Hr). apply H2 in Hr. rewrite E in Hr. destruct Hr.
Qed.

(** A supercell that is not right-angled and in range of the search *)
Definition slanted : fcdata :=
  mkFC ((1,0,0), (1/2,1,0), (0,0,1)) [(0,0,0)] ((1,0,0), (0,1,0), (0,0,1))%Z [(0,0,0)]%Z (fun _ a b => if Nat.eqb a b then 1 else 0).
Lemma slanted_complete : search_complete slanted.
Proof.
  intros nc i j [[x y] z] A B C0 N. change (n_cells slanted) with 1%nat in A. change (n_atoms slanted) with 1%nat in B, C0.
  assert (nc = 0 /\ i = 0 /\ j = 0)%nat as (-> & -> & ->) by lia.
  assert (N1 := N (1,0,0)%Z). assert (N2 := N (0,1,0)%Z). assert (N3 := N (0,0,1)%Z). clear N.
  specialize (N1 ltac:(split; [discriminate|lia])). specialize (N2 ltac:(split; [discriminate|lia])). specialize (N3 ltac:(split; [discriminate|lia])).
  unfold atom_pos, sc_vecs, slanted in *. cbn [f_atom_r f_cell f_sc f_origins nth zmul3 zadd3 zrows zvec vmul vadd vsub vscal dot] in *.
  rewrite ?plus_IZR, ?mult_IZR in *. rewrite ?plus_IZR, ?mult_IZR in *.
  set (a := IZR x) in *. set (b := IZR y) in *. set (c := IZR z) in *.
  match type of N1 with Rabs ?u <= ?v => assert (K1 : Rabs (a + b / 2) <= 501/1000) by (rewrite <- Rabs_Ropp; replace (- (a + b / 2)) with u by field; lra) end.
  match type of N2 with Rabs ?u <= ?v => assert (K2 : Rabs (a / 2 + 5 * b / 4) <= 501/800) by (rewrite <- Rabs_Ropp; replace (- (a / 2 + 5 * b / 4)) with u by field; lra) end.
  match type of N3 with Rabs ?u <= ?v => assert (K3 : Rabs c <= 501/1000) by (rewrite <- Rabs_Ropp; replace (- c) with u by field; lra) end.
  clear N1 N2 N3. assert (B1 : -1 < b < 1 /\ -1 < c < 1) by (unfold Rabs in *; destruct (Rcase_abs (a + b / 2)), (Rcase_abs (a / 2 + 5 * b / 4)), (Rcase_abs c); lra).
  assert (Ey : y = 0%Z) by (unfold b in B1; destruct B1 as [[P Q] _]; apply lt_IZR in P; apply lt_IZR in Q; lia).
  assert (Ez : z = 0%Z) by (unfold c in B1; destruct B1 as [_ [P Q]]; apply lt_IZR in P; apply lt_IZR in Q; lia).
  subst y z. assert (B2 : -1 < a < 1) by (unfold b in *; unfold Rabs in K1; destruct (Rcase_abs (a + 0 / 2)); lra).
  assert (Ex : x = 0%Z) by (unfold a in B2; destruct B2 as [P Q]; apply lt_IZR in P; apply lt_IZR in Q; lia). subst x. cbv. repeat split; discriminate.
Qed.
Lemma slanted_not_orthogonal : ~ orthogonal_supercell slanted.
Proof. unfold orthogonal_supercell, sc_vecs, slanted. cbn. intros (H & _). lra. Qed.
