(** Lemmas for C12: the C dynamical matrix and gradient are the Python ones. *)
From Verif Require Import Base Cpx Vec3 M_grid M_cell M_qpts M_dynmat M_dipole M_cext
  L_dynmat L_dynmat2 L_cmem.
Open Scope R_scope.

(** ** array layouts *)
Lemma divmod_at a d r : (r < d)%nat -> ((a * d + r) / d = a /\ (a * d + r) mod d = r)%nat.
Proof.
  intros H. split.
  - rewrite Nat.div_add_l by lia. rewrite Nat.div_small by exact H. lia.
  - rewrite Nat.add_comm, Nat.mod_add by lia. apply Nat.mod_small. exact H.
Qed.
Lemma pack2_at {A} d1 (f : nat -> nat -> A) a b k : (b < d1)%nat -> k = (a * d1 + b)%nat -> pack2 d1 f k = f a b.
Proof. intros Hb ->. unfold pack2. destruct (divmod_at a d1 b Hb) as [-> ->]. reflexivity. Qed.
Lemma pack3_at {A} d1 d2 (f : nat -> nat -> nat -> A) a b c k : (b < d1)%nat -> (c < d2)%nat ->
  k = (a * (d1 * d2) + b * d2 + c)%nat -> pack3 d1 d2 f k = f a b c.
Proof.
  intros Hb Hc ->. unfold pack3.
  replace (a * (d1 * d2) + b * d2 + c)%nat with ((a * d1 + b) * d2 + c)%nat by ring.
  destruct (divmod_at (a * d1 + b) d2 c Hc) as [-> ->].
  destruct (divmod_at a d1 b Hb) as [_ ->].
  replace ((a * d1 + b) * d2 + c)%nat with (a * (d1 * d2) + (b * d2 + c))%nat by ring.
  assert (H : (b * d2 + c < d1 * d2)%nat) by nia.
  destruct (divmod_at a (d1 * d2) (b * d2 + c) H) as [-> _]. reflexivity.
Qed.
Lemma pack4_at {A} d1 d2 d3 (f : nat -> nat -> nat -> nat -> A) a b c e k :
  (b < d1)%nat -> (c < d2)%nat -> (e < d3)%nat ->
  k = (a * (d1 * d2 * d3) + b * (d2 * d3) + c * d3 + e)%nat -> pack4 d1 d2 d3 f k = f a b c e.
Proof.
  intros Hb Hc He ->. unfold pack4.
  replace (a * (d1 * d2 * d3) + b * (d2 * d3) + c * d3 + e)%nat
    with (((a * d1 + b) * d2 + c) * d3 + e)%nat by ring.
  destruct (divmod_at ((a * d1 + b) * d2 + c) d3 e He) as [-> ->].
  destruct (divmod_at (a * d1 + b) d2 c Hc) as [_ ->].
  replace (((a * d1 + b) * d2 + c) * d3 + e)%nat with ((a * d1 + b) * (d2 * d3) + (c * d3 + e))%nat by ring.
  assert (H : (c * d3 + e < d2 * d3)%nat) by nia.
  destruct (divmod_at (a * d1 + b) (d2 * d3) (c * d3 + e) H) as [-> _].
  destruct (divmod_at a d1 b Hb) as [_ ->].
  replace ((a * d1 + b) * (d2 * d3) + (c * d3 + e))%nat
    with (a * (d1 * d2 * d3) + (b * (d2 * d3) + (c * d3 + e)))%nat by ring.
  assert (H' : (b * (d2 * d3) + (c * d3 + e) < d1 * d2 * d3)%nat) by nia.
  destruct (divmod_at a (d1 * d2 * d3) _ H') as [-> _]. reflexivity.
Qed.
Lemma even_2k k : Nat.even (2 * k) = true.
Proof. apply Nat.even_spec. exists k. reflexivity. Qed.
Lemma odd_2k k : Nat.even (2 * k + 1) = false.
Proof. rewrite <- Nat.negb_odd. apply negb_false_iff. apply Nat.odd_spec. exists k. reflexivity. Qed.
Lemma cpack_re f k : cpack f (2 * k) = re (f k).
Proof.
  unfold cpack. rewrite even_2k. f_equal. f_equal. rewrite Nat.mul_comm. apply Nat.div_mul. lia.
Qed.
Lemma cpack_im f k : cpack f (2 * k + 1) = im (f k).
Proof.
  unfold cpack. rewrite odd_2k. f_equal. f_equal.
  destruct (divmod_at k 2 1 ltac:(lia)) as [H _]. rewrite Nat.mul_comm. exact H.
Qed.
Lemma cget_cpack f k : cget (cpack f) k = f k.
Proof. unfold cget. rewrite cpack_re, cpack_im. destruct (f k); reflexivity. Qed.

Lemma cget_at (m : mem) k z : m (2 * k)%nat = re z -> m (2 * k + 1)%nat = im z -> cget m k = z.
Proof. intros H1 H2. unfold cget. rewrite H1, H2. destruct z; reflexivity. Qed.

(** ** image table *)
Lemma max_images_ge d t nc i j : (nc < n_cells d)%nat -> (i < n_atoms d)%nat -> (j < n_atoms d)%nat ->
  (length (t nc i j) <= max_images d t)%nat.
Proof.
  intros Hnc Hi Hj. unfold max_images.
  assert (Hin : In (length (t nc i j)) (flat_map (fun nc => flat_map (fun i => map (fun j => length (t nc i j))
    (seq 0 (n_atoms d))) (seq 0 (n_atoms d))) (seq 0 (n_cells d)))).
  { apply in_flat_map. exists nc. split; [apply in_seq; lia|]. apply in_flat_map. exists i.
    split; [apply in_seq; lia|]. apply in_map_iff. exists j. split; [reflexivity|apply in_seq; lia]. }
  revert Hin. induction (flat_map _ _) as [|x l IH]; [intros []|]. cbn [fold_right].
  intros [->|H]; [lia|]. specialize (IH H). lia.
Qed.

Lemma sc_image_i_nth d t nc i j k : (k < length (t nc i j))%nat ->
  nth k (sc_image_i d t nc i j) 0%Z = Z.of_nat (nth k (t nc i j) 0%nat).
Proof.
  intros H. unfold sc_image_i. rewrite app_nth1 by (rewrite map_length; exact H).
  apply (map_nth Z.of_nat (t nc i j) 0%nat).
Qed.

Lemma Sum_nth {A} (l : list A) d0 (f : A -> R) : Sum (seq 0 (length l)) (fun k => f (nth k l d0)) = Sum l f.
Proof.
  induction l as [|x l IH]; [reflexivity|].
  cbn [length seq]. rewrite !Sum_cons. cbn [nth]. f_equal. rewrite <- IH.
  rewrite <- seq_shift, Sum_map. reflexivity.
Qed.

Section Dyn.
Variables (d : fcdata) (s : Z) (t : imtab) (fcw : nat -> nat -> nat -> R) (mass : nat -> R)
  (dip : option dipin) (asr : option (nat -> nat -> C)) (grad : bool) (q : V3).
Hypothesis Hok : tab_ok t s.
Let n := n_atoms d.
Let A := marshal d s t fcw mass dip asr grad.

Lemma c_phase_lat nc k : (nc < n_cells d)%nat -> (k < length (sc_image_r s))%nat ->
  c_phase (vmem q) (ca_cell_ogs A) (ca_sc_ogs A) (Z.of_nat k) nc
  = (cos (2 * PI * dot q (zvec (lat d s nc k))), - sin (2 * PI * dot q (zvec (lat d s nc k)))).
Proof.
  intros Hnc Hk. unfold c_phase.
  assert (E : for_ 0 3 (fun l r => r + vmem q l * IZR (ca_sc_ogs A (Z.to_nat (3 * Z.of_nat k + Z.of_nat l))
                + ca_cell_ogs A (3 * nc + l))) 0 = dot q (zvec (lat d s nc k))).
  { rewrite for_sum. cbn [Nat.sub seq]. rewrite !Sum_cons, Sum_nil.
    assert (Hs : forall l, (l < 3)%nat -> ca_sc_ogs A (Z.to_nat (3 * Z.of_nat k + Z.of_nat l))
                = zcomp (zmul3 (nth k (sc_image_r s) (0,0,0)%Z) (f_sc d)) l).
    { intros l Hl. unfold A. cbn [marshal ca_sc_ogs]. rewrite (pack2_at 3 _ k l) by lia.
      unfold sc_origins. rewrite (map_nth_indep _ _ _ (0,0,0)%Z) by exact Hk. reflexivity. }
    assert (Hc : forall l, (l < 3)%nat -> ca_cell_ogs A (3 * nc + l)
                = zcomp (nth nc (f_origins d) (0,0,0)%Z) l).
    { intros l Hl. unfold A. cbn [marshal ca_cell_ogs]. rewrite (pack2_at 3 _ nc l) by lia. reflexivity. }
    rewrite !Hs, !Hc by lia. unfold lat.
    destruct (zmul3 _ _) as [[x y] z], (nth nc (f_origins d) (0,0,0)%Z) as [[u v] w], q as [[q1 q2] q3].
    unfold vmem. cbn [comp zcomp zx zy zz zadd3 zvec dot]. rewrite !plus_IZR. ring. }
  rewrite E. reflexivity.
Qed.

Lemma nims_at nc i j : (i < n)%nat -> (j < n)%nat ->
  Z.to_nat (ca_nims A (nc * (n * n) + i * n + j)%nat) = length (t nc i j).
Proof.
  intros Hi Hj. unfold A. cbn [marshal ca_nims]. fold n. rewrite (pack3_at n n _ nc i j) by (assumption || ring).
  apply Nat2Z.id.
Qed.

Lemma ims_at nc i j k : (nc < n_cells d)%nat -> (i < n)%nat -> (j < n)%nat -> (k < length (t nc i j))%nat ->
  ca_ims A (nc * (n * n * max_images d t) + i * (n * max_images d t) + j * max_images d t + k)%nat
  = Z.of_nat (nth k (t nc i j) 0%nat).
Proof.
  intros Hnc Hi Hj Hk. unfold A. cbn [marshal ca_ims]. fold n.
  pose proof (max_images_ge d t nc i j Hnc Hi Hj).
  rewrite (pack4_at n n (max_images d t) _ nc i j k) by (lia || ring).
  apply sc_image_i_nth. exact Hk.
Qed.

Lemma aoc_at nc i j k l : (nc < n_cells d)%nat -> (i < n)%nat -> (j < n)%nat -> (k < length (t nc i j))%nat ->
  (l < 3)%nat ->
  ca_aoc A (3 * (nc * (n * n * max_images d t) + i * (n * max_images d t) + j * max_images d t + k) + l)%nat
  = comp (vmul (zvec (lat d s nc (nth k (t nc i j) 0%nat))) (f_cell d)) l.
Proof.
  intros Hnc Hi Hj Hk Hl. unfold A. cbn [marshal ca_aoc]. fold n.
  pose proof (max_images_ge d t nc i j Hnc Hi Hj).
  rewrite (pack2_at 3 _ (nc * (n * n * max_images d t) + i * (n * max_images d t) + j * max_images d t + k) l) by lia.
  rewrite (pack4_at n n (max_images d t) _ nc i j k) by (lia || ring).
  rewrite sc_image_i_nth by exact Hk. rewrite all_origins_cart_lat; [reflexivity|].
  apply (Hok nc i j). apply nth_In. exact Hk.
Qed.

Let cs (nc i j k : nat) := cos (2 * PI * dot q (zvec (lat d s nc (nth k (t nc i j) 0%nat)))).
Let sn (nc i j k : nat) := sin (2 * PI * dot q (zvec (lat d s nc (nth k (t nc i j) 0%nat)))).
Let rc (nc i j k l : nat) := comp (vmul (zvec (lat d s nc (nth k (t nc i j) 0%nat))) (f_cell d)) l.

Lemma image_sums_closed nc i j : (nc < n_cells d)%nat -> (i < n)%nat -> (j < n)%nat ->
  let '(p0, p1, rs) := c_image_sums (vmem q) n (max_images d t) (ca_nims A) (ca_ims A) (ca_cell_ogs A)
                         (ca_sc_ogs A) (ca_aoc A) grad i j nc in
  p0 = Sum (seq 0 (length (t nc i j))) (cs nc i j) /\
  p1 = Sum (seq 0 (length (t nc i j))) (fun k => - sn nc i j k) /\
  (grad = true -> forall l, (l < 3)%nat ->
     rs (2 * l)%nat = Sum (seq 0 (length (t nc i j))) (fun k => - sn nc i j k * rc nc i j k l) /\
     rs (2 * l + 1)%nat = Sum (seq 0 (length (t nc i j))) (fun k => cs nc i j k * rc nc i j k l)).
Proof.
  intros Hnc Hi Hj. unfold c_image_sums. rewrite nims_at by assumption.
  set (K := length (t nc i j)).
  pose proof (for_ind (fun k st => let '(p0, p1, rs) := st in
    p0 = Sum (seq 0 k) (cs nc i j) /\ p1 = Sum (seq 0 k) (fun k => - sn nc i j k) /\
    (grad = true -> forall l, (l < 3)%nat ->
     rs (2 * l)%nat = Sum (seq 0 k) (fun k => - sn nc i j k * rc nc i j k l) /\
     rs (2 * l + 1)%nat = Sum (seq 0 k) (fun k => cs nc i j k * rc nc i j k l))) 0%nat K) as I.
  cbv beta in I. apply I; clear I; [lia| |].
  - cbn [seq]. rewrite !Sum_nil. repeat split.
  - intros k [[p0 p1] rs] Hk [H0 [H1 Hr]].
    rewrite ims_at by (assumption || lia).
    rewrite c_phase_lat; [|assumption|apply (Hok nc i j); apply nth_In; lia].
    fold (cs nc i j k). fold (sn nc i j k).
    rewrite seq_S, !Sum_app, !Sum_cons, !Sum_nil, H0, H1. cbn [Nat.add].
    split; [ring|]. split; [ring|]. intros Hg l Hl. rewrite Hg.
    destruct (Hr Hg l Hl) as [R0 R1].
    set (ad := fun l x => delta (2 * l) (- sn nc i j k * rc nc i j k l) x
                          + delta (2 * l + 1) (cs nc i j k * rc nc i j k l) x).
    assert (Hadd : forall x, for_ 0 3 (fun l rs =>
        let rcart := ca_aoc A (3 * (nc * (n * n * max_images d t) + i * (n * max_images d t)
                         + j * max_images d t + k) + l)%nat in
        madd (madd rs (2 * l) (- sn nc i j k * rcart)) (2 * l + 1) (cs nc i j k * rcart)) rs x
        = rs x + Sum (seq 0 (3 - 0)) (fun l => ad l x)).
    { intros x.
      apply (for_adds 0 3 _ ad). intros l' Hl'. cbv zeta.
      rewrite aoc_at by (assumption || lia). apply adds_madd2. }
    cbv zeta in Hadd.
    assert (Hsum : forall c, (c < 2)%nat ->
        Sum (seq 0 (3 - 0)) (fun l' => ad l' (2 * l + c)%nat)
        = if Nat.eqb c 0 then - sn nc i j k * rc nc i j k l else cs nc i j k * rc nc i j k l).
    { intros c Hc. rewrite (Sum_single _ _ l); [apply delta2_at; exact Hc|apply seq_NoDup|apply in_seq; lia|].
      intros l' _ Hne. apply delta2_off; assumption. }
    rewrite !Sum_app, !Sum_cons, !Sum_nil. cbn [Nat.add].
    split.
    + rewrite Hadd, R0. pose proof (Hsum 0%nat ltac:(lia)) as E. rewrite Nat.add_0_r in E.
      rewrite E. cbn [Nat.eqb]. ring.
    + rewrite Hadd, R1, (Hsum 1%nat ltac:(lia)). cbn [Nat.eqb]. ring.
Qed.

(** Value the C loops add for cell nc to real/imaginary part of entry (i,j,a,b). *)
Let fcv nc i j a b := fcw nc (3 * i + a)%nat (3 * j + b)%nat.

Lemma fc_at nc i j a b idx : (i < n)%nat -> (j < n)%nat -> (a < 3)%nat -> (b < 3)%nat ->
  idx = lin n i j a b -> ca_fc A (nc * (9 * n * n) + idx)%nat = fcv nc i j a b.
Proof.
  intros Hi Hj Ha Hb ->. unfold A. cbn [marshal ca_fc]. fold n.
  apply (pack3_at (3 * n) (3 * n) _ nc (3 * i + a) (3 * j + b)); [lia|lia|]. unfold lin. ring.
Qed.

Let sums nc i j := c_image_sums (vmem q) n (max_images d t) (ca_nims A) (ca_ims A) (ca_cell_ogs A)
                         (ca_sc_ogs A) (ca_aoc A) grad i j nc.

Lemma idx_lin i j a b : ((3 * i + a) * 3 * n + 3 * j + b = lin n i j a b)%nat.
Proof. unfold lin. ring. Qed.

(** The main loops, split into the matrix and the gradient. *)
Lemma c_dyn_mat_split dm dg :
  c_dyn_mat (vmem q) n (n_cells d) (max_images d t) (ca_nims A) (ca_ims A) (ca_cell_ogs A)
    (ca_sc_ogs A) (ca_fc A) (ca_aoc A) grad dm dg
  = (for_ 0 n (fun i => for_ i n (fun j => for_ 0 (n_cells d) (fun nc =>
       for_ 0 3 (fun ii => for_ 0 3 (fun jj m =>
         let idx := lin n i j ii jj in
         madd (madd m (2 * idx) (fst (fst (sums nc i j)) * ca_fc A (nc * (9 * n * n) + idx)%nat))
              (2 * idx + 1) (snd (fst (sums nc i j)) * ca_fc A (nc * (9 * n * n) + idx)%nat))))))
       (memset0 (2 * 9 * n * n) dm),
     if grad then
       for_ 1 n (fun i => for_ 0 i (fun j => for_ 0 3 (fun ii => for_ 0 3 (fun jj =>
         let idx := (6 * lin n i j ii jj)%nat in
         let idx_t := (6 * lin n j i jj ii)%nat in
         for_ 0 3 (fun k dg =>
           let dg1 := mset dg (idx + 2 * k) (dg (idx_t + 2 * k)%nat) in
           mset dg1 (idx + 2 * k + 1) (- dg1 (idx_t + 2 * k + 1)%nat))))))
       (for_ 0 n (fun i => for_ i n (fun j => for_ 0 (n_cells d) (fun nc =>
         for_ 0 3 (fun ii => for_ 0 3 (fun jj => for_ 0 3 (fun k m =>
         let idx := lin n i j ii jj in
         madd (madd m (6 * idx + 2 * k) (snd (sums nc i j) (2 * k)%nat * ca_fc A (nc * (9 * n * n) + idx)%nat))
              (6 * idx + 2 * k + 1) (snd (sums nc i j) (2 * k + 1)%nat * ca_fc A (nc * (9 * n * n) + idx)%nat)))))))
       (memset0 (3 * 2 * 9 * n * n) dg))
     else dg).
Proof.
  unfold c_dyn_mat.
  match goal with |- context [for_ 0 n ?B (?x, ?y)] =>
    assert (E : for_ 0 n B (x, y) =
      (for_ 0 n (fun i => for_ i n (fun j => for_ 0 (n_cells d) (fun nc =>
       for_ 0 3 (fun ii => for_ 0 3 (fun jj m =>
         let idx := lin n i j ii jj in
         madd (madd m (2 * idx) (fst (fst (sums nc i j)) * ca_fc A (nc * (9 * n * n) + idx)%nat))
              (2 * idx + 1) (snd (fst (sums nc i j)) * ca_fc A (nc * (9 * n * n) + idx)%nat)))))) x,
       for_ 0 n (fun i => for_ i n (fun j => for_ 0 (n_cells d) (fun nc =>
         for_ 0 3 (fun ii => for_ 0 3 (fun jj m =>
         if grad then for_ 0 3 (fun k m =>
         let idx := lin n i j ii jj in
         madd (madd m (6 * idx + 2 * k) (snd (sums nc i j) (2 * k)%nat * ca_fc A (nc * (9 * n * n) + idx)%nat))
              (6 * idx + 2 * k + 1) (snd (sums nc i j) (2 * k + 1)%nat * ca_fc A (nc * (9 * n * n) + idx)%nat)) m
         else m))))) y))
  end.
  { apply for_pair. intros i s1 _. apply for_pair. intros j s2 _. apply for_pair. intros nc s3 _.
    unfold sums. destruct (c_image_sums _ _ _ _ _ _ _ _ _ i j nc) as [[p0 p1] rs].
    apply for_pair. intros ii s4 _. apply for_pair. intros jj [m g] _. cbn [fst snd].
    rewrite !idx_lin. reflexivity. }
  rewrite E. f_equal. destruct grad.
  - apply for_ext. intros i s1 _. apply for_ext. intros j s2 _. apply for_ext. intros ii s3 _.
    apply for_ext. intros jj s4 _. rewrite !idx_lin. reflexivity.
  - generalize dg. intros g.
    assert (I : forall lo hi (F : nat -> mem -> mem), (forall k m, (lo <= k < hi)%nat -> F k m = m) ->
              forall m, for_ lo hi F m = m).
    { intros lo hi F HF m. destruct (Nat.le_gt_cases hi lo); [apply for_end; assumption|].
      apply (for_ind (fun _ r => r = m)); [lia|reflexivity|]. intros k r Hk ->. apply HF. exact Hk. }
    repeat (apply I; intros ? ? _). reflexivity.
Qed.

(** Upper blocks of the C matrix are the conjugate of the Python matrix. *)
Theorem c_dyn_upper dm dg i j a b :
  (i <= j)%nat -> (j < n)%nat -> (a < 3)%nat -> (b < 3)%nat ->
  cget (fst (c_dyn_mat (vmem q) n (n_cells d) (max_images d t) (ca_nims A) (ca_ims A) (ca_cell_ogs A)
    (ca_sc_ogs A) (ca_fc A) (ca_aoc A) grad dm dg)) (lin n i j a b)
  = Cconj (dyn_mat d s t fcw q (3 * i + a) (3 * j + b)).
Proof.
  intros Hij Hj Ha Hb. rewrite c_dyn_mat_split. cbn [fst].
  assert (V : forall c, (c < 2)%nat ->
    for_ 0 n (fun i => for_ i n (fun j => for_ 0 (n_cells d) (fun nc =>
       for_ 0 3 (fun ii => for_ 0 3 (fun jj m =>
         let idx := lin n i j ii jj in
         madd (madd m (2 * idx) (fst (fst (sums nc i j)) * ca_fc A (nc * (9 * n * n) + idx)%nat))
              (2 * idx + 1) (snd (fst (sums nc i j)) * ca_fc A (nc * (9 * n * n) + idx)%nat))))))
       (memset0 (2 * 9 * n * n) dm) (2 * lin n i j a b + c)%nat
    = Sum (seq 0 (n_cells d)) (fun nc => (if Nat.eqb c 0 then fst (fst (sums nc i j)) else snd (fst (sums nc i j)))
                                         * fcv nc i j a b)).
  { intros c Hc.
    set (g := fun i j nc ii jj x => let idx := lin n i j ii jj in
        delta (2 * idx) (fst (fst (sums nc i j)) * ca_fc A (nc * (9 * n * n) + idx)%nat) x
        + delta (2 * idx + 1) (snd (fst (sums nc i j)) * ca_fc A (nc * (9 * n * n) + idx)%nat) x).
    assert (AD : adds (for_ 0 n (fun i => for_ i n (fun j => for_ 0 (n_cells d) (fun nc =>
       for_ 0 3 (fun ii => for_ 0 3 (fun jj m =>
         let idx := lin n i j ii jj in
         madd (madd m (2 * idx) (fst (fst (sums nc i j)) * ca_fc A (nc * (9 * n * n) + idx)%nat))
              (2 * idx + 1) (snd (fst (sums nc i j)) * ca_fc A (nc * (9 * n * n) + idx)%nat)))))))
       (fun x => Sum (seq 0 (n - 0)) (fun i => Sum (seq i (n - i)) (fun j => Sum (seq 0 (n_cells d - 0)) (fun nc =>
          Sum (seq 0 (3 - 0)) (fun ii => Sum (seq 0 (3 - 0)) (fun jj => g i j nc ii jj x))))))).
    { apply for_adds. intros i' _. apply for_adds. intros j' _. apply for_adds. intros nc _.
      apply for_adds. intros ii _. apply for_adds. intros jj _. apply adds_madd2. }
    rewrite AD. rewrite (eval_upper n _ g _ (lin n i j a b) i j a b); try assumption; try reflexivity.
    2:{ intros i' j' nc a' b' Hne. unfold g. apply delta2_off; assumption. }
    unfold memset0. pose proof (lin_lt n i j a b ltac:(lia) Hj Ha Hb).
    destruct (Nat.ltb_spec (2 * lin n i j a b + c) (2 * 9 * n * n)); [|nia].
    rewrite Nat.sub_0_r, Rplus_0_l. apply Sum_ext. intros nc _. unfold g. rewrite delta2_at by exact Hc.
    rewrite (fc_at nc i j a b _) by (try reflexivity; lia). destruct (Nat.eqb c 0); reflexivity. }
  rewrite dyn_mat_closed by exact Hok.
  replace ((3 * i + a) / 3)%nat with i by (symmetry; rewrite Nat.mul_comm; apply divmod_at; exact Ha).
  replace ((3 * j + b) / 3)%nat with j by (symmetry; rewrite Nat.mul_comm; apply divmod_at; exact Hb).
  apply cget_at.
  - pose proof (V 0%nat ltac:(lia)) as E. rewrite Nat.add_0_r in E.
    etransitivity; [exact E|]. clear E. cbn [Nat.eqb Cconj re Csum]. apply Sum_ext. intros nc Hnc. apply in_seq in Hnc.
    pose proof (image_sums_closed nc i j ltac:(lia) ltac:(lia) Hj) as Hs. fold (sums nc i j) in Hs.
    destruct (sums nc i j) as [[p0 p1] rs]. destruct Hs as [-> _]. cbn [fst snd Cscal re].
    rewrite Rmult_comm. fold (fcv nc i j a b). f_equal. cbn [Csum re].
    rewrite <- (Sum_nth (t nc i j) 0%nat). apply Sum_ext. intros k _. reflexivity.
  - etransitivity; [exact (V 1%nat ltac:(lia))|].
    cbn [Nat.eqb Cconj im Csum]. rewrite <- Sum_opp. apply Sum_ext. intros nc Hnc. apply in_seq in Hnc.
    pose proof (image_sums_closed nc i j ltac:(lia) ltac:(lia) Hj) as Hs. fold (sums nc i j) in Hs.
    destruct (sums nc i j) as [[p0 p1] rs]. destruct Hs as [_ [-> _]]. cbn [fst snd Cscal im].
    rewrite Sum_opp. cbn [Csum im].
    rewrite <- (Sum_nth (t nc i j) 0%nat (fun k => im (cis (2 * PI * dot q (zvec (lat d s nc k)))))).
    unfold fcv. match goal with |- - ?x * ?f = - (?f * ?y) => replace y with x; [ring|reflexivity] end.
Qed.
End Dyn.
