(** Lemmas for C12: gradient loops and Hermitian fill. *)
From Verif Require Import Base Cpx Vec3 M_grid M_cell M_qpts M_dynmat M_dipole M_cext S_dynmat
  L_dynmat L_dynmat2 L_cmem L_cext.
Open Scope R_scope.

Lemma interp_grad_closed d junk q a b l :
  (a < 3 * n_atoms d)%nat -> (b < 3 * n_atoms d)%nat ->
  interp_dyn_mat_grad d junk q a b l
  = Csum (seq 0 (n_cells d)) (fun nc =>
      Csum (ms d 2 nc (a / 3) (b / 3))%nat (fun m =>
        Cscal (f_fc d nc a b / INR (length (ms d 2 nc (a / 3) (b / 3))%nat))
          (Cmul Ci (Cscal (comp (vmul (zvec (latv d nc m)) (f_cell d)) l)
             (cis (2 * PI * dot q (zvec (latv d nc m)))))))).
Proof.
  intros Ha Hb. apply div3_lt in Ha. apply div3_lt in Hb.
  unfold interp_dyn_mat_grad. cbv zeta. rewrite dyn_mat_grad_closed by apply sc_images_ok.
  apply Csum_ext. intros nc Hnc. apply in_seq in Hnc.
  unfold fc_img_weighted. cbv zeta. rewrite sc_images_spec by (lia || assumption).
  rewrite (Csum_images d 2 nc (a/3) (b/3) (fun r => Cmul Ci (Cscal (comp (vmul (zvec r) (f_cell d)) l)
             (cis (2 * PI * dot q (zvec r)))))).
  rewrite images_of_length, Csum_scal.
  destruct (ms d 2 nc (a / 3) (b / 3))%nat as [|m l'] eqn:E.
  - rewrite !Csum_nil. apply C_eq; simpl; ring.
  - reflexivity.
Qed.

Lemma vmul_vopp' v m : vmul (vopp v) m = vopp (vmul v m).
Proof. unfold vopp. apply vmul_vscal. Qed.
Lemma comp_vopp' v k : comp (vopp v) k = - comp v k.
Proof. destruct v as [[? ?] ?]. destruct k as [|[|k]]; cbn; ring. Qed.

Lemma interp_grad_hermitian d junk q a b l :
  home_first d -> search_complete d -> fc_symmetric d ->
  (a < 3 * n_atoms d)%nat -> (b < 3 * n_atoms d)%nat ->
  interp_dyn_mat_grad d junk q b a l = Cconj (interp_dyn_mat_grad d junk q a b l).
Proof.
  intros Hh Hsc [p [Hp Hfc]] Ha Hb.
  rewrite !interp_grad_closed by assumption.
  pose proof (div3_lt _ _ Ha) as Hi. pose proof (div3_lt _ _ Hb) as Hj.
  rewrite <- (Csum_perm (map p (seq 0 (n_cells d))) (seq 0 (n_cells d))).
  2:{ apply perm_of_involution. intros x Hx. destruct (Hp x Hx) as [H1 [H2 _]]. auto. }
  rewrite Csum_map, <- Csum_conj. apply Csum_ext. intros nc Hnc. apply in_seq in Hnc.
  destruct (Hp nc) as [Hpn [Hpp [T HT]]]; [lia|].
  pose proof (ms_flip d nc (p nc) (a/3) (b/3) T Hh Hsc) as HP.
  specialize (HP ltac:(lia) Hpn Hi Hj HT).
  rewrite <- (Csum_perm _ _ _ HP), Csum_map, <- Csum_conj.
  rewrite <- (Permutation_length HP), map_length.
  rewrite (Hfc nc a b) by (lia || assumption).
  apply Csum_ext. intros m _. rewrite Cconj_scal. f_equal.
  rewrite (flip_lat d nc (p nc) T m HT), zvec_opp, vmul_vopp', comp_vopp'.
  rewrite dot_comm, dot_vopp_l, dot_comm.
  replace (2 * PI * - dot q (zvec (latv d nc m))) with (- (2 * PI * dot q (zvec (latv d nc m)))) by ring.
  rewrite cis_opp, Cconj_mul, Cconj_scal. apply C_eq; cbn; ring.
Qed.

Definition gget (m : mem) (k l : nat) : C := mkC (m (6 * k + 2 * l)%nat) (m (6 * k + 2 * l + 1)%nat).

Lemma gdelta_at k l0 (u v : nat -> R) c : (l0 < 3)%nat -> (c < 2)%nat ->
  Sum (seq 0 (3 - 0)) (fun l => delta (6 * k + 2 * l) (u l) (6 * k + 2 * l0 + c)
     + delta (6 * k + 2 * l + 1) (v l) (6 * k + 2 * l0 + c)) = if Nat.eqb c 0 then u l0 else v l0.
Proof.
  intros Hl Hc. rewrite (Sum_single _ _ l0); [|apply seq_NoDup|apply in_seq; lia|].
  - replace (6 * k + 2 * l0)%nat with (2 * (3 * k + l0))%nat by ring. apply delta2_at. exact Hc.
  - intros l _ Hne. replace (6 * k + 2 * l)%nat with (2 * (3 * k + l))%nat by ring.
    replace (6 * k + 2 * l0)%nat with (2 * (3 * k + l0))%nat by ring. apply delta2_off; lia.
Qed.
Lemma gdelta_off k y l0 (u v : nat -> R) c : (l0 < 3)%nat -> (c < 2)%nat -> k <> y ->
  Sum (seq 0 (3 - 0)) (fun l => delta (6 * k + 2 * l) (u l) (6 * y + 2 * l0 + c)
     + delta (6 * k + 2 * l + 1) (v l) (6 * y + 2 * l0 + c)) = 0.
Proof.
  intros Hl Hc Hne. apply Sum_zero_ext. intros l Hl'. apply in_seq in Hl'.
  replace (6 * k + 2 * l)%nat with (2 * (3 * k + l))%nat by ring.
  replace (6 * y + 2 * l0)%nat with (2 * (3 * y + l0))%nat by ring. apply delta2_off; lia.
Qed.

(** The Hermitian fill: what it leaves at upper and lower entries. *)
Definition fill (n : nat) (dg : mem) : mem :=
  for_ 1 n (fun i => for_ 0 i (fun j => for_ 0 3 (fun ii => for_ 0 3 (fun jj =>
         let idx := (6 * lin n i j ii jj)%nat in
         let idx_t := (6 * lin n j i jj ii)%nat in
         for_ 0 3 (fun k dg =>
           let dg1 := mset dg (idx + 2 * k) (dg (idx_t + 2 * k)%nat) in
           mset dg1 (idx + 2 * k + 1) (- dg1 (idx_t + 2 * k + 1)%nat)))))) dg.

Notation N5 := (nat * nat * nat * nat * nat)%type.
Definition fill_list (n : nat) : list N5 :=
  flat_map (fun i => flat_map (fun j => flat_map (fun a => flat_map (fun b => map (fun k =>
    (i, j, a, b, k)) (seq 0 (3 - 0))) (seq 0 (3 - 0))) (seq 0 (3 - 0))) (seq 0 (i - 0))) (seq 1 (n - 1)).
Definition fill_step (n : nat) (dg : mem) (e : N5) : mem :=
  let '(i, j, ii, jj, k) := e in
  let idx := (6 * lin n i j ii jj)%nat in
  let idx_t := (6 * lin n j i jj ii)%nat in
  let dg1 := mset dg (idx + 2 * k) (dg (idx_t + 2 * k)%nat) in
  mset dg1 (idx + 2 * k + 1) (- dg1 (idx_t + 2 * k + 1)%nat).

Lemma fill_flat n dg : fill n dg = fold_left (fill_step n) (fill_list n) dg.
Proof.
  unfold fill, fill_list. apply for_flat. intros i s _. apply for_flat. intros j s1 _.
  apply for_flat. intros a s2 _. apply for_flat. intros b s3 _. cbv zeta.
  unfold for_. generalize (seq 0 (3 - 0)). intros l. revert s3.
  induction l as [|k l IH]; intros s3; [reflexivity|]. cbn [fold_left map]. apply IH.
Qed.

Lemma in_fill n i j a b k : In (i, j, a, b, k) (fill_list n) <->
  (j < i)%nat /\ (i < n)%nat /\ (a < 3)%nat /\ (b < 3)%nat /\ (k < 3)%nat.
Proof.
  unfold fill_list. rewrite in_flat_map. split.
  - intros [i' [Hi H]]. apply in_flat_map in H. destruct H as [j' [Hj H]].
    apply in_flat_map in H. destruct H as [a' [Ha H]]. apply in_flat_map in H. destruct H as [b' [Hb H]].
    apply in_map_iff in H. destruct H as [k' [E Hk]]. injection E as <- <- <- <- <-.
    apply in_seq in Hi, Hj, Ha, Hb, Hk. lia.
  - intros [H1 [H2 [H3 [H4 H5]]]]. exists i. split; [apply in_seq; lia|].
    apply in_flat_map. exists j. split; [apply in_seq; lia|].
    apply in_flat_map. exists a. split; [apply in_seq; lia|].
    apply in_flat_map. exists b. split; [apply in_seq; lia|].
    apply in_map_iff. exists k. split; [reflexivity|apply in_seq; lia].
Qed.
Lemma NoDup_fill n : NoDup (fill_list n).
Proof.
  unfold fill_list. apply NoDup_flat_map; [apply seq_NoDup| |].
  { intros i _. apply NoDup_flat_map; [apply seq_NoDup| |].
    { intros j _. apply NoDup_flat_map; [apply seq_NoDup| |].
      { intros a _. apply NoDup_flat_map; [apply seq_NoDup| |].
        { intros b _. apply NoDup_map_inj; [|apply seq_NoDup]. intros x y _ _ E. congruence. }
        intros x y z _ _ Hx Hy. apply in_map_iff in Hx, Hy.
        destruct Hx as [k [<- _]], Hy as [k' [E _]]. congruence. }
      intros x y z _ _ Hx Hy. apply in_flat_map in Hx, Hy.
      destruct Hx as [b [_ Hx]], Hy as [b' [_ Hy]]. apply in_map_iff in Hx, Hy.
      destruct Hx as [k [<- _]], Hy as [k' [E _]]. congruence. }
    intros x y z _ _ Hx Hy. apply in_flat_map in Hx, Hy.
    destruct Hx as [a [_ Hx]], Hy as [a' [_ Hy]]. apply in_flat_map in Hx, Hy.
    destruct Hx as [b [_ Hx]], Hy as [b' [_ Hy]]. apply in_map_iff in Hx, Hy.
    destruct Hx as [k [<- _]], Hy as [k' [E _]]. congruence. }
  intros x y z _ _ Hx Hy. apply in_flat_map in Hx, Hy.
  destruct Hx as [j [_ Hx]], Hy as [j' [_ Hy]]. apply in_flat_map in Hx, Hy.
  destruct Hx as [a [_ Hx]], Hy as [a' [_ Hy]]. apply in_flat_map in Hx, Hy.
  destruct Hx as [b [_ Hx]], Hy as [b' [_ Hy]]. apply in_map_iff in Hx, Hy.
  destruct Hx as [k [<- _]], Hy as [k' [E _]]. congruence.
Qed.

Lemma fill_spec n dg :
  (forall i j a b k, (j < i)%nat -> (i < n)%nat -> (a < 3)%nat -> (b < 3)%nat -> (k < 3)%nat ->
     gget (fill n dg) (lin n i j a b) k = Cconj (gget dg (lin n j i b a) k)) /\
  (forall i j a b k, (i <= j)%nat -> (j < n)%nat -> (a < 3)%nat -> (b < 3)%nat -> (k < 3)%nat ->
     gget (fill n dg) (lin n i j a b) k = gget dg (lin n i j a b) k).
Proof.
  rewrite fill_flat.
  set (own := fun (e : N5) x => let '(i, j, a, b, k) := e in
     x = (6 * lin n i j a b + 2 * k)%nat \/ x = (6 * lin n i j a b + 2 * k + 1)%nat).
  set (h := fun (e : N5) (m : mem) x => let '(i, j, a, b, k) := e in
     if Nat.eqb x (6 * lin n i j a b + 2 * k + 1) then - m (6 * lin n j i b a + 2 * k + 1)%nat
     else m (6 * lin n j i b a + 2 * k)%nat).
  (* transposed cells are written by no iteration *)
  assert (Hup : forall i j a b k c e, (i <= j)%nat -> (j < n)%nat -> (a < 3)%nat -> (b < 3)%nat -> (k < 3)%nat ->
     (c < 2)%nat -> In e (fill_list n) -> ~ own e (6 * lin n i j a b + 2 * k + c)%nat).
  { intros i j a b k c [[[[i' j'] a'] b'] k'] Hij Hj Ha Hb Hk Hc Hin. apply (proj1 (in_fill _ _ _ _ _ _)) in Hin.
    cbn [own]. intros Hx. assert (E : lin n i j a b = lin n i' j' a' b') by lia.
    apply lin_inj in E; lia. }
  assert (K := fold_local (fill_step n) own h (fill_list n) (NoDup_fill n)).
  assert (S : forall m x, (forall e, In e (fill_list n) -> own e x -> fold_left (fill_step n) (fill_list n) m x = h e m x) /\
              ((forall e, In e (fill_list n) -> ~ own e x) -> fold_left (fill_step n) (fill_list n) m x = m x)).
  { apply K; clear K.
    - intros [[[[i j] a] b] k] m x Hin Ho. apply (proj1 (in_fill _ _ _ _ _ _)) in Hin.
      cbn [own] in Ho. cbn [fill_step h].
      unfold mset. destruct (Nat.eqb_spec x (6 * lin n i j a b + 2 * k + 1)) as [E1|E1].
      + destruct (Nat.eqb_spec (6 * lin n j i b a + 2 * k + 1) (6 * lin n i j a b + 2 * k)); [lia|]. reflexivity.
      + destruct (Nat.eqb_spec x (6 * lin n i j a b + 2 * k)); [reflexivity|lia].
    - intros [[[[i j] a] b] k] m x Hin Ho. cbn [own] in Ho. cbn [fill_step]. unfold mset.
      destruct (Nat.eqb_spec x (6 * lin n i j a b + 2 * k + 1)); [tauto|].
      destruct (Nat.eqb_spec x (6 * lin n i j a b + 2 * k)); [tauto|]. reflexivity.
    - intros [[[[i j] a] b] k] m m' x Hin Ho E. apply (proj1 (in_fill _ _ _ _ _ _)) in Hin. cbn [h].
      rewrite (E (6 * lin n j i b a + 2 * k + 1)%nat), (E (6 * lin n j i b a + 2 * k)%nat); [reflexivity| |].
      + right. intros e' He'. rewrite <- (Nat.add_0_r (_ + 2 * k)). apply Hup; try lia. exact He'.
      + right. intros e' He'. apply Hup; try lia. exact He'.
    - intros [[[[i j] a] b] k] [[[[i' j'] a'] b'] k'] x Hin Hin' Ho Ho'.
      apply (proj1 (in_fill _ _ _ _ _ _)) in Hin, Hin'. cbn [own] in Ho, Ho'.
      assert (E : lin n i j a b = lin n i' j' a' b') by lia. assert (k = k') by lia.
      apply lin_inj in E; try lia. destruct E as [-> [-> [-> ->]]]. congruence. }
  split.
  - intros i j a b k Hji Hi Ha Hb Hk.
    assert (Hin : In (i, j, a, b, k) (fill_list n)) by (apply in_fill; lia).
    unfold gget, Cconj. cbn [re im].
    rewrite (proj1 (S dg (6 * lin n i j a b + 2 * k)%nat) _ Hin) by (cbn; lia).
    rewrite (proj1 (S dg (6 * lin n i j a b + 2 * k + 1)%nat) _ Hin) by (cbn; lia).
    cbn [h]. rewrite Nat.eqb_refl.
    destruct (Nat.eqb_spec (6 * lin n i j a b + 2 * k) (6 * lin n i j a b + 2 * k + 1)); [lia|]. reflexivity.
  - intros i j a b k Hij Hj Ha Hb Hk. unfold gget.
    rewrite (proj2 (S dg (6 * lin n i j a b + 2 * k)%nat)), (proj2 (S dg (6 * lin n i j a b + 2 * k + 1)%nat)).
    + reflexivity.
    + intros e He. apply Hup; try lia. exact He.
    + intros e He. rewrite <- (Nat.add_0_r (_ + 2 * k)). apply Hup; try lia. exact He.
Qed.

Lemma div3_at i a : (a < 3)%nat -> ((3 * i + a) / 3 = i)%nat.
Proof. intros H. rewrite Nat.mul_comm. apply divmod_at. exact H. Qed.
Lemma mod3_at i a : (a < 3)%nat -> ((3 * i + a) mod 3 = a)%nat.
Proof. intros H. rewrite Nat.mul_comm. apply divmod_at. exact H. Qed.

Section Grad.
Variables (d : fcdata) (s : Z) (t : imtab) (fcw : nat -> nat -> nat -> R) (mass : nat -> R)
  (dip : option dipin) (asr : option (nat -> nat -> C)) (q : V3).
Hypothesis Hok : tab_ok t s.
Let n := n_atoms d.
Let A := marshal d s t fcw mass dip asr true.
Notation CD dm dg := (c_dyn_mat (vmem q) n (n_cells d) (max_images d t) (ca_nims A) (ca_ims A) (ca_cell_ogs A)
    (ca_sc_ogs A) (ca_fc A) (ca_aoc A) true dm dg).
Let sums nc i j := c_image_sums (vmem q) n (max_images d t) (ca_nims A) (ca_ims A) (ca_cell_ogs A)
                         (ca_sc_ogs A) (ca_aoc A) true i j nc.

Definition grad_loops (dg : mem) : mem :=
  for_ 0 n (fun i => for_ i n (fun j => for_ 0 (n_cells d) (fun nc =>
         for_ 0 3 (fun ii => for_ 0 3 (fun jj => for_ 0 3 (fun k m =>
         let idx := lin n i j ii jj in
         madd (madd m (6 * idx + 2 * k) (snd (sums nc i j) (2 * k)%nat * ca_fc A (nc * (9 * n * n) + idx)%nat))
              (6 * idx + 2 * k + 1) (snd (sums nc i j) (2 * k + 1)%nat * ca_fc A (nc * (9 * n * n) + idx)%nat)))))))
       (memset0 (3 * 2 * 9 * n * n) dg).

Lemma c_grad_fill dm dg : snd (CD dm dg) = fill n (grad_loops dg).
Proof.
  pose proof (c_dyn_mat_split d s t fcw mass dip asr true q dm dg) as E.
  fold n in E. fold A in E. rewrite E. reflexivity.
Qed.

Lemma grad_upper dg i j a b l :
  (i <= j)%nat -> (j < n)%nat -> (a < 3)%nat -> (b < 3)%nat -> (l < 3)%nat ->
  gget (grad_loops dg) (lin n i j a b) l = dyn_mat_grad d s t fcw q (3 * i + a) (3 * j + b) l.
Proof.
  intros Hij Hj Ha Hb Hl.
  set (g := fun i j nc ii jj x => let idx := lin n i j ii jj in
     Sum (seq 0 (3 - 0)) (fun k =>
        delta (6 * idx + 2 * k) (snd (sums nc i j) (2 * k)%nat * ca_fc A (nc * (9 * n * n) + idx)%nat) x
        + delta (6 * idx + 2 * k + 1) (snd (sums nc i j) (2 * k + 1)%nat * ca_fc A (nc * (9 * n * n) + idx)%nat) x)).
  assert (V : forall c, (c < 2)%nat -> grad_loops dg (6 * lin n i j a b + 2 * l + c)%nat
    = Sum (seq 0 (n_cells d)) (fun nc =>
        (if Nat.eqb c 0 then snd (sums nc i j) (2 * l)%nat else snd (sums nc i j) (2 * l + 1)%nat)
        * fcw nc (3 * i + a)%nat (3 * j + b)%nat)).
  { intros c Hc. unfold grad_loops.
    match goal with |- for_ 0 n ?B ?m0 ?x0 = _ =>
      assert (AD : adds (for_ 0 n B)
       (fun x => Sum (seq 0 (n - 0)) (fun i => Sum (seq i (n - i)) (fun j => Sum (seq 0 (n_cells d - 0)) (fun nc =>
          Sum (seq 0 (3 - 0)) (fun ii => Sum (seq 0 (3 - 0)) (fun jj => g i j nc ii jj x)))))))
    end.
    { apply for_adds. intros i' _. apply for_adds. intros j' _. apply for_adds. intros nc _.
      apply for_adds. intros ii _. apply for_adds. intros jj _. unfold g. cbv zeta.
      apply for_adds. intros k _. apply adds_madd2. }
    rewrite AD. rewrite (eval_upper n _ g _ (lin n i j a b) i j a b); try assumption; try reflexivity.
    2:{ intros i' j' nc a' b' Hne. unfold g. cbv zeta. apply gdelta_off; assumption. }
    unfold memset0. pose proof (lin_lt n i j a b ltac:(lia) Hj Ha Hb).
    destruct (Nat.ltb_spec (6 * lin n i j a b + 2 * l + c) (3 * 2 * 9 * n * n)); [|nia].
    rewrite Nat.sub_0_r, Rplus_0_l. apply Sum_ext. intros nc _. unfold g. cbv zeta.
    rewrite (gdelta_at (lin n i j a b) l (fun k => snd (sums nc i j) (2 * k)%nat * ca_fc A (nc * (9 * n * n) + lin n i j a b)%nat)
        (fun k => snd (sums nc i j) (2 * k + 1)%nat * ca_fc A (nc * (9 * n * n) + lin n i j a b)%nat)) by assumption.
    unfold A, n. rewrite (fc_at d s t fcw mass dip asr true nc i j a b _) by (try reflexivity; try assumption; fold n; lia).
    destruct (Nat.eqb c 0); reflexivity. }
  rewrite dyn_mat_grad_closed by exact Hok.
  rewrite !div3_at by assumption. unfold gget. apply C_eq; cbn [re im].
  - pose proof (V 0%nat ltac:(lia)) as E. rewrite Nat.add_0_r in E.
    etransitivity; [exact E|]. clear E. cbn [Nat.eqb Csum re]. apply Sum_ext. intros nc Hnc. apply in_seq in Hnc.
    pose proof (image_sums_closed d s t fcw mass dip asr true q Hok nc i j ltac:(lia) ltac:(fold n; lia) Hj) as Hs.
    fold n A in Hs. fold (sums nc i j) in Hs.
    destruct (sums nc i j) as [[p0 p1] rs]. destruct Hs as [_ [_ Hs]].
    destruct (Hs eq_refl l Hl) as [Hs1 _]. cbn [snd]. rewrite Hs1.
    rewrite Rmult_comm. cbn [Cscal re]. f_equal. cbn [Csum re].
    rewrite <- (Sum_nth (t nc i j) 0%nat). apply Sum_ext. intros k _. cbn. ring.
  - etransitivity; [exact (V 1%nat ltac:(lia))|]. cbn [Nat.eqb Csum im]. apply Sum_ext. intros nc Hnc. apply in_seq in Hnc.
    pose proof (image_sums_closed d s t fcw mass dip asr true q Hok nc i j ltac:(lia) ltac:(fold n; lia) Hj) as Hs.
    fold n A in Hs. fold (sums nc i j) in Hs.
    destruct (sums nc i j) as [[p0 p1] rs]. destruct Hs as [_ [_ Hs]].
    destruct (Hs eq_refl l Hl) as [_ Hs1]. cbn [snd]. rewrite Hs1.
    rewrite Rmult_comm. cbn [Cscal im]. f_equal. cbn [Csum im].
    rewrite <- (Sum_nth (t nc i j) 0%nat). apply Sum_ext. intros k _. cbn. ring.
Qed.
End Grad.

(** Gradient memory after calculate_dyn_mat_at_q = the Python gradient. *)
Theorem c_grad_eq d junk mass dip asr q dm dg a b l :
  home_first d -> search_complete d -> fc_symmetric d ->
  (a < 3 * n_atoms d)%nat -> (b < 3 * n_atoms d)%nat -> (l < 3)%nat ->
  let t := sc_images d 2 in
  let fcw := fc_img_weighted t junk (f_fc d) in
  let A := marshal d 2 t fcw mass dip asr true in
  gget (snd (c_dyn_mat (vmem q) (n_atoms d) (n_cells d) (max_images d t) (ca_nims A) (ca_ims A)
          (ca_cell_ogs A) (ca_sc_ogs A) (ca_fc A) (ca_aoc A) true dm dg)) (a * (3 * n_atoms d) + b)%nat l
  = interp_dyn_mat_grad d junk q a b l.
Proof.
  intros Hh Hs Hf Ha Hb Hl t fcw A. set (n := n_atoms d) in *.
  pose proof (c_grad_fill d 2 t fcw mass dip asr q dm dg) as E. fold n A in E. rewrite E.
  assert (Ea : a = (3 * (a / 3) + a mod 3)%nat) by (apply Nat.div_mod; lia).
  assert (Eb : b = (3 * (b / 3) + b mod 3)%nat) by (apply Nat.div_mod; lia).
  pose proof (div3_lt _ _ Ha) as Hi. pose proof (div3_lt _ _ Hb) as Hj.
  pose proof (Nat.mod_upper_bound a 3 ltac:(lia)) as Ha3.
  pose proof (Nat.mod_upper_bound b 3 ltac:(lia)) as Hb3.
  replace (a * (3 * n) + b)%nat with (lin n (a / 3) (b / 3) (a mod 3) (b mod 3)).
  2:{ unfold lin. rewrite <- Ea, <- Eb. reflexivity. }
  destruct (fill_spec n (grad_loops d 2 t fcw mass dip asr q dg)) as [FL FU].
  destruct (Nat.le_gt_cases (a / 3) (b / 3)) as [L|L].
  - rewrite FU by assumption.
    pose proof (grad_upper d 2 t fcw mass dip asr q (sc_images_ok d 2) dg (a / 3) (b / 3) (a mod 3) (b mod 3) l L Hj Ha3 Hb3 Hl) as G.
    fold n in G. rewrite G, <- Ea, <- Eb. reflexivity.
  - rewrite FL by assumption.
    pose proof (grad_upper d 2 t fcw mass dip asr q (sc_images_ok d 2) dg (b / 3) (a / 3) (b mod 3) (a mod 3) l
                  ltac:(lia) Hi Hb3 Ha3 Hl) as G.
    fold n in G. rewrite G, <- Ea, <- Eb.
    symmetry. apply (interp_grad_hermitian d junk q b a l); assumption.
Qed.
