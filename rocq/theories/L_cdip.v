(** Lemmas for C12: dipole and gamma loops of the C extension. *)
From Verif Require Import Base Cpx Vec3 M_grid M_cell M_qpts M_dynmat M_dipole M_cext S_dynmat S_dipole
  L_cell L_qpts L_dynmat L_dynmat2 L_dipole L_nac L_cmem L_cext L_cgrad.
Open Scope R_scope.

(** ** loops that overwrite cells *)
Lemma fold_mset {E} (key : E -> nat) (val : E -> R) l :
  NoDup l -> (forall e e', In e l -> In e' l -> key e = key e' -> e = e') ->
  forall m x, (forall e, In e l -> key e = x -> fold_left (fun m e => mset m (key e) (val e)) l m x = val e) /\
              ((forall e, In e l -> key e <> x) -> fold_left (fun m e => mset m (key e) (val e)) l m x = m x).
Proof.
  intros Hnd Hinj m x.
  destruct (fold_local (fun m e => mset m (key e) (val e)) (fun e x => key e = x) (fun e _ _ => val e) l Hnd) with (m := m) (x := x)
    as [H1 H2].
  - intros e m' y _ <-. unfold mset. rewrite Nat.eqb_refl. reflexivity.
  - intros e m' y _ Hne. unfold mset. destruct (Nat.eqb_spec y (key e)); [congruence|reflexivity].
  - reflexivity.
  - intros e e' y He He' E1 E2. apply Hinj; congruence.
  - split; assumption.
Qed.

(** upper-triangle block list *)
Notation N4 := (nat * nat * nat * nat)%type.
Definition up_list (n : nat) : list N4 :=
  flat_map (fun i => flat_map (fun j => flat_map (fun a => map (fun b =>
    (i, j, a, b)) (seq 0 (3 - 0))) (seq 0 (3 - 0))) (seq i (n - i))) (seq 0 (n - 0)).
Lemma in_up n i j a b : In (i, j, a, b) (up_list n) <->
  (i <= j)%nat /\ (j < n)%nat /\ (a < 3)%nat /\ (b < 3)%nat.
Proof.
  unfold up_list. rewrite in_flat_map. split.
  - intros [i' [Hi H]]. apply in_flat_map in H. destruct H as [j' [Hj H]].
    apply in_flat_map in H. destruct H as [a' [Ha H]]. 
    apply in_map_iff in H. destruct H as [k' [E Hk]]. injection E as <- <- <- <-.
    apply in_seq in Hi, Hj, Ha, Hk. lia.
  - intros [H1 [H2 [H3 H4]]]. exists i. split; [apply in_seq; lia|].
    apply in_flat_map. exists j. split; [apply in_seq; lia|].
    apply in_flat_map. exists a. split; [apply in_seq; lia|].
    apply in_map_iff. exists b. split; [reflexivity|apply in_seq; lia].
Qed.
Lemma NoDup_up n : NoDup (up_list n).
Proof.
  unfold up_list. apply NoDup_flat_map; [apply seq_NoDup| |].
  { intros j _. apply NoDup_flat_map; [apply seq_NoDup| |].
    { intros a _. apply NoDup_flat_map; [apply seq_NoDup| |].
      { intros b _. apply NoDup_map_inj; [|apply seq_NoDup]. intros x y _ _ E. congruence. }
      intros x y z _ _ Hx Hy. apply in_map_iff in Hx, Hy.
      destruct Hx as [k [<- _]], Hy as [k' [E _]]. congruence. }
    intros x y z _ _ Hx Hy. apply in_flat_map in Hx, Hy.
    destruct Hx as [b [_ Hx]], Hy as [b' [_ Hy]]. apply in_map_iff in Hx, Hy.
    destruct Hx as [k [<- _]], Hy as [k' [E _]]. congruence. }
  intros x y z _ _ Hx Hy. apply in_flat_map in Hx, Hy.
  destruct Hx as [a [_ Hx]], Hy as [a' [_ Hy]]. apply in_flat_map in Hx, Hy.
  destruct Hx as [b [_ Hx]], Hy as [b' [_ Hy]]. apply in_map_iff in Hx, Hy.
  destruct Hx as [k [<- _]], Hy as [k' [E _]]. congruence.
Qed.

Lemma for_map {E S} lo hi (f : nat -> E) (step : S -> E -> S) s :
  for_ lo hi (fun k s => step s (f k)) s = fold_left step (map f (seq lo (hi - lo))) s.
Proof.
  unfold for_. revert s. induction (seq lo (hi - lo)) as [|k l IH]; intros s; [reflexivity|].
  cbn [fold_left map]. apply IH.
Qed.

(** The gamma loop only writes the real parts of the upper blocks. *)
Lemma set_upper n (v : nat -> nat -> nat -> nat -> R) m i j a b :
  (i <= j)%nat -> (j < n)%nat -> (a < 3)%nat -> (b < 3)%nat ->
  let r := for_ 0 n (fun i => for_ i n (fun j => for_ 0 3 (fun a => for_ 0 3 (fun b m =>
      mset m (cidx n i j a b) (v i j a b))))) m in
  cget r (lin n i j a b) = mkC (v i j a b) (m (2 * lin n i j a b + 1)%nat).
Proof.
  intros Hij Hj Ha Hb r.
  set (key := fun e : N4 => let '(i, j, a, b) := e in cidx n i j a b).
  set (val := fun e : N4 => let '(i, j, a, b) := e in v i j a b).
  assert (E : r = fold_left (fun m e => mset m (key e) (val e)) (up_list n) m).
  { unfold r, up_list. apply for_flat. intros i' s _. apply for_flat. intros j' s1 _.
    apply for_flat. intros a' s2 _.
    apply (for_map 0 3 (fun b => (i', j', a', b)) (fun m e => mset m (key e) (val e)) s2). }
  destruct (fold_mset key val (up_list n) (NoDup_up n)) with (m := m) (x := (2 * lin n i j a b)%nat) as [H1 _].
  { intros [[[i1 j1] a1] b1] [[[i2 j2] a2] b2] I1 I2. apply (proj1 (in_up _ _ _ _ _)) in I1, I2.
    cbn [key]. rewrite !cidx_lin. intros EE. assert (EL : lin n i1 j1 a1 b1 = lin n i2 j2 a2 b2) by lia.
    apply lin_inj in EL; try lia. destruct EL as [-> [-> [-> ->]]]. reflexivity. }
  destruct (fold_mset key val (up_list n) (NoDup_up n)) with (m := m) (x := (2 * lin n i j a b + 1)%nat) as [_ H2].
  { intros [[[i1 j1] a1] b1] [[[i2 j2] a2] b2] I1 I2. apply (proj1 (in_up _ _ _ _ _)) in I1, I2.
    cbn [key]. rewrite !cidx_lin. intros EE. assert (EL : lin n i1 j1 a1 b1 = lin n i2 j2 a2 b2) by lia.
    apply lin_inj in EL; try lia. destruct EL as [-> [-> [-> ->]]]. reflexivity. }
  unfold cget. rewrite E. f_equal.
  - apply (H1 (i, j, a, b)); [apply in_up; lia|cbn; apply cidx_lin].
  - apply H2. intros [[[i1 j1] a1] b1] _. cbn [key]. rewrite cidx_lin. lia.
Qed.

(** ** mass weighting *)
Lemma c_mass_weight_at w n r m i j : (i < 9 * n * n)%nat -> (j < r)%nat ->
  c_mass_weight w n r m (r * i + j)%nat = m (r * i + j)%nat * w i.
Proof.
  intros Hi Hj. unfold c_mass_weight.
  assert (In1 : forall i m,
     (forall j, (j < r)%nat -> for_ 0 r (fun j dm => mset dm (r * i + j) (dm (r * i + j)%nat * w i)) m (r * i + j)%nat
                               = m (r * i + j)%nat * w i) /\
     (forall x, (forall j, (j < r)%nat -> x <> (r * i + j)%nat) ->
        for_ 0 r (fun j dm => mset dm (r * i + j) (dm (r * i + j)%nat * w i)) m x = m x)).
  { intros i' m'.
    destruct (for_local 0 r (fun j dm => mset dm (r * i' + j) (dm (r * i' + j)%nat * w i'))
       (fun j x => x = (r * i' + j)%nat) (fun j m x => m x * w i')) with (m := m') as [H1 H2].
    - intros k m1 x _ ->. unfold mset. rewrite Nat.eqb_refl. reflexivity.
    - intros k m1 x _ Hne. unfold mset. destruct (Nat.eqb_spec x (r * i' + k)); [contradiction|reflexivity].
    - intros k m1 m2 x _ -> E. rewrite (E _ eq_refl). reflexivity.
    - intros k k' x _ _ -> E. lia.
    - split.
      + intros j' Hj'. apply (H1 j'); [lia|reflexivity].
      + intros x Hx. apply H2. intros k Hk. apply Hx. lia. }
  destruct (for_local 0 (9 * n * n) (fun i => for_ 0 r (fun j dm => mset dm (r * i + j) (dm (r * i + j)%nat * w i)))
     (fun i x => exists j, (j < r)%nat /\ x = (r * i + j)%nat) (fun i m x => m x * w i)) with (m := m) as [H1 _].
  - intros k m' x _ [j' [Hj' ->]]. apply (proj1 (In1 k m')). exact Hj'.
  - intros k m' x _ Hno. apply (proj2 (In1 k m')). intros j' Hj' E. apply Hno. exists j'. auto.
  - intros k m1 m2 x _ Ho E. rewrite (E x Ho). reflexivity.
  - intros k k' x _ _ [j1 [L1 E1]] [j2 [L2 E2]]. subst x.
    rewrite (Nat.mul_comm r k), (Nat.mul_comm r k') in E2.
    destruct (divmod_at k r j1 L1) as [D _]. destruct (divmod_at k' r j2 L2) as [D' _].
    rewrite E2 in D. congruence.
  - apply (H1 i); [lia|]. exists j. auto.
Qed.

(** ** real-space loop *)
Section Real.
Variables (qn : mem) (n : nat) (H cells : mem) (ncells : nat).
Let ph (nc : nat) : R * R :=
  let qdotr := for_ 0 3 (fun a s => s + qn a * cells (3 * nc + a)%nat) 0 in
  (cos (2 * PI * qdotr), - sin (2 * PI * qdotr)).

Let g nc i j a b ptr x :=
  delta (2 * lin n i j a b) (- (fst (ph nc) * H ptr)) x + delta (2 * lin n i j a b + 1) (- (snd (ph nc) * H ptr)) x.

Lemma n_elems_hidx : (n_elems n = hidx n n + n)%nat.
Proof. unfold n_elems, hidx. rewrite Nat.sub_diag. rewrite sum_seq_S. ring. Qed.

Lemma c_real_at corr i j a b c : (i <= j)%nat -> (j < n)%nat -> (a < 3)%nat -> (b < 3)%nat -> (c < 2)%nat ->
  c_real_loop qn n H cells ncells corr (2 * lin n i j a b + c)%nat
  = corr (2 * lin n i j a b + c)%nat
    + Sum (seq 0 ncells) (fun nc =>
        - ((if Nat.eqb c 0 then fst (ph nc) else snd (ph nc))
           * H (9 * n_elems n * nc + 9 * (hidx n i + j) + 3 * a + b)%nat)).
Proof.
  intros Hij Hj Ha Hb Hc. unfold c_real_loop.
  match goal with |- fst (for_ 0 ncells ?B _) _ = _ =>
    destruct (for_ptr 0 ncells B (fun nc p x => Sum (seq 0 (n - 0)) (fun i => Sum (seq i (n - i)) (fun j =>
       Sum (seq 0 (3 - 0)) (fun a => Sum (seq 0 (3 - 0)) (fun b =>
         g nc i j a b (p + 9 * (hidx n i + i) + 9 * (j - i) + 3 * a + b)%nat x)))))
       (fun nc => 9 * n_elems n * nc)%nat corr ltac:(lia)) as [_ E] end.
  { intros nc m Hnc. cbv zeta.
    match goal with |- snd (for_ 0 n ?B _) = _ /\ _ =>
      pose proof (for_ptr 0 n B (fun i p x => Sum (seq i (n - i)) (fun j =>
       Sum (seq 0 (3 - 0)) (fun a => Sum (seq 0 (3 - 0)) (fun b =>
         g nc i j a b (p + 9 * (j - i) + 3 * a + b)%nat x))))
       (fun i => 9 * n_elems n * nc + 9 * (hidx n i + i))%nat m ltac:(lia)) as E end.
    cbv beta in E. replace (9 * n_elems n * nc + 9 * (hidx n 0 + 0))%nat with (9 * n_elems n * nc)%nat in E
      by (cbn [hidx seq fold_right]; lia).
    rewrite n_elems_hidx at 2. destruct E as [E1 E2].
    2:{ split; [etransitivity; [exact E1|rewrite <- n_elems_hidx; lia]|exact E2]. }
    clear E1 E2 || idtac.
    intros i' m1 Hi'.
    match goal with |- snd (for_ i' n ?B _) = _ /\ _ =>
      pose proof (for_ptr i' n B (fun j p x =>
       Sum (seq 0 (3 - 0)) (fun a => Sum (seq 0 (3 - 0)) (fun b =>
         g nc i' j a b (p + 3 * a + b)%nat x)))
       (fun j => 9 * n_elems n * nc + 9 * (hidx n i' + i') + 9 * (j - i'))%nat m1 ltac:(lia)) as E end.
    cbv beta in E. rewrite Nat.sub_diag, Nat.mul_0_r, Nat.add_0_r in E.
    destruct E as [E1 E2].
    2:{ split; [etransitivity; [exact E1|rewrite hidx_S by lia; lia]|exact E2]. }
    intros j' m2 Hj'.
    match goal with |- snd (for_ 0 3 ?B _) = _ /\ _ =>
      pose proof (for_ptr 0 3 B (fun a p x => Sum (seq 0 (3 - 0)) (fun b =>
         g nc i' j' a b (p + b)%nat x))
       (fun a => 9 * n_elems n * nc + 9 * (hidx n i' + i') + 9 * (j' - i') + 3 * a)%nat m2 ltac:(lia)) as E end.
    cbv beta in E. rewrite Nat.mul_0_r, Nat.add_0_r in E.
    destruct E as [E1 E2].
    2:{ split; [etransitivity; [exact E1|lia]|exact E2]. }
    intros a' m3 Ha'.
    match goal with |- snd (for_ 0 3 ?B _) = _ /\ _ =>
      pose proof (for_ptr 0 3 B (fun b p x => g nc i' j' a' b p x)
       (fun b => 9 * n_elems n * nc + 9 * (hidx n i' + i') + 9 * (j' - i') + 3 * a' + b)%nat m3 ltac:(lia)) as E end.
    cbv beta in E. rewrite Nat.add_0_r in E.
    destruct E as [E1 E2].
    2:{ split; [etransitivity; [exact E1|lia]|exact E2]. }
    intros b' m4 Hb'. cbn [fst snd]. split; [lia|]. intros x. rewrite cidx_lin. apply adds_madd2. }
  rewrite Nat.mul_0_r in E. rewrite E. f_equal. rewrite Nat.sub_0_r. apply Sum_ext. intros nc _.
  rewrite (eval_upper1 n (fun i j a b x => g nc i j a b (9 * n_elems n * nc + 9 * (hidx n i + i) + 9 * (j - i) + 3 * a + b)%nat x)
             _ (lin n i j a b) i j a b); try assumption; try reflexivity.
  - unfold g. rewrite delta2_at by exact Hc.
    replace (9 * n_elems n * nc + 9 * (hidx n i + i) + 9 * (j - i) + 3 * a + b)%nat
      with (9 * n_elems n * nc + 9 * (hidx n i + j) + 3 * a + b)%nat by lia.
    destruct (Nat.eqb c 0); reflexivity.
  - intros i' j' a' b' Hne. unfold g. apply delta2_off; assumption.
Qed.
End Real.

(** ** reciprocal loop *)
Section Recip.
Variables (qn recip atom_r dl : mem) (fac : R) (n ngv : nat) (gph gcart : mem).
Let q_cart := fun a => for_ 0 3 (fun b s => s + qn b * recip (3 * b + a)%nat) 0.
Let q_phase := fun i =>
    let qdotr := for_ 0 3 (fun a s => s + qn a * atom_r (3 * i + a)%nat) 0 in
    (cos (2 * PI * qdotr), - sin (2 * PI * qdotr)).
Let kvec ng := fun a => gcart (3 * ng + a)%nat + q_cart a.
Let kl ng := for_ 0 3 (fun a => for_ 0 3 (fun b s => s + kvec ng a * kvec ng b * dl (3 * a + b)%nat)) 0.
Let kab ng a b := kvec ng a * kvec ng b * (exp (- kl ng) / kl ng).
Let rr ng i := cmult_conj (q_phase i) (at2 gph (2 * (ng * n + i))).
Let rij ng i j := cmult_conj (rr ng i) (rr ng j).

Lemma c_recip_at corr i j a b c : (i <= j)%nat -> (j < n)%nat -> (a < 3)%nat -> (b < 3)%nat -> (c < 2)%nat ->
  c_recip_loop qn recip atom_r dl fac n ngv gph gcart corr (2 * lin n i j a b + c)%nat
  = corr (2 * lin n i j a b + c)%nat
    + Sum (seq 0 ngv) (fun ng => fac * (if Nat.eqb c 0 then fst (rij ng i j) else snd (rij ng i j)) * kab ng a b).
Proof.
  intros Hij Hj Ha Hb Hc.
  set (g := fun ng i j a b x =>
     delta (2 * lin n i j a b) (fac * fst (rij ng i j) * kab ng a b) x
     + delta (2 * lin n i j a b + 1) (fac * snd (rij ng i j) * kab ng a b) x).
  assert (AD : adds (c_recip_loop qn recip atom_r dl fac n ngv gph gcart)
    (fun x => Sum (seq 0 (ngv - 0)) (fun ng => Sum (seq 0 (n - 0)) (fun i => Sum (seq i (n - i)) (fun j =>
          Sum (seq 0 (3 - 0)) (fun a => Sum (seq 0 (3 - 0)) (fun b => g ng i j a b x))))))).
  { unfold c_recip_loop. cbv zeta. apply for_adds. intros ng _. apply for_adds. intros i' _.
    apply for_adds. intros j' _. apply for_adds. intros a' _. apply for_adds. intros b' _.
    unfold g. rewrite <- cidx_lin. apply adds_madd2. }
  rewrite AD. f_equal. rewrite Nat.sub_0_r. apply Sum_ext. intros ng _.
  rewrite (eval_upper1 n (g ng) _ (lin n i j a b) i j a b); try assumption; try reflexivity.
  - unfold g. rewrite delta2_at by exact Hc. destruct (Nat.eqb c 0); reflexivity.
  - intros i' j' a' b' Hne. unfold g. apply delta2_off; assumption.
Qed.
End Recip.
