(** Lemmas for C12: in-place Born charge contraction. *)
From Verif Require Import Base Cpx Vec3 M_grid M_cell M_qpts M_dynmat M_dipole M_cext S_dynmat S_dipole
  L_cell L_qpts L_dynmat L_dynmat2 L_dipole L_nac L_cmem L_cext L_cgrad L_cdip.
Open Scope R_scope.

Lemma seq3 (f : nat -> R) : Sum (seq 0 (3 - 0)) f = Sum idx3 f.
Proof. reflexivity. Qed.

(** Writing one block. *)
Lemma set_block n (u v : nat -> nat -> R) m i j i0 j0 a b c :
  (j < n)%nat -> (j0 < n)%nat -> (a < 3)%nat -> (b < 3)%nat -> (c < 2)%nat ->
  for_ 0 3 (fun a => for_ 0 3 (fun b m =>
    mset (mset m (cidx n i j a b) (u a b)) (cidx n i j a b + 1) (v a b))) m (2 * lin n i0 j0 a b + c)%nat
  = if (Nat.eqb i0 i && Nat.eqb j0 j)%bool then (if Nat.eqb c 0 then u a b else v a b)
    else m (2 * lin n i0 j0 a b + c)%nat.
Proof.
  intros Hj Hj0 Ha Hb Hc.
  assert (K : forall a' b', (a' < 3)%nat -> (b' < 3)%nat -> lin n i0 j0 a b = lin n i j a' b' ->
     i0 = i /\ j0 = j /\ a = a' /\ b = b') by (intros a' b' H1 H2; apply lin_inj; assumption).
  set (l := flat_map (fun a => map (fun b => (a, b)) (seq 0 (3 - 0))) (seq 0 (3 - 0))).
  set (step := fun (m : mem) (e : nat * nat) => let '(a, b) := e in
    mset (mset m (cidx n i j a b) (u a b)) (cidx n i j a b + 1) (v a b)).
  transitivity (fold_left step l m (2 * lin n i0 j0 a b + c)%nat).
  { unfold l. match goal with |- ?x (_ + _)%nat = ?y _ => assert (E : x = y); [|rewrite E; reflexivity] end.
    apply for_flat. intros a' s _. apply (for_map 0 3 (fun b => (a', b)) step s). }
  assert (Hl : forall a b, In (a, b) l <-> (a < 3)%nat /\ (b < 3)%nat).
  { intros a' b'. unfold l. rewrite in_flat_map. split.
    - intros [x [Hx H]]. apply in_map_iff in H. destruct H as [y [E Hy]]. injection E as <- <-.
      apply in_seq in Hx, Hy. lia.
    - intros [H1 H2]. exists a'. split; [apply in_seq; lia|]. apply in_map. apply in_seq; lia. }
  destruct (fold_local step (fun e x => let '(a, b) := e in x = cidx n i j a b \/ x = (cidx n i j a b + 1)%nat)
    (fun e _ x => let '(a, b) := e in if Nat.eqb x (cidx n i j a b + 1) then v a b else u a b) l) with (m := m)
    (x := (2 * lin n i0 j0 a b + c)%nat) as [H1 H2].
  - unfold l. repeat constructor; cbn; intuition congruence.
  - intros [a' b'] m' x _ Ho. cbn [step]. unfold mset.
    destruct (Nat.eqb_spec x (cidx n i j a' b' + 1)); [reflexivity|].
    destruct (Nat.eqb_spec x (cidx n i j a' b')); [reflexivity|]. destruct Ho; contradiction.
  - intros [a' b'] m' x _ Ho. cbn [step]. unfold mset.
    destruct (Nat.eqb_spec x (cidx n i j a' b' + 1)); [tauto|].
    destruct (Nat.eqb_spec x (cidx n i j a' b')); [tauto|]. reflexivity.
  - reflexivity.
  - intros [a1 b1] [a2 b2] x I1 I2 O1 O2. apply (proj1 (Hl _ _)) in I1, I2. rewrite !cidx_lin in O1, O2.
    assert (E : lin n i j a1 b1 = lin n i j a2 b2) by lia. apply lin_inj in E; try lia.
    destruct E as [_ [_ [-> ->]]]. reflexivity.
  - destruct (Nat.eqb_spec i0 i) as [->|Hi]; [destruct (Nat.eqb_spec j0 j) as [->|Hjj]|]; cbn [andb].
    + rewrite (H1 (a, b)); [|apply Hl; lia|rewrite cidx_lin; lia]. rewrite cidx_lin.
      destruct c as [|[|c]]; [| |lia].
      * destruct (Nat.eqb_spec (2 * lin n i j a b + 0) (2 * lin n i j a b + 1)); [lia|reflexivity].
      * rewrite Nat.eqb_refl. reflexivity.
    + apply H2. intros [a' b'] I. apply (proj1 (Hl _ _)) in I. rewrite cidx_lin. intros O.
      assert (E : lin n i j0 a b = lin n i j a' b') by lia. apply K in E; lia.
    + apply H2. intros [a' b'] I. apply (proj1 (Hl _ _)) in I. rewrite cidx_lin. intros O.
      assert (E : lin n i0 j0 a b = lin n i j a' b') by lia. apply K in E; lia.
Qed.

(** Adding to one block. *)
Lemma add_block n (u v : nat -> nat -> R) m i j i0 j0 a b c :
  (j < n)%nat -> (j0 < n)%nat -> (a < 3)%nat -> (b < 3)%nat -> (c < 2)%nat ->
  for_ 0 3 (fun a => for_ 0 3 (fun b m =>
    madd (madd m (cidx n i j a b) (u a b)) (cidx n i j a b + 1) (v a b))) m (2 * lin n i0 j0 a b + c)%nat
  = m (2 * lin n i0 j0 a b + c)%nat
    + if (Nat.eqb i0 i && Nat.eqb j0 j)%bool then (if Nat.eqb c 0 then u a b else v a b) else 0.
Proof.
  intros Hj Hj0 Ha Hb Hc.
  set (g := fun a b x => delta (2 * lin n i j a b) (u a b) x + delta (2 * lin n i j a b + 1) (v a b) x).
  match goal with |- for_ 0 3 ?B _ _ = _ => assert (AD : adds (for_ 0 3 B)
     (fun x => Sum (seq 0 (3 - 0)) (fun a => Sum (seq 0 (3 - 0)) (fun b => g a b x)))) end.
  { apply for_adds. intros a' _. apply for_adds. intros b' _. unfold g. rewrite <- cidx_lin. apply adds_madd2. }
  rewrite AD. f_equal.
  assert (Z : forall a' b', lin n i0 j0 a b <> lin n i j a' b' -> g a' b' (2 * lin n i0 j0 a b + c)%nat = 0).
  { intros a' b' Hne. unfold g. apply delta2_off; [exact Hc|congruence]. }
  destruct (Nat.eqb_spec i0 i) as [->|Hi]; [destruct (Nat.eqb_spec j0 j) as [->|Hjj]|]; cbn [andb].
  - rewrite (Sum_single _ _ a); [|apply seq_NoDup|apply in_seq; lia|].
    + rewrite (Sum_single _ _ b); [|apply seq_NoDup|apply in_seq; lia|].
      * unfold g. apply delta2_at. exact Hc.
      * intros b' Hb' Hne. apply in_seq in Hb'. apply Z. intros E. apply lin_inj in E; lia.
    + intros a' Ha' Hne. apply in_seq in Ha'. apply Sum_zero_ext. intros b' Hb'. apply in_seq in Hb'.
      apply Z. intros E. apply lin_inj in E; lia.
  - apply Sum_zero_ext. intros a' Ha'. apply Sum_zero_ext. intros b' Hb'. apply in_seq in Ha', Hb'.
    apply Z. intros E. apply lin_inj in E; lia.
  - apply Sum_zero_ext. intros a' Ha'. apply Sum_zero_ext. intros b' Hb'. apply in_seq in Ha', Hb'.
    apply Z. intros E. apply lin_inj in E; lia.
Qed.

Section Born.
Variables (n : nat) (born q0 : mem).
Let T (m : mem) i j a b c : R :=
  Sum idx3 (fun aa => Sum idx3 (fun bb =>
    born (9 * i + 3 * a + aa)%nat * born (9 * j + 3 * b + bb)%nat * m (2 * lin n i j aa bb + c)%nat)).

Let tmpf (corr : mem) i j : mem :=
  for_ 0 3 (fun a => for_ 0 3 (fun b => for_ 0 3 (fun aa => for_ 0 3 (fun bb tmp =>
        let idx := cidx n i j aa bb in
        let born_fac := born (9 * i + 3 * a + aa)%nat * born (9 * j + 3 * b + bb)%nat in
        madd (madd tmp (6 * a + 2 * b) (born_fac * corr idx))
             (6 * a + 2 * b + 1) (born_fac * corr (idx + 1)%nat))))) (fun _ => 0).

Lemma tmp_at corr i j a b c : (a < 3)%nat -> (b < 3)%nat -> (c < 2)%nat ->
  tmpf corr i j (6 * a + 2 * b + c)%nat = T corr i j a b c.
Proof.
  intros Ha Hb Hc. unfold tmpf, T.
  set (bf := fun a b aa bb => born (9 * i + 3 * a + aa)%nat * born (9 * j + 3 * b + bb)%nat).
  set (g := fun a b aa bb x => delta (2 * (3 * a + b)) (bf a b aa bb * corr (cidx n i j aa bb)) x
     + delta (2 * (3 * a + b) + 1) (bf a b aa bb * corr (cidx n i j aa bb + 1)%nat) x).
  match goal with |- for_ 0 3 ?B _ _ = _ => assert (AD : adds (for_ 0 3 B)
     (fun x => Sum (seq 0 (3 - 0)) (fun a => Sum (seq 0 (3 - 0)) (fun b => Sum (seq 0 (3 - 0)) (fun aa =>
         Sum (seq 0 (3 - 0)) (fun bb => g a b aa bb x)))))) end.
  { apply for_adds. intros a' _. apply for_adds. intros b' _. apply for_adds. intros aa _.
    apply for_adds. intros bb _. unfold g. replace (2 * (3 * a' + b'))%nat with (6 * a' + 2 * b')%nat by ring.
    cbv zeta. apply adds_madd2. }
  rewrite AD, Rplus_0_l. replace (6 * a + 2 * b + c)%nat with (2 * (3 * a + b) + c)%nat by ring.
  assert (Z : forall a' b' aa bb, (3 * a' + b' <> 3 * a + b)%nat -> g a' b' aa bb (2 * (3 * a + b) + c)%nat = 0).
  { intros. unfold g. apply delta2_off; assumption. }
  rewrite (Sum_single _ _ a); [|apply seq_NoDup|apply in_seq; lia|].
  2:{ intros a' Ha' Hne. apply Sum_zero_ext. intros b' Hb'. apply in_seq in Ha', Hb'.
      apply Sum_zero_ext. intros aa _. apply Sum_zero_ext. intros bb _. apply Z. lia. }
  rewrite (Sum_single _ _ b); [|apply seq_NoDup|apply in_seq; lia|].
  2:{ intros b' Hb' Hne. apply in_seq in Hb'.
      apply Sum_zero_ext. intros aa _. apply Sum_zero_ext. intros bb _. apply Z. lia. }
  rewrite seq3. apply Sum_ext. intros aa _. rewrite seq3. apply Sum_ext. intros bb _.
  unfold g. rewrite delta2_at by exact Hc. rewrite cidx_lin. unfold bf.
  destruct c as [|[|c]]; [| |lia]; cbn [Nat.eqb]; rewrite ?Nat.add_0_r; reflexivity.
Qed.

Let block i j (corr : mem) : mem :=
  for_ 0 3 (fun a => for_ 0 3 (fun b m =>
        let idx := cidx n i j a b in
        mset (mset m idx (tmpf corr i j (6 * a + 2 * b)%nat)) (idx + 1) (tmpf corr i j (6 * a + 2 * b + 1)%nat))) corr.

Lemma block_at corr i j i0 j0 a b c :
  (j < n)%nat -> (j0 < n)%nat -> (a < 3)%nat -> (b < 3)%nat -> (c < 2)%nat ->
  block i j corr (2 * lin n i0 j0 a b + c)%nat
  = if (Nat.eqb i0 i && Nat.eqb j0 j)%bool then T corr i j a b c else corr (2 * lin n i0 j0 a b + c)%nat.
Proof.
  intros Hj Hj0 Ha Hb Hc. unfold block. cbv zeta.
  rewrite (set_block n (fun a b => tmpf corr i j (6 * a + 2 * b)%nat) (fun a b => tmpf corr i j (6 * a + 2 * b + 1)%nat)) by assumption.
  rewrite <- tmp_at by assumption.
  destruct c as [|[|c]]; [| |lia]; cbn [Nat.eqb]; rewrite ?Nat.add_0_r; reflexivity.
Qed.

Lemma T_ext m m' i j a b c : (forall aa bb, (aa < 3)%nat -> (bb < 3)%nat ->
   m (2 * lin n i j aa bb + c)%nat = m' (2 * lin n i j aa bb + c)%nat) -> T m i j a b c = T m' i j a b c.
Proof.
  intros E. unfold T. apply Sum_ext. intros aa Haa. apply Sum_ext. intros bb Hbb. f_equal.
  apply E; [destruct Haa as [<-|[<-|[<-|[]]]]|destruct Hbb as [<-|[<-|[<-|[]]]]]; lia.
Qed.

Lemma row_at corr i i0 j0 a b c : (i < n)%nat -> (i0 <= j0)%nat -> (j0 < n)%nat -> (a < 3)%nat -> (b < 3)%nat -> (c < 2)%nat ->
  for_ i n (fun j => block i j) corr (2 * lin n i0 j0 a b + c)%nat
  = if Nat.eqb i0 i then T corr i j0 a b c else corr (2 * lin n i0 j0 a b + c)%nat.
Proof.
  intros Hi Hij0 Hj0 Ha Hb Hc.
  pose proof (for_ind (fun k r => forall i0 j0 a b c, (i0 <= j0)%nat -> (j0 < n)%nat -> (a < 3)%nat -> (b < 3)%nat -> (c < 2)%nat ->
     r (2 * lin n i0 j0 a b + c)%nat = if (Nat.eqb i0 i && Nat.ltb j0 k)%bool then T corr i j0 a b c
                                       else corr (2 * lin n i0 j0 a b + c)%nat)
     i n (fun j => block i j) corr ltac:(lia)) as I.
  rewrite I; clear I; try assumption.
  - destruct (Nat.ltb_spec j0 n); [|lia]. rewrite Bool.andb_true_r. reflexivity.
  - clear. intros i0 j0 a b c Hij Hj Ha Hb Hc. destruct (Nat.eqb_spec i0 i) as [->|]; [|reflexivity].
    destruct (Nat.ltb_spec j0 i); [lia|reflexivity].
  - clear - Hi. intros j r Hj IH i0 j0 a b c Hij Hj0 Ha Hb Hc.
    rewrite block_at by (assumption || lia).
    destruct (Nat.eqb_spec i0 i) as [->|Hne]; cbn [andb].
    + destruct (Nat.eqb_spec j0 j) as [->|Hne].
      * destruct (Nat.ltb_spec j (S j)); [|lia]. apply T_ext. intros aa bb Haa Hbb.
        rewrite IH by (assumption || lia). destruct (Nat.ltb_spec j j); [lia|]. rewrite Bool.andb_false_r. reflexivity.
      * rewrite IH by assumption. rewrite Nat.eqb_refl. cbn [andb].
        destruct (Nat.ltb_spec j0 j), (Nat.ltb_spec j0 (S j)); try lia; reflexivity.
    + rewrite IH by assumption. destruct (Nat.eqb_spec i0 i); [contradiction|reflexivity].
Qed.

Lemma c_born_at corr i j a b c : (i <= j)%nat -> (j < n)%nat -> (a < 3)%nat -> (b < 3)%nat -> (c < 2)%nat ->
  c_born_loop n born q0 corr (2 * lin n i j a b + c)%nat
  = T corr i j a b c - (if Nat.eqb i j then q0 (18 * i + 6 * a + 2 * b + c)%nat else 0).
Proof.
  intros Hij Hj Ha Hb Hc.
  set (V := fun i j a b c => T corr i j a b c - (if Nat.eqb i j then q0 (18 * i + 6 * a + 2 * b + c)%nat else 0)).
  unfold c_born_loop.
  match goal with |- for_ 0 n ?B _ _ = _ =>
  pose proof (for_ind (fun k r => forall i j a b c, (i <= j)%nat -> (j < n)%nat -> (a < 3)%nat -> (b < 3)%nat -> (c < 2)%nat ->
     r (2 * lin n i j a b + c)%nat = if Nat.ltb i k then V i j a b c
                                       else corr (2 * lin n i j a b + c)%nat) 0%nat n B corr ltac:(lia)) as I end.
  cbv zeta in I |- *. rewrite I; clear I; try assumption.
  - destruct (Nat.ltb_spec i n); [reflexivity|lia].
  - reflexivity.
  - clear i j a b c Hij Hj Ha Hb Hc. intros k r Hk IH i j a b c Hij Hj Ha Hb Hc.
    rewrite (add_block n (fun a b => - q0 (18 * k + 6 * a + 2 * b)%nat) (fun a b => - q0 (18 * k + 6 * a + 2 * b + 1)%nat))
      by (assumption || lia).
    etransitivity; [apply f_equal2; [exact (row_at r k i j a b c ltac:(lia) Hij Hj Ha Hb Hc)|reflexivity]|].
    destruct (Nat.eqb_spec i k) as [->|Hne]; cbn [andb].
    + destruct (Nat.ltb_spec k (S k)); [|lia]. unfold V, Rminus. f_equal.
      * apply T_ext. intros aa bb Haa Hbb. rewrite IH by assumption.
        destruct (Nat.ltb_spec k k); [lia|reflexivity].
      * destruct (Nat.eqb_spec j k) as [Ejk|Ejk], (Nat.eqb_spec k j) as [Ekj|Ekj]; try lia; [|lra].
        destruct c as [|[|c]]; [| |lia]; cbn [Nat.eqb]; rewrite ?Nat.add_0_r; reflexivity.
    + rewrite IH by assumption.
      destruct (Nat.ltb_spec i k), (Nat.ltb_spec i (S k)); try lia; lra.
Qed.
End Born.
