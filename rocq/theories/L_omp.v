(** Lemmas: parallel loop. *)
From Verif Require Import Base Cpx Vec3 M_grid M_cell M_qpts M_dynmat M_dipole M_cext M_omp S_dynmat S_dipole S_cext
  L_cell L_qpts L_dipole L_nac L_cmem L_cext L_cdip2 L_cmain.

Lemma first_where_spec l q :
  match first_where l q with
  | Some k => nth_error l k = Some q /\ forall j, (j < k)%nat -> nth_error l j <> Some q
  | None => forall j, nth_error l j <> Some q
  end.
Proof.
  unfold first_where, where_eq.
  assert (G : forall l s, match hd_error (filter (fun i => Nat.eqb (nth (i - s) l 0%nat) q && Nat.leb s i)%bool (seq s (length l))) with
     | Some k => (s <= k)%nat /\ nth_error l (k - s) = Some q /\ forall j, (j < k - s)%nat -> nth_error l j <> Some q
     | None => forall j, nth_error l j <> Some q end).
  { clear. induction l as [|x l IH]; intros s.
    - cbn. intros [|j]; discriminate.
    - cbn [length seq filter]. rewrite Nat.sub_diag, Nat.leb_refl. cbn [nth].
      destruct (Nat.eqb_spec x q) as [->|Hne]; cbn [andb hd_error].
      + split; [lia|]. rewrite Nat.sub_diag. split; [reflexivity|]. intros; lia.
      + specialize (IH (S s)).
        rewrite (filter_ext_in (fun i => (nth (i - s) (x :: l) 0 =? q)%nat && (s <=? i)%nat)%bool
                  (fun i => (nth (i - S s) l 0 =? q)%nat && (S s <=? i)%nat)%bool).
        2:{ intros i Hi. apply in_seq in Hi. replace (i - s)%nat with (S (i - S s)) by lia. cbn [nth].
            destruct (Nat.leb_spec s i), (Nat.leb_spec (S s) i); try lia; reflexivity. }
        destruct (hd_error _) as [k|].
        * destruct IH as [H1 [H2 H3]]. split; [lia|]. replace (k - s)%nat with (S (k - S s)) by lia.
          split; [exact H2|]. intros [|j] Hj; cbn; [congruence|]. apply H3. lia.
        * intros [|j]; cbn; [congruence|apply IH]. }
  specialize (G l 0%nat).
  rewrite (filter_ext_in _ (fun i => (nth i l 0 =? q)%nat)) in G.
  2:{ intros i _. rewrite Nat.sub_0_r. cbn. apply Bool.andb_true_r. }
  unfold where_true. rewrite map_length.
  rewrite (filter_ext_in _ (fun i => (nth i l 0 =? q)%nat)).
  2:{ intros i Hi. apply in_seq in Hi.
      rewrite (nth_indep _ false (Nat.eqb 0 q)) by (rewrite map_length; lia).
      apply (map_nth (fun x => Nat.eqb x q)). }
  destruct (hd_error _) as [k|]; [rewrite Nat.sub_0_r in G; tauto|exact G].
Qed.

Definition answer (l : list nat) (q : nat) : Z :=
  match first_where l q with Some k => Z.of_nat k | None => (-1)%Z end.

Definition inv (l : list nat) (q : nat) (s : shared) (p : pc) : Prop :=
  match p with
  | P_init => True
  | P_zero => sh_qpos s = (-1)%Z
  | P_test => sh_qpos s = (-1)%Z /\ forall j, (j < sh_i s)%nat -> nth_error l j <> Some q
  | P_cmp => sh_qpos s = (-1)%Z /\ forall j, (j < sh_i s)%nat -> nth_error l j <> Some q
  | P_inc => sh_qpos s = (-1)%Z /\ forall j, (j <= sh_i s)%nat -> nth_error l j <> Some q
  | P_found => nth_error l (sh_i s) = Some q /\ forall j, (j < sh_i s)%nat -> nth_error l j <> Some q
  | P_use => sh_qpos s = answer l q
  | P_done v => v = answer l q
  end.

Lemma inv_step l q s p : inv l q s p -> let '(s', p') := step_thread l q s p in inv l q s' p'.
Proof.
  pose proof (first_where_spec l q) as F.
  destruct p; cbn [inv step_thread]; intros H; cbn [sh_i sh_qpos]; auto.
  - split; [exact H|]. intros; lia.
  - destruct H as [H1 H2]. destruct (Nat.ltb_spec (sh_i s) (length l)) as [L|L]; cbn [inv]; [auto|].
    rewrite H1. unfold answer. destruct (first_where l q) as [k|]; [|reflexivity].
    destruct F as [F1 F2]. exfalso. apply (H2 k); [|exact F1].
    assert (k < length l)%nat by (apply nth_error_Some; congruence). lia.
  - destruct H as [H1 H2]. destruct (nth_error l (sh_i s)) as [v|] eqn:E.
    + destruct (Nat.eqb_spec v q) as [->|Hne]; cbn [inv]; [auto|]. split; [exact H1|].
      intros j Hj. destruct (Nat.eq_dec j (sh_i s)) as [->|]; [congruence|apply H2; lia].
    + cbn [inv]. split; [exact H1|]. intros j Hj.
      destruct (Nat.eq_dec j (sh_i s)) as [->|]; [congruence|apply H2; lia].
  - destruct H as [H1 H2]. unfold answer. destruct (first_where l q) as [k|].
    + destruct F as [F1 F2]. f_equal.
      destruct (lt_eq_lt_dec k (sh_i s)) as [[L|E]|L]; [exfalso; exact (H2 k L F1)|congruence|exfalso; exact (F2 _ L H1)].
    + exfalso. exact (F _ H1).
  - destruct H as [H1 H2]. split; [exact H1|]. intros j Hj. apply H2. lia.
Qed.

(** Only thread [t] is inside the search; the others have nothing left to do. *)
Lemma lookup_alone l qof t sched s ps v :
  ps t = P_init -> (forall t', t' <> t -> exists w, ps t' = P_done w) ->
  snd (run_threads l qof sched s ps) t = P_done v -> v = answer l (qof t).
Proof.
  intros Hp Ho.
  assert (G : forall sched s ps, inv l (qof t) s (ps t) -> (forall t', t' <> t -> exists w, ps t' = P_done w) ->
     let r := run_threads l qof sched s ps in inv l (qof t) (fst r) (snd r t)).
  { clear. induction sched as [|a sched IH]; intros s ps Hi Ho; [exact Hi|].
    unfold run_threads. cbn [fold_left].
    destruct (step_thread l (qof a) s (ps a)) as [s' p'] eqn:E.
    apply (IH s' (upd a p' ps)).
    - destruct (Nat.eq_dec a t) as [->|Hne].
      + unfold upd. rewrite Nat.eqb_refl. pose proof (inv_step l (qof t) s (ps t) Hi) as K. rewrite E in K. exact K.
      + unfold upd. destruct (Nat.eqb_spec t a); [congruence|].
        destruct (Ho a Hne) as [w Ew]. rewrite Ew in E. cbn in E. injection E as <- <-. exact Hi.
    - intros t' Hne. unfold upd. destruct (Nat.eqb_spec t' a) as [->|].
      + destruct (Ho a Hne) as [w Ew]. rewrite Ew in E. cbn in E. injection E as <- <-. exists w. reflexivity.
      + apply Ho. exact Hne. }
  intros Hv. specialize (G sched s ps). cbv zeta in G. rewrite Hp in G. specialize (G I Ho).
  rewrite Hv in G. exact G.
Qed.

(** and it does finish. *)
Lemma run_done l qof t k s ps v : ps t = P_done v -> snd (run_threads l qof (repeat t k) s ps) t = P_done v.
Proof.
  revert s ps. induction k as [|k IH]; intros s ps Hp; [exact Hp|].
  unfold run_threads. cbn [repeat fold_left]. rewrite Hp. cbn [step_thread].
  apply IH. unfold upd. rewrite Nat.eqb_refl. reflexivity.
Qed.
Lemma run_one l qof t k s ps : snd (run_threads l qof (repeat t (S k)) s ps) t
  = let '(s', p') := step_thread l (qof t) s (ps t) in snd (run_threads l qof (repeat t k) s' (upd t p' ps)) t.
Proof.
  unfold run_threads. cbn [repeat fold_left]. destruct (step_thread l (qof t) s (ps t)). reflexivity.
Qed.
Lemma upd_same {A} t (v : A) f : upd t v f t = v.
Proof. unfold upd. rewrite Nat.eqb_refl. reflexivity. Qed.

Lemma lookup_finishes l qof t s ps : ps t = P_init ->
  exists k v, snd (run_threads l qof (repeat t k) s ps) t = P_done v.
Proof.
  intros Hp.
  assert (U : forall s ps, ps t = P_use -> exists k v, snd (run_threads l qof (repeat t k) s ps) t = P_done v).
  { intros s0 ps0 H. exists 1%nat, (sh_qpos s0). rewrite run_one, H. cbn. apply upd_same. }
  assert (T : forall m s ps, (length l - sh_i s <= m)%nat -> ps t = P_test ->
     exists k v, snd (run_threads l qof (repeat t k) s ps) t = P_done v).
  { induction m as [|m IH]; intros s0 ps0 Hm H.
    - destruct (U s0 (upd t P_use ps0) (upd_same _ _ _)) as [k [v E]]. exists (S k), v.
      rewrite run_one, H. cbn [step_thread]. destruct (Nat.ltb_spec (sh_i s0) (length l)); [lia|]. exact E.
    - destruct (Nat.ltb_spec (sh_i s0) (length l)) as [L|L].
      2:{ destruct (U s0 (upd t P_use ps0) (upd_same _ _ _)) as [k [v E]]. exists (S k), v.
          rewrite run_one, H. cbn [step_thread]. destruct (Nat.ltb_spec (sh_i s0) (length l)); [lia|]. exact E. }
      destruct (nth_error l (sh_i s0)) as [v|] eqn:En; [|apply nth_error_None in En; lia].
      destruct (Nat.eqb_spec v (qof t)) as [Ev|Ev].
      + destruct (U (mkSh (sh_i s0) (Z.of_nat (sh_i s0))) (upd t P_use (upd t P_found (upd t P_cmp ps0))) (upd_same _ _ _))
          as [k [w E]]. exists (S (S (S k))), w.
        rewrite run_one, H. cbn [step_thread]. destruct (Nat.ltb_spec (sh_i s0) (length l)); [|lia].
        rewrite run_one, upd_same. cbn [step_thread]. rewrite En. destruct (Nat.eqb_spec v (qof t)); [|contradiction].
        rewrite run_one, upd_same. cbn [step_thread]. exact E.
      + destruct (IH (mkSh (S (sh_i s0)) (sh_qpos s0)) (upd t P_test (upd t P_inc (upd t P_cmp ps0)))) as [k [w E]].
        { cbn. lia. } { apply upd_same. }
        exists (S (S (S k))), w.
        rewrite run_one, H. cbn [step_thread]. destruct (Nat.ltb_spec (sh_i s0) (length l)); [|lia].
        rewrite run_one, upd_same. cbn [step_thread]. rewrite En. destruct (Nat.eqb_spec v (qof t)); [contradiction|].
        rewrite run_one, upd_same. cbn [step_thread]. exact E. }
  destruct (T (length l) (mkSh 0 (-1)) (upd t P_test (upd t P_zero ps))) as [k [v E]].
  { cbn. lia. } { apply upd_same. }
  exists (S (S k)), v. rewrite run_one, Hp. cbn [step_thread]. rewrite run_one, upd_same. cbn [step_thread]. exact E.
Qed.

(** ** the loop: any order *)
Lemma store_in base len v m k : (k < len)%nat -> store base len v m (base + k)%nat = v k.
Proof.
  intros H. unfold store. destruct (Nat.leb_spec base (base + k)); [|lia].
  destruct (Nat.ltb_spec (base + k) (base + len)); [|lia]. cbn [andb]. f_equal. lia.
Qed.
Lemma store_out base len v m x : (x < base \/ base + len <= x)%nat -> store base len v m x = m x.
Proof.
  intros H. unfold store. destruct (Nat.leb_spec base x); [|reflexivity].
  destruct (Nat.ltb_spec x (base + len)); [lia|reflexivity].
Qed.

Section Loop.
Variables (eigh : nat -> (nat -> nat -> C) -> (nat -> R) * (nat -> nat -> C)) (A : c_args)
  (qpts : list V3) (dirs : nat -> option V3) (scratch : nat -> mem * mem * mem).
Let n := ca_n A.
Let one q := let '(dm, dg, corr) := scratch q in
  c_one_q eigh A (vmem (nth q qpts vzero)) (option_map vmem (dirs q)) dm dg corr.

Lemma c_iter_at o q q' :
  (forall k, (k < 3 * n)%nat -> o_evals (c_iteration eigh A qpts dirs scratch o q) (q' * (3 * n) + k)%nat
     = if Nat.eqb q' q then fst (fst (one q)) k else o_evals o (q' * (3 * n) + k)%nat) /\
  (forall k, (k < 2 * 9 * n * n)%nat -> o_dmats (c_iteration eigh A qpts dirs scratch o q) (q' * (2 * 9 * n * n) + k)%nat
     = if Nat.eqb q' q then snd (fst (one q)) k else o_dmats o (q' * (2 * 9 * n * n) + k)%nat) /\
  (forall k, (k < 18 * n)%nat -> o_modegs (c_iteration eigh A qpts dirs scratch o q) (q' * (18 * n) + k)%nat
     = if Nat.eqb q' q then snd (one q) k else o_modegs o (q' * (18 * n) + k)%nat).
Proof.
  unfold c_iteration, one. destruct (scratch q) as [[dm dg] corr].
  destruct (c_one_q _ _ _ _ _ _ _) as [[f e] g]. cbn [fst snd o_evals o_dmats o_modegs]. fold n.
  repeat split; intros k Hk; destruct (Nat.eqb_spec q' q) as [->|Hne];
    try (apply store_in; exact Hk); apply store_out;
    (assert (q' < q \/ q < q')%nat as [L|L] by lia; [left|right]; nia).
Qed.

Lemma c_loop_at order o q : NoDup order -> In q order ->
  let r := c_loop eigh A qpts dirs scratch order o in
  (forall k, (k < 3 * n)%nat -> o_evals r (q * (3 * n) + k)%nat = fst (fst (one q)) k) /\
  (forall k, (k < 2 * 9 * n * n)%nat -> o_dmats r (q * (2 * 9 * n * n) + k)%nat = snd (fst (one q)) k) /\
  (forall k, (k < 18 * n)%nat -> o_modegs r (q * (18 * n) + k)%nat = snd (one q) k).
Proof.
  assert (Keep : forall order o, ~ In q order ->
    let r := c_loop eigh A qpts dirs scratch order o in
    (forall k, (k < 3 * n)%nat -> o_evals r (q * (3 * n) + k)%nat = o_evals o (q * (3 * n) + k)%nat) /\
    (forall k, (k < 2 * 9 * n * n)%nat -> o_dmats r (q * (2 * 9 * n * n) + k)%nat = o_dmats o (q * (2 * 9 * n * n) + k)%nat) /\
    (forall k, (k < 18 * n)%nat -> o_modegs r (q * (18 * n) + k)%nat = o_modegs o (q * (18 * n) + k)%nat)).
  { clear order o. induction order as [|a order IH]; intros o Hni; [repeat split|].
    unfold c_loop. cbn [fold_left]. specialize (IH (c_iteration eigh A qpts dirs scratch o a) ltac:(intros H; apply Hni; right; exact H)).
    destruct IH as [I1 [I2 I3]]. destruct (c_iter_at o a q) as [K1 [K2 K3]].
    assert (E : Nat.eqb q a = false) by (apply Nat.eqb_neq; intros ->; apply Hni; left; reflexivity).
    rewrite E in K1, K2, K3.
    repeat split; intros k Hk; (etransitivity; [|apply K1 || apply K2 || apply K3; exact Hk]); auto. }
  revert o. induction order as [|a order IH]; intros o Hnd Hin; [contradiction|].
  inversion Hnd as [|? ? Hni Hnd']; subst. unfold c_loop. cbn [fold_left].
  destruct Hin as [->|Hin].
  - destruct (Keep order (c_iteration eigh A qpts dirs scratch o q) Hni) as [I1 [I2 I3]].
    destruct (c_iter_at o q q) as [K1 [K2 K3]]. rewrite Nat.eqb_refl in K1, K2, K3.
    repeat split; intros k Hk.
    + rewrite <- K1 by exact Hk. apply I1. exact Hk.
    + rewrite <- K2 by exact Hk. apply I2. exact Hk.
    + rewrite <- K3 by exact Hk. apply I3. exact Hk.
  - apply IH; assumption.
Qed.
End Loop.

(** Everything together. *)
Theorem c_loop_python eigh erfc d junk mass polar asr grad qpts dirs scratch order o :
  reads_square eigh ->
  let t := sc_images d 2 in
  let fcw := fc_img_weighted t junk (f_fc d) in
  let dip := dip_inputs erfc d polar in
  (forall born diel dp, polar = Some (born, diel, dp) -> c_det_array diel = np_linalg_det diel /\
     forall k, (k < length qpts)%nat -> off_zone_face (nth k qpts vzero) /\
       (dirs k <> None -> qnorm (nth k qpts vzero) = vzero)) ->
  (forall M, asr = Some M -> forall a b, M a b = M b a) ->
  (grad = true -> home_first d /\ search_complete d /\ fc_symmetric d) ->
  Permutation order (seq 0 (length qpts)) ->
  let r := c_loop eigh (marshal d 2 t fcw mass dip asr grad) qpts dirs scratch order o in
  let N := (3 * n_atoms d)%nat in
  forall k, (k < length qpts)%nat ->
  let '(pf, pe, pg) := py_one_q eigh d 2 t fcw mass dip asr (dirs k) (nth k qpts vzero) in
  forall m, (m < N)%nat ->
    o_evals r (k * N + m)%nat = pf m /\
    (forall x, (x < N)%nat -> entry (o_dmats r) (k * (N * N) + m * N + x) = pe m x) /\
    (grad = true -> forall l, (l < 3)%nat -> entry (o_modegs r) (k * (3 * N) + 3 * m + l) = pg m l).
Proof.
  intros Heig t fcw dip Hdip Hasr Hgrad Hperm r N k Hk.
  assert (Hnd : NoDup order) by (apply (Permutation_NoDup (Permutation_sym Hperm)); apply seq_NoDup).
  assert (Hin : In k order) by (apply (Permutation_in k (Permutation_sym Hperm)); apply in_seq; lia).
  set (A := marshal d 2 t fcw mass dip asr grad) in *.
  destruct (c_loop_at eigh A qpts dirs scratch order o k Hnd Hin) as [L1 [L2 L3]]. fold r in L1, L2, L3.
  change (ca_n A) with (n_atoms d) in L1, L2, L3.
  destruct (scratch k) as [[dm dg] corr].
  pose proof (c_one_q_eq eigh d junk mass dip asr grad (dirs k) (nth k qpts vzero) dm dg corr Heig) as E.
  cbv zeta in E. fold t fcw A in E.
  assert (HD : forall D, dip = Some D ->
    (exists mk, dip_ok mk (reciprocal_cell (f_cell d)) (f_atom_r d) (di_dd D)) /\ dip_sized (di_dd D) /\
    c_det_array (di_diel D) = np_linalg_det (di_diel D) /\ off_zone_face (nth k qpts vzero) /\
    (dirs k <> None -> qnorm (nth k qpts vzero) = vzero)).
  { intros D ED. unfold dip, dip_inputs in ED. destruct polar as [[[born diel] dp]|]; [|discriminate].
    cbn in ED. injection ED as <-. cbn [di_dd di_diel]. destruct (Hdip born diel dp eq_refl) as [Q1 Q2].
    split; [eexists; apply dipole_init_ok|]. split; [apply dipole_init_sized|]. split; [exact Q1|]. apply Q2. exact Hk. }
  specialize (E HD Hasr Hgrad).
  destruct (c_one_q eigh A (vmem (nth k qpts vzero)) (option_map vmem (dirs k)) dm dg corr) as [[cf ce] cg].
  destruct (py_one_q eigh d 2 t fcw mass dip asr (dirs k) (nth k qpts vzero)) as [[pf pe] pg].
  intros m Hm. destruct (E m Hm) as [E1 [E2 E3]]. cbn [fst snd] in L1, L2, L3.
  split; [unfold N; rewrite L1 by exact Hm; exact E1|]. split.
  - intros x Hx. rewrite <- E2 by exact Hx. unfold entry, cget.
    assert (m * N + x < N * N)%nat by nia.
    assert (B : (2 * 9 * n_atoms d * n_atoms d = 2 * (N * N))%nat) by (unfold N; ring).
    rewrite B in L2.
    replace (2 * (k * (N * N) + m * N + x))%nat with (k * (2 * (N * N)) + 2 * (m * N + x))%nat by ring.
    rewrite L2 by lia.
    replace (k * (2 * (N * N)) + 2 * (m * N + x) + 1)%nat with (k * (2 * (N * N)) + (2 * (m * N + x) + 1))%nat by ring.
    rewrite L2 by lia. reflexivity.
  - intros Hg l Hl. rewrite <- E3 by assumption. unfold entry, cget.
    replace (2 * (k * (3 * N) + 3 * m + l))%nat with (k * (18 * n_atoms d) + 2 * (3 * m + l))%nat by (unfold N; ring).
    rewrite L3 by (unfold N in Hm; lia).
    replace (k * (18 * n_atoms d) + 2 * (3 * m + l) + 1)%nat with (k * (18 * n_atoms d) + (2 * (3 * m + l) + 1))%nat by ring.
    rewrite L3 by (unfold N in Hm; lia). reflexivity.
Qed.

(** ** Off-diagonal dielectric tensor *)
Definition skew_diel : M3 := ((2, 1, 0), (1, 2, 0), (0, 0, 1)).
Definition skew_dd : dipdata :=
  mkDip 1 [fun _ _ _ => 1] [(0,0,0)%Z] [fst (g_row (reciprocal_cell unit_cell3) pair_atoms (0,0,0)%Z)]
    [snd (g_row (reciprocal_cell unit_cell3) pair_atoms (0,0,0)%Z)] (fun _ _ _ => Czero).
Definition skew_dip : dipin := mkDipin (fun _ => unit_cell3) skew_diel skew_dd.

Lemma skew_ok : dip_ok (fun _ _ _ _ _ => 1) (reciprocal_cell unit_cell3) pair_atoms skew_dd.
Proof.
  constructor.
  - exists []. split; [reflexivity|constructor].
  - exists [(0,0,0)%Z]. split; [reflexivity|]. apply Permutation_refl.
  - reflexivity.
  - reflexivity.
Qed.
Lemma skew_posdef : positive_definite skew_diel.
Proof.
  intros v Hv. destruct v as [[x y] z]. unfold skew_diel.
  match goal with |- 0 < ?e => replace e with (x * x + y * y + (x + y) * (x + y) + z * z) end.
  2:{ unfold Sum, Rsum, idx3, mget. cbn. ring. }
  pose proof (Rle_0_sqr x). pose proof (Rle_0_sqr y). pose proof (Rle_0_sqr z). pose proof (Rle_0_sqr (x + y)).
  unfold Rsqr in *.
  destruct (Req_dec x 0) as [->|Hx]; [|pose proof (Rsqr_pos_lt x Hx); unfold Rsqr in *; lra].
  destruct (Req_dec y 0) as [->|Hy]; [|pose proof (Rsqr_pos_lt y Hy); unfold Rsqr in *; lra].
  destruct (Req_dec z 0) as [->|Hz]; [|pose proof (Rsqr_pos_lt z Hz); unfold Rsqr in *; lra].
  exfalso. apply Hv. reflexivity.
Qed.
Lemma zero_off : off_zone_face vzero.
Proof.
  intros m. assert (H : 0 <> IZR m + 1/2).
  { intros E. assert (E' : 0 = IZR (2 * m + 1)) by (rewrite plus_IZR, mult_IZR; lra). apply eq_IZR in E'. lia. }
  repeat split; exact H.
Qed.
Lemma skew_value f : dip_with unit_cell3 pair_atoms skew_dip vzero f 0 1 0 0 = RtoC (- f).
Proof.
  unfold dip_with. cbv zeta. change (Nat.eqb 0 1) with false. cbv iota.
  assert (E : forall a b, Csub (recip_dipole unit_cell3 pair_atoms (di_diel skew_dip) (di_dd skew_dip) (qnorm vzero) 0 1 a b)
     (Cscal f (Csum (combine (dd_cells (di_dd skew_dip)) (dd_H (di_dd skew_dip))) (fun ch =>
        Cscal (snd ch (hidx (length pair_atoms) 0 + 1)%nat a b) (cis (2 * PI * dot (qnorm vzero) (zvec (fst ch)))))))
     = RtoC (- f)).
  { intros a b. rewrite qnorm_vzero. unfold recip_dipole. change (Nat.ltb 1 0) with false. cbv iota.
    unfold used_g. rewrite is_gamma_vzero. cbn [skew_dip di_dd skew_dd dd_gcart dd_gph combine tl dd_cells dd_H].
    rewrite Csum_nil, Csum_cons, Csum_nil. cbn [fst snd].
    replace (2 * PI * dot vzero (zvec (0,0,0)%Z)) with 0 by (unfold vzero, zvec, dot; cbn; ring).
    rewrite cis_0. apply C_eq; cbn; ring. }
  unfold born_contract. unfold idx3. rewrite !Csum_cons, !Csum_nil, !E.
  cbn [skew_dip di_born unit_cell3 mget row comp]. apply C_eq; cbn; ring.
Qed.
Lemma skew_differs corr :
  let X := marshal_dip pair_atoms skew_dip in
  entry (c_dipole (vmem vzero) 2 (pack2 3 (mget unit_cell3)) (pack2 3 (mget (reciprocal_cell unit_cell3)))
          (cd_atom_r X) (cd_born X) (cd_diel X) (cd_H X) (cd_cells X) (cd_ncells X) (cd_gph X) (cd_gcart X)
          (cd_ngvecs X) (cd_q0 X) (cd_lambda X) corr) 3
  <> Cconj (dipole_correction unit_cell3 pair_atoms (di_born skew_dip) skew_diel skew_dd vzero 0 3).
Proof.
  intros X.
  pose proof (c_dipole_upper unit_cell3 pair_atoms _ skew_dip vzero skew_ok ltac:(split; reflexivity) zero_off corr
    0 1 0 0 ltac:(lia) ltac:(cbn; lia) ltac:(lia) ltac:(lia) ltac:(intros; lia)) as E.
  pose proof (dip_with_py unit_cell3 pair_atoms skew_dip vzero 0 1 0 0
    ltac:(lia) ltac:(cbn; lia) ltac:(lia) ltac:(lia)) as E2.
  rewrite skew_value in E, E2.
  intros H.
  assert (H3 : RtoC (- c_real_factor skew_dip) = RtoC (- real_factor 1 skew_diel)).
  { rewrite <- (Cconj_conj (RtoC (- c_real_factor skew_dip))), <- E. rewrite <- (Cconj_conj (RtoC (- real_factor 1 skew_diel))).
    f_equal. cbn [skew_dip di_dd di_diel dd_lambda skew_dd] in E2. rewrite E2. exact H. }
  apply (f_equal re) in H3. cbn [re RtoC] in H3.
  unfold c_real_factor, real_factor in H3. cbn [skew_dip di_dd di_diel dd_lambda skew_dd] in H3.
  replace (c_det_array skew_diel) with 5 in H3 by (unfold c_det_array, skew_diel; ring).
  replace (np_linalg_det skew_diel) with 3 in H3 by (unfold np_linalg_det, det3, skew_diel, dot, cross; cbn; ring).
  assert (H4 : / sqrt 5 = / sqrt 3) by (rewrite pow1 in H3; lra).
  assert (H5 : sqrt 5 = sqrt 3) by (rewrite <- (Rinv_inv (sqrt 5)), H4, Rinv_inv; reflexivity).
  apply (f_equal (fun x => x * x)) in H5. cbv beta in H5. rewrite !sqrt_sqrt in H5 by lra. lra.
Qed.
