(** Proofs about the dipole correction: closed forms and symmetries. *)
From Verif Require Import Base Cpx Vec3 M_grid M_cell M_qpts M_dynmat M_dipole
  L_grid L_cell L_qpts L_dynmat L_dynmat2.
Open Scope R_scope.

(** ** triangular indexing *)
Lemma hidx_S n i : (i < n)%nat -> hidx n (S i) = (n - S i + hidx n i)%nat.
Proof.
  intros H. unfold hidx. cbn [seq fold_right].
  replace (S (n - S i)) with (n - i)%nat by lia. reflexivity.
Qed.

Lemma hidx_mono n i i' : (i < i')%nat -> (i' <= n)%nat -> (hidx n i + n <= hidx n i' + i')%nat.
Proof.
  intros H1 H2. induction i' as [|i' IH]; [lia|].
  rewrite hidx_S by lia. destruct (Nat.eq_dec i i') as [->|Hne]; [lia|].
  specialize (IH ltac:(lia) ltac:(lia)). lia.
Qed.

Lemma hidx_inj n i j i' j' : (i <= j < n)%nat -> (i' <= j' < n)%nat ->
  (hidx n i + j)%nat = (hidx n i' + j')%nat -> i = i' /\ j = j'.
Proof.
  intros H H' E. destruct (lt_eq_lt_dec i i') as [[L| -> ]|L]; [|split; lia|].
  - pose proof (hidx_mono n i i' L ltac:(lia)). lia.
  - pose proof (hidx_mono n i' i L ltac:(lia)). lia.
Qed.

Lemma pair_index_app i j l1 l2 :
  pair_index i j (l1 ++ l2)
  = match pair_index i j l1 with
    | Some k => Some k
    | None => option_map (Nat.add (length l1)) (pair_index i j l2)
    end.
Proof.
  induction l1 as [|[x y] l1 IH]; cbn [app pair_index length].
  - destruct (pair_index i j l2); reflexivity.
  - destruct (_ && _)%bool; [reflexivity|]. rewrite IH.
    destruct (pair_index i j l1); [reflexivity|].
    destruct (pair_index i j l2); reflexivity.
Qed.

Lemma pair_index_row i j r s len :
  pair_index i j (map (fun y => (r, y)) (seq s len))
  = if (Nat.eqb r i && Nat.leb s j && Nat.ltb j (s + len))%bool then Some (j - s)%nat else None.
Proof.
  revert s. induction len as [|len IH]; intros s; cbn [seq map pair_index].
  - destruct (Nat.leb_spec s j), (Nat.ltb_spec j (s + 0)); try lia;
      rewrite ?andb_false_r; reflexivity.
  - rewrite IH. destruct (Nat.eqb_spec r i); cbn [andb option_map]; [|reflexivity].
    destruct (Nat.eqb_spec s j) as [->|Hne].
    + destruct (Nat.leb_spec j j), (Nat.ltb_spec j (j + S len)); try lia.
      cbn [andb]. f_equal. lia.
    + destruct (Nat.leb_spec (S s) j), (Nat.ltb_spec j (S s + len)), (Nat.leb_spec s j),
        (Nat.ltb_spec j (s + S len)); try lia; cbn [andb option_map]; try reflexivity.
      f_equal. lia.
Qed.

Definition rows (n i0 m : nat) : list (nat * nat) :=
  flat_map (fun i => map (fun j => (i, j)) (seq i (n - i))) (seq i0 m).

Lemma rows_index n i j m : forall i0, (i0 + m <= n)%nat ->
  pair_index i j (rows n i0 m)
  = if (Nat.leb i0 i && Nat.ltb i (i0 + m) && Nat.leb i j && Nat.ltb j n)%bool
    then Some (hidx n i + j - (hidx n i0 + i0))%nat else None.
Proof.
  induction m as [|m IH]; intros i0 Hm.
  - change (pair_index i j (rows n i0 0)) with (@None nat).
    destruct (Nat.leb_spec i0 i), (Nat.ltb_spec i (i0 + 0)); try lia; reflexivity.
  - unfold rows. cbn [seq flat_map]. rewrite pair_index_app, pair_index_row.
    change (flat_map _ (seq (S i0) m)) with (rows n (S i0) m).
    rewrite IH by lia. rewrite map_length, seq_length, hidx_S by lia.
    destruct (Nat.eqb_spec i0 i) as [->|Hne].
    + destruct (Nat.leb_spec i j), (Nat.ltb_spec j (i + (n - i))), (Nat.leb_spec i i),
        (Nat.ltb_spec i (i + S m)), (Nat.ltb_spec j n), (Nat.leb_spec (S i) i);
        try lia; cbn [andb option_map]; try reflexivity. f_equal. lia.
    + cbn [andb].
      destruct (Nat.leb_spec (S i0) i), (Nat.leb_spec i0 i), (Nat.ltb_spec i (S i0 + m)),
        (Nat.ltb_spec i (i0 + S m)), (Nat.leb_spec i j), (Nat.ltb_spec j n);
        try lia; cbn [andb option_map]; try reflexivity.
      f_equal.
      assert (hidx n i0 + n <= hidx n i + i)%nat by (apply hidx_mono; lia). lia.
Qed.

Lemma triu_index n i j : (i <= j)%nat -> (j < n)%nat ->
  pair_index i j (triu n) = Some (hidx n i + j)%nat.
Proof.
  intros H1 H2. change (triu n) with (rows n 0 n). rewrite rows_index by lia.
  destruct (Nat.leb_spec 0 i), (Nat.ltb_spec i (0 + n)), (Nat.leb_spec i j), (Nat.ltb_spec j n);
    try lia. cbn [andb]. change (hidx n 0) with 0%nat. f_equal. lia.
Qed.

Lemma triu_index_lower n i j : (j < i)%nat -> pair_index i j (triu n) = None.
Proof.
  intros H1. change (triu n) with (rows n 0 n). rewrite rows_index by lia.
  destruct (Nat.leb_spec i j); [lia|]. rewrite andb_false_r. reflexivity.
Qed.

Lemma triu_fill_upper {A} (z : A) n f i j a b : (i <= j)%nat -> (j < n)%nat ->
  triu_fill z n f i j a b = f (hidx n i + j)%nat a b.
Proof. intros H1 H2. unfold triu_fill. rewrite triu_index by assumption. reflexivity. Qed.
Lemma triu_fill_lower {A} (z : A) n f i j a b : (j < i)%nat -> triu_fill z n f i j a b = z.
Proof. intros H1. unfold triu_fill. rewrite triu_index_lower by assumption. reflexivity. Qed.

Lemma in_triu n i j : In (i, j) (triu n) <-> (i <= j < n)%nat.
Proof.
  unfold triu. rewrite in_flat_map. split.
  - intros [x [Hx Hin]]. apply in_map_iff in Hin. destruct Hin as [y [E Hy]].
    injection E as -> ->. apply in_seq in Hx. apply in_seq in Hy. lia.
  - intros H. exists i. split; [apply in_seq; lia|]. apply in_map_iff.
    exists j. split; [reflexivity|apply in_seq; lia].
Qed.

(** ** H_row *)
Lemma fold_left_flat_map {A B S} (f : S -> B -> S) (g : A -> list B) l s :
  fold_left f (flat_map g l) s = fold_left (fun s a => fold_left f (g a) s) l s.
Proof.
  revert s. induction l as [|a l IH]; intros s; [reflexivity|].
  cbn [flat_map fold_left]. rewrite fold_left_app. apply IH.
Qed.
Lemma fold_left_map {A B S} (f : S -> B -> S) (g : A -> B) l s :
  fold_left f (map g l) s = fold_left (fun s a => f s (g a)) l s.
Proof. revert s. induction l as [|a l IH]; intros s; [reflexivity|]. apply IH. Qed.

Lemma fold_update {E} (key : E -> nat) (skip : E -> bool) (val : E -> nat -> nat -> R) l :
  forall h e, In e l ->
  (forall e', In e' l -> key e' = key e -> e' = e) ->
  forall a b, (skip e = true -> h (key e) a b = 0) ->
  fold_left (fun h e => if skip e then h else
               fun k a b => if Nat.eqb k (key e) then val e a b else h k a b) l h (key e) a b
  = if skip e then 0 else val e a b.
Proof.
  set (f := fun (h : nat -> nat -> nat -> R) e => if skip e then h else
               fun k a b => if Nat.eqb k (key e) then val e a b else h k a b).
  assert (Hkeep : forall l h e a b, (forall e', In e' l -> key e' = key e -> e' = e) ->
     h (key e) a b = (if skip e then 0 else val e a b) ->
     fold_left f l h (key e) a b = if skip e then 0 else val e a b).
  { clear l. induction l as [|x l IH]; intros h e a b Hu Hh; [exact Hh|].
    cbn [fold_left]. apply IH; [intros; apply Hu; [right|]; assumption|].
    unfold f. destruct (skip x) eqn:Ex; [exact Hh|].
    destruct (Nat.eqb_spec (key e) (key x)) as [E'|]; [|exact Hh].
    assert (x = e) as -> by (apply Hu; [left; reflexivity|congruence]).
    rewrite Ex. reflexivity. }
  induction l as [|x l IH]; intros h e Hin Hu a b Hs; [destruct Hin|].
  cbn [fold_left]. destruct Hin as [->|Hin].
  - apply Hkeep; [intros; apply Hu; [right|]; assumption|].
    unfold f. destruct (skip e) eqn:Ee; [apply Hs; reflexivity|].
    rewrite Nat.eqb_refl. reflexivity.
  - apply IH; [exact Hin|intros; apply Hu; [right|]; assumption|].
    intros Hse. unfold f. destruct (skip x) eqn:Ex; [apply Hs; exact Hse|].
    destruct (Nat.eqb_spec (key e) (key x)) as [E'|]; [|apply Hs; exact Hse].
    assert (x = e) as -> by (apply Hu; [left; reflexivity|congruence]). congruence.
Qed.

Definition H_val erfc l2 cell inv_e (atom_r : list V3) s c i j a b : R :=
  if (Nat.eqb s 0 && Nat.eqb i j)%bool then 0 else
  H_block erfc l2 inv_e
    (vsub (vmul (nth i atom_r vzero) cell) (vmul (nth j atom_r vzero) cell))
    (vsub (vmul (vmul (nth i atom_r vzero) cell) inv_e)
          (vmul (vmul (nth j atom_r vzero) cell) inv_e))
    (vmul (zvec c) cell) (vmul (vmul (zvec c) cell) inv_e) a b.

Lemma H_row_val erfc l2 cell inv_e atom_r s c i j a b :
  (i <= j)%nat -> (j < length atom_r)%nat ->
  H_row erfc l2 cell inv_e atom_r s c (hidx (length atom_r) i + j) a b
  = H_val erfc l2 cell inv_e atom_r s c i j a b.
Proof.
  intros H1 H2. unfold H_row, H_val. set (n := length atom_r) in *.
  pose proof (fold_update (fun e : nat * nat => hidx n (fst e) + snd e)%nat
    (fun e => Nat.eqb s 0 && Nat.eqb (fst e) (snd e))%bool
    (fun e => H_block erfc l2 inv_e
    (vsub (vmul (nth (fst e) atom_r vzero) cell) (vmul (nth (snd e) atom_r vzero) cell))
    (vsub (vmul (vmul (nth (fst e) atom_r vzero) cell) inv_e)
          (vmul (vmul (nth (snd e) atom_r vzero) cell) inv_e))
    (vmul (zvec c) cell) (vmul (vmul (zvec c) cell) inv_e)) (triu n)
    (fun _ _ _ => 0) (i, j)) as HF.
  rewrite <- HF.
  - unfold triu. rewrite fold_left_flat_map. cbn [fst snd].
    assert (E : forall l h,
       fold_left (fun h i => fold_left (fun h j => if (Nat.eqb s 0 && Nat.eqb i j)%bool then h else
         fun k a b => if Nat.eqb k (hidx n i + j) then
           H_block erfc l2 inv_e
    (vsub (vmul (nth i atom_r vzero) cell) (vmul (nth j atom_r vzero) cell))
    (vsub (vmul (vmul (nth i atom_r vzero) cell) inv_e)
          (vmul (vmul (nth j atom_r vzero) cell) inv_e))
    (vmul (zvec c) cell) (vmul (vmul (zvec c) cell) inv_e) a b else h k a b)
         (seq i (n - i)) h) l h =
       fold_left (fun h i => fold_left (fun h (e : nat * nat) => if (Nat.eqb s 0 && Nat.eqb (fst e) (snd e))%bool then h else
         fun k a b => if Nat.eqb k (hidx n (fst e) + snd e) then
           H_block erfc l2 inv_e
    (vsub (vmul (nth (fst e) atom_r vzero) cell) (vmul (nth (snd e) atom_r vzero) cell))
    (vsub (vmul (vmul (nth (fst e) atom_r vzero) cell) inv_e)
          (vmul (vmul (nth (snd e) atom_r vzero) cell) inv_e))
    (vmul (zvec c) cell) (vmul (vmul (zvec c) cell) inv_e) a b else h k a b)
         (map (fun j => (i, j)) (seq i (n - i))) h) l h).
    { induction l as [|x l IH]; intros h; [reflexivity|]. cbn [fold_left].
      rewrite IH, fold_left_map. reflexivity. }
    exact (f_equal (fun f => f (hidx n i + j)%nat a b) (E (seq 0 n) (fun _ _ _ => 0))).
  - apply in_triu. lia.
  - intros [i' j'] Hin E. apply in_triu in Hin. cbn [fst snd] in E.
    destruct (hidx_inj n i' j' i j) as [-> ->]; [lia|lia|exact E|reflexivity].
  - reflexivity.
Qed.

(** ** shells *)
Definition znorm (c : Z3) : nat :=
  let '(x, y, z) := c in Z.to_nat (Z.max (Z.abs x) (Z.max (Z.abs y) (Z.abs z))).

Lemma in_shell s c : In c (shell s) <-> znorm c = s.
Proof.
  unfold shell. destruct (get_shell_origins_spec (Z.of_nat s)) as [l [-> [_ [H _]]]]; [lia|].
  destruct c as [[x y] z]. rewrite H. unfold znorm. lia.
Qed.
Lemma NoDup_shell s : NoDup (shell s).
Proof.
  unfold shell. destruct (get_shell_origins_spec (Z.of_nat s)) as [l [-> [H _]]]; [lia|]. exact H.
Qed.
Lemma znorm_opp c : znorm (zopp3 c) = znorm c.
Proof. destruct c as [[x y] z]. unfold znorm, zopp3. lia. Qed.

Lemma shells_opp s N :
  Permutation (map zopp3 (flat_map shell (seq s N))) (flat_map shell (seq s N)).
Proof.
  assert (Hin : forall c, In c (flat_map shell (seq s N)) <-> (s <= znorm c < s + N)%nat).
  { intros c. rewrite in_flat_map. split.
    - intros [k [Hk Hc]]. apply in_seq in Hk. apply in_shell in Hc. lia.
    - intros H. exists (znorm c). split; [apply in_seq; lia|apply in_shell; reflexivity]. }
  assert (Hnd : NoDup (flat_map shell (seq s N))).
  { apply NoDup_flat_map; [apply seq_NoDup|intros; apply NoDup_shell|].
    intros x y c _ _ H1 H2. apply in_shell in H1. apply in_shell in H2. congruence. }
  apply NoDup_Permutation; [|exact Hnd|].
  - apply NoDup_map_inj; [|exact Hnd]. intros x y _ _ E.
    rewrite <- (zopp_opp x), <- (zopp_opp y), E. reflexivity.
  - intros c. rewrite in_map_iff. split.
    + intros [y [<- Hy]]. apply Hin. apply Hin in Hy. rewrite znorm_opp. exact Hy.
    + intros H. exists (zopp3 c). split; [apply zopp_opp|]. apply Hin. apply Hin in H.
      rewrite znorm_opp. exact H.
Qed.

Lemma real_shells_spec mk n : forall todo r0, exists N,
  (N <= length todo)%nat /\
  fst (real_shells mk n todo r0) = flat_map shell (firstn N todo) /\
  snd (real_shells mk n todo r0)
  = map (fun c => mk (znorm c) c) (fst (real_shells mk n todo r0)).
Proof.
  induction todo as [|s todo IH]; intros r0.
  - exists 0%nat. repeat split; reflexivity.
  - cbn [real_shells]. set (r0' := if Nat.eqb s 0 then _ else r0).
    destruct (Rltb _ _).
    + destruct (IH r0') as [N [H1 [H2 H3]]].
      destruct (real_shells mk n todo r0') as [cs hs]. cbn [fst snd] in *.
      exists (S N). cbn [length firstn flat_map]. split; [lia|]. rewrite H2. split; [reflexivity|].
      rewrite map_app, <- H2, H3. f_equal. apply map_ext_in. intros c Hc.
      apply in_shell in Hc. rewrite Hc. reflexivity.
    + exists 0%nat. repeat split; [lia].
Qed.

Lemma recip_shells_spec diel recip l2 atom_r : forall todo f acc, exists N,
  (N <= length todo)%nat /\
  let gs := flat_map shell (firstn N todo) in
  fst (recip_shells diel recip l2 atom_r todo f acc) = map (g_row recip atom_r) gs /\
  forall i j a b, snd (recip_shells diel recip l2 atom_r todo f acc) i j a b
  = Cadd (acc i j a b) (recip_q0_tmp diel l2 (map (g_row recip atom_r) gs) i j a b).
Proof.
  induction todo as [|s todo IH]; intros f acc.
  - exists 0%nat. split; [cbn; lia|]. cbn. split; [reflexivity|].
    intros. unfold recip_q0_tmp. destruct (Nat.ltb _ _); rewrite ?Csum_nil; ring.
  - cbn [recip_shells]. set (f' := if Nat.eqb s 1 then _ else f).
    destruct (Rltb _ _).
    + set (acc' := fun i j a b => Cadd (acc i j a b) _).
      destruct (IH f' acc') as [N [H1 [H2 H3]]].
      destruct (recip_shells diel recip l2 atom_r todo f' acc') as [l a']. cbn [fst snd] in *.
      exists (S N). cbn [length firstn flat_map]. split; [lia|].
      cbn zeta. rewrite map_app. split; [rewrite H2; reflexivity|].
      intros i j a b. rewrite H3. unfold acc', recip_q0_tmp.
      destruct (Nat.ltb j i); [ring|]. rewrite Csum_app. ring.
    + exists 0%nat. split; [lia|]. split; [reflexivity|].
      intros. cbn. unfold recip_q0_tmp. destruct (Nat.ltb _ _); rewrite ?Csum_nil; ring.
Qed.

Lemma firstn_seq N s len : (N <= len)%nat -> firstn N (seq s len) = seq s N.
Proof.
  revert s len. induction N as [|N IH]; intros s len H; [reflexivity|].
  destruct len as [|len]; [lia|]. cbn [seq firstn]. f_equal. apply IH. lia.
Qed.

(** ** phases and vectors *)
Lemma Cdiv_cis s t : Cdiv (cis s) (cis t) = cis (s - t).
Proof.
  unfold Cdiv. rewrite (Cnorm2_one (cis t)) by apply Cnorm2_cis.
  rewrite <- cis_opp, <- cis_add. f_equal.
Qed.

Lemma vmul_vopp v m : vmul (vopp v) m = vopp (vmul v m).
Proof. unfold vopp. apply vmul_vscal. Qed.
Lemma comp_vopp v a : comp (vopp v) a = - comp v a.
Proof. destruct v as [[x y] z]. unfold vopp, vscal, comp. destruct a as [|[|a]]; ring. Qed.
Lemma vadd_vopp u v : vadd (vopp u) (vopp v) = vopp (vadd u v).
Proof. destruct u as [[? ?] ?], v as [[? ?] ?]. cbn. apply V3_eq; ring. Qed.
Lemma vopp_opp v : vopp (vopp v) = v.
Proof. destruct v as [[? ?] ?]. cbn. apply V3_eq; ring. Qed.

Lemma k_len_2_opp diel l2 k : k_len_2 diel l2 (vopp k) = k_len_2 diel l2 k.
Proof.
  unfold k_len_2. f_equal. apply Sum_ext. intros a _. apply Sum_ext. intros b _.
  rewrite !comp_vopp. ring.
Qed.
Lemma recip_term_opp diel l2 k a b : recip_term diel l2 (vopp k) a b = recip_term diel l2 k a b.
Proof. unfold recip_term. rewrite k_len_2_opp, !comp_vopp. ring. Qed.
Lemma recip_term_sym diel l2 k a b : recip_term diel l2 k a b = recip_term diel l2 k b a.
Proof. unfold recip_term. ring. Qed.

Lemma g_row_nth recip atom_r g i : (i < length atom_r)%nat ->
  nth i (snd (g_row recip atom_r g)) Czero = cis (2 * PI * dot (zvec g) (nth i atom_r vzero)).
Proof. intros H. unfold g_row. cbn [snd]. rewrite (map_nth_indep _ _ _ vzero) by exact H. reflexivity. Qed.

Lemma g_row_zero recip atom_r :
  g_row recip atom_r (0,0,0)%Z = (vzero, repeat Cone (length atom_r)).
Proof.
  unfold g_row. f_equal.
  - destruct recip as [[[[? ?] ?] [[? ?] ?]] [[? ?] ?]]. cbn. unfold vzero. apply V3_eq; ring.
  - rewrite repeat_map. apply map_ext. intros [[x y] z].
    replace (2 * PI * dot (zvec (0,0,0)%Z) (x, y, z)) with 0 by (cbn; ring). apply cis_0.
Qed.

(** ** what the initialisation guarantees *)
Record dip_ok (mk : nat -> Z3 -> nat -> nat -> nat -> R) (recip : M3) (atom_r : list V3)
  (dd : dipdata) : Prop := {
  ok_g : exists gs, combine (dd_gcart dd) (dd_gph dd)
           = map (g_row recip atom_r) ((0,0,0)%Z :: gs) /\
           Permutation (map zopp3 gs) gs;
  ok_c : exists cs, combine (dd_cells dd) (dd_H dd)
           = map (fun c => (c, mk (znorm c) c)) cs /\ Permutation (map zopp3 cs) cs;
  ok_q0r : forall i a b, (i < length atom_r)%nat -> im (dd_q0 dd i a b) = 0;
  ok_q0s : forall i a b, dd_q0 dd i a b = dd_q0 dd i b a }.

Lemma combine_fst_snd {A B} (l : list (A * B)) : combine (map fst l) (map snd l) = l.
Proof. induction l as [|[x y] l IH]; [reflexivity|]. cbn. rewrite IH. reflexivity. Qed.
Lemma combine_map_r {A B} (f : A -> B) l : combine l (map f l) = map (fun x => (x, f x)) l.
Proof. induction l as [|x l IH]; [reflexivity|]. cbn. rewrite IH. reflexivity. Qed.

Lemma im_scal_zero r z : im z = 0 -> im (Cscal r z) = 0.
Proof. intros H. cbn. rewrite H. ring. Qed.
Lemma im_csum_zero {A} (l : list A) f : (forall x, In x l -> im (f x) = 0) -> im (Csum l f) = 0.
Proof. intros H. cbn. apply Sum_zero_ext. exact H. Qed.
Lemma conj_self_im z : Cconj z = z -> im z = 0.
Proof. destruct z as [x y]. unfold Cconj. cbn. intros H. injection H as H. lra. Qed.

Lemma recip_q0_real diel l2 recip atom_r gs i j a b :
  (i < length atom_r)%nat -> (j < length atom_r)%nat ->
  Permutation (map zopp3 gs) gs ->
  im (recip_q0_tmp diel l2 (map (g_row recip atom_r) gs) i j a b) = 0.
Proof.
  intros Hi Hj HP. apply conj_self_im. unfold recip_q0_tmp.
  destruct (Nat.ltb j i); [apply C_eq; cbn; ring|].
  rewrite !Csum_map, <- Csum_conj.
  rewrite <- (Csum_perm _ _ _ HP) at 1. rewrite Csum_map. apply Csum_ext. intros g _.
  rewrite !g_row_nth by assumption. rewrite !Cdiv_cis. cbn [g_row fst].
  rewrite zvec_opp, vmul_vopp, recip_term_opp, Cconj_scal. f_equal.
  rewrite !dot_vopp_l, <- cis_opp. f_equal. ring.
Qed.

Theorem dipole_init_ok erfc cell atom_r born diel dp :
  dip_ok (H_row erfc (upper_lambda cell diel (length atom_r) dp ^ 2) cell (inv3 diel) atom_r)
    (reciprocal_cell cell) atom_r (dipole_init erfc cell atom_r born diel dp).
Proof.
  unfold dipole_init. set (lam := upper_lambda _ _ _ _). set (mk := H_row _ _ _ _ _).
  pose proof (real_shells_spec mk (length atom_r) (seq 0 50) 0) as [N [HN [Hc Hh]]].
  destruct (real_shells mk (length atom_r) (seq 0 50) 0) as [cells H]. cbn [fst snd] in Hc, Hh.
  pose proof (recip_shells_spec diel (reciprocal_cell cell) (lam ^ 2) atom_r (seq 1 49) 0
                (fun _ _ _ _ => Czero)) as [M [HM [Hg Hacc]]].
  destruct (recip_shells diel (reciprocal_cell cell) (lam ^ 2) atom_r (seq 1 49) 0
              (fun _ _ _ _ => Czero)) as [gs sum]. cbn [fst snd] in Hg, Hacc.
  rewrite seq_length in HN, HM.
  rewrite firstn_seq in Hc by exact HN. rewrite firstn_seq in Hg, Hacc by exact HM.
  set (G := flat_map shell (seq 1 M)) in *.
  assert (HG : Permutation (map zopp3 G) G) by apply shells_opp.
  constructor; cbn [dd_gcart dd_gph dd_cells dd_H dd_q0].
  - exists G. split; [|exact HG]. rewrite combine_fst_snd.
    cbn [map]. rewrite g_row_zero, Hg. reflexivity.
  - exists cells. split; [|rewrite Hc; apply shells_opp].
    rewrite Hh. apply combine_map_r.
  - intros i a b Hi. unfold dipole_q0. apply im_scal_zero.
    assert (Hq : forall a b, im (Csum (seq 0 (length atom_r)) (fun j =>
       born_contract born (fun i j a b =>
         Csub (fill_lower (fun i j a b => Cscal (PI / (cell_volume cell * lam ^ 2)) (sum i j a b)) i j a b)
          (fill_lower (fun i j a b => Cscal (real_factor lam diel)
             (triu_fill Czero (length atom_r) (fun k a b => RtoC (Sum H (fun h => h k a b))) i j a b)) i j a b))
         i j a b)) = 0).
    { clear a b. intros a b. apply im_csum_zero. intros j Hj. apply in_seq in Hj.
      unfold born_contract. apply im_csum_zero. intros a' _. apply im_csum_zero. intros b' _.
      apply im_scal_zero. unfold fill_lower.
      assert (Hr : forall i j, (i < length atom_r)%nat -> (j < length atom_r)%nat ->
                im (sum i j a' b') = 0).
      { intros i' j' Hi' Hj'. rewrite Hacc. cbn [Cadd im Czero].
        rewrite (recip_q0_real diel (lam ^ 2) _ atom_r G) by (assumption || lia). ring. }
      assert (Ht : forall i j, im (triu_fill Czero (length atom_r)
                 (fun k a b => RtoC (Sum H (fun h => h k a b))) i j a' b') = 0).
      { intros i' j'. unfold triu_fill. destruct (pair_index i' j' _); reflexivity. }
      destruct (Nat.ltb j i); cbn [Csub Cconj Cscal im];
        rewrite Ht, Hr by (assumption || lia); ring. }
    cbn [Cadd im]. rewrite !Hq. ring.
  - intros i a b. unfold dipole_q0. f_equal. ring.
Qed.

(** ** closed forms *)
Lemma is_gamma_opp qn : is_gamma (vopp qn) = is_gamma qn.
Proof.
   assert (Hd : forall x, frac_dist (-1 * x) = frac_dist x).
    { intros x. replace (-1 * x) with (- x) by ring. unfold frac_dist.
      (* distance to the nearest integer is even *)
      assert (Hrd : forall x, Rabs (x - IZR (rint x)) <= Rabs (x - IZR (- rint (- x)))).
      { clear. intros x. pose proof (rint_dist x) as H1. pose proof (rint_dist (- x)) as H2.
        rewrite opp_IZR. set (p := rint x) in *. set (r := rint (- x)) in *.
        replace (- x - IZR r) with (- (x - - IZR r)) in H2 by ring. rewrite Rabs_Ropp in H2.
        apply Rabs_bound in H1. apply Rabs_bound in H2.
        assert (HZ : (Z.abs (p + r) <= 1)%Z).
        { assert (-1 <= IZR (p + r) <= 1) as [A B] by (rewrite plus_IZR; lra).
          apply le_IZR in A. apply le_IZR in B. lia. }
        destruct (Z.eq_dec p (- r)) as [->|Hne]; [rewrite opp_IZR; lra|].
        assert (p + r = 1 \/ p + r = -1)%Z as [E|E] by lia.
        - assert (IZR p = 1 - IZR r) by (replace p with (1 - r)%Z by lia; rewrite minus_IZR; ring).
          unfold Rabs. repeat destruct (Rcase_abs _); lra.
        - assert (IZR p = -1 - IZR r) by (replace p with (-1 - r)%Z by lia; rewrite minus_IZR; ring).
          unfold Rabs. repeat destruct (Rcase_abs _); lra. }
      apply Rle_antisym.
      - pose proof (Hrd (- x)) as H. rewrite Ropp_involutive, opp_IZR in H.
        replace (- x - - IZR (rint x)) with (- (x - IZR (rint x))) in H by ring.
        rewrite Rabs_Ropp in H. exact H.
      - pose proof (Hrd x) as H. rewrite opp_IZR in H.
        replace (x - - IZR (rint (- x))) with (- (- x - IZR (rint (- x)))) in H by ring.
        rewrite Rabs_Ropp in H. exact H. }
    destruct qn as [[x y] z]. unfold vopp, vscal, is_gamma. rewrite !Hd. reflexivity.
Qed.

Lemma used_g_rows mk recip atom_r dd qn : dip_ok mk recip atom_r dd ->
  exists gs, used_g dd qn = map (g_row recip atom_r) gs /\
    Permutation (map zopp3 gs) gs /\ used_g dd (vopp qn) = used_g dd qn.
Proof.
  intros Hok. destruct (ok_g _ _ _ _ Hok) as [gs [E HP]]. unfold used_g. rewrite E.
  assert (Hg := is_gamma_opp qn).
  rewrite Hg. destruct (is_gamma qn).
  - exists gs. cbn [map tl]. auto.
  - exists ((0,0,0)%Z :: gs). repeat split. cbn [map]. apply perm_skip. exact HP.
Qed.

Lemma recip_closed mk cell atom_r diel dd qn i j a b :
  dip_ok mk (reciprocal_cell cell) atom_r dd -> (i <= j)%nat -> (j < length atom_r)%nat ->
  forall gs, used_g dd qn = map (g_row (reciprocal_cell cell) atom_r) gs ->
  recip_dipole cell atom_r diel dd qn i j a b
  = Cscal (PI / (cell_volume cell * dd_lambda dd ^ 2))
      (Csum gs (fun g =>
         Cscal (recip_term diel (dd_lambda dd ^ 2)
                  (vmul (vadd (zvec g) qn) (reciprocal_cell cell)) a b)
               (cis (2 * PI * (dot (vadd (zvec g) qn) (nth i atom_r vzero)
                               - dot (vadd (zvec g) qn) (nth j atom_r vzero)))))).
Proof.
  intros Hok Hij Hj gs Hgs. unfold recip_dipole.
  destruct (Nat.ltb_spec j i); [lia|]. rewrite Hgs, Csum_map. f_equal.
  apply Csum_ext. intros g _. rewrite !g_row_nth by lia. rewrite <- !cis_add, Cdiv_cis.
  cbn [g_row fst]. rewrite <- vmul_vadd. f_equal. rewrite !dot_vadd_l. f_equal. ring.
Qed.

Lemma real_closed mk recip atom_r diel dd qn i j a b :
  dip_ok mk recip atom_r dd -> (i <= j)%nat -> (j < length atom_r)%nat ->
  forall cs, combine (dd_cells dd) (dd_H dd) = map (fun c => (c, mk (znorm c) c)) cs ->
  real_dipole diel (length atom_r) dd qn i j a b
  = Cscal (real_factor (dd_lambda dd) diel)
      (Csum cs (fun c => Cscal (mk (znorm c) c (hidx (length atom_r) i + j)%nat a b)
                               (cis (2 * PI * dot qn (zvec c))))).
Proof.
  intros Hok Hij Hj cs Hcs. unfold real_dipole. rewrite triu_fill_upper by assumption.
  rewrite Hcs, Csum_map. reflexivity.
Qed.

(** ** time reversal *)
Lemma Csub_opp a b : Csub a b = Cadd a (Copp b).
Proof. apply C_eq; cbn; ring. Qed.
Lemma Cconj_sub a b : Cconj (Csub a b) = Csub (Cconj a) (Cconj b).
Proof. apply C_eq; cbn; ring. Qed.

Lemma recip_opp mk cell atom_r diel dd qn i j a b :
  dip_ok mk (reciprocal_cell cell) atom_r dd -> (i <= j)%nat -> (j < length atom_r)%nat ->
  recip_dipole cell atom_r diel dd (vopp qn) i j a b
  = Cconj (recip_dipole cell atom_r diel dd qn i j a b).
Proof.
  intros Hok Hij Hj. destruct (used_g_rows _ _ _ _ qn Hok) as [gs [E [HP E']]].
  rewrite (recip_closed mk _ _ _ _ qn) with (gs := gs) by assumption.
  rewrite (recip_closed mk _ _ _ _ (vopp qn)) with (gs := gs) by (assumption || congruence).
  rewrite Cconj_scal. f_equal. rewrite <- Csum_conj.
  rewrite <- (Csum_perm _ _ _ HP) at 1. rewrite Csum_map. apply Csum_ext. intros g _.
  rewrite zvec_opp, vadd_vopp, vmul_vopp, recip_term_opp, Cconj_scal. f_equal.
  rewrite !dot_vopp_l, <- cis_opp. f_equal. ring.
Qed.

Lemma real_opp mk recip atom_r diel dd qn i j a b :
  dip_ok mk recip atom_r dd -> (i <= j)%nat -> (j < length atom_r)%nat ->
  real_dipole diel (length atom_r) dd (vopp qn) i j a b
  = Cconj (real_dipole diel (length atom_r) dd qn i j a b).
Proof.
  intros Hok Hij Hj. destruct (ok_c _ _ _ _ Hok) as [cs [E HP]].
  rewrite !(real_closed mk recip atom_r) with (cs := cs) by assumption.
  rewrite Cconj_scal. f_equal. rewrite <- Csum_conj. apply Csum_ext. intros c _.
  rewrite Cconj_scal. f_equal. rewrite dot_vopp_l, <- cis_opp. f_equal. ring.
Qed.

Definition dip_diff cell atom_r diel dd qn (i j a b : nat) : C :=
  Csub (add_lower (recip_dipole cell atom_r diel dd qn) i j a b)
       (add_lower (real_dipole diel (length atom_r) dd qn) i j a b).

Lemma add_lower_upper m i j a b : (i <= j)%nat -> add_lower m i j a b = m i j a b.
Proof. intros H. unfold add_lower. destruct (Nat.ltb_spec j i); [lia|]. ring. Qed.
Lemma add_lower_lower m i j a b : (j < i)%nat -> m i j a b = Czero ->
  add_lower m i j a b = Cconj (m j i a b).
Proof.
  intros H E. unfold add_lower. rewrite E. destruct (Nat.ltb_spec j i); [|lia]. ring.
Qed.
Lemma recip_lower cell atom_r diel dd qn i j a b : (j < i)%nat ->
  recip_dipole cell atom_r diel dd qn i j a b = Czero.
Proof. intros H. unfold recip_dipole. destruct (Nat.ltb_spec j i); [reflexivity|lia]. Qed.
Lemma real_lower diel n dd qn i j a b : (j < i)%nat ->
  real_dipole diel n dd qn i j a b = Czero.
Proof.
  intros H. unfold real_dipole. rewrite triu_fill_lower by exact H. apply C_eq; cbn; ring.
Qed.

Lemma dip_diff_upper cell atom_r diel dd qn i j a b : (i <= j)%nat ->
  dip_diff cell atom_r diel dd qn i j a b
  = Csub (recip_dipole cell atom_r diel dd qn i j a b)
         (real_dipole diel (length atom_r) dd qn i j a b).
Proof. intros H. unfold dip_diff. rewrite !add_lower_upper by exact H. reflexivity. Qed.
Lemma dip_diff_lower cell atom_r diel dd qn i j a b : (j < i)%nat ->
  dip_diff cell atom_r diel dd qn i j a b = Cconj (dip_diff cell atom_r diel dd qn j i a b).
Proof.
  intros H. rewrite (dip_diff_upper cell atom_r diel dd qn j i) by lia. unfold dip_diff.
  rewrite !add_lower_lower by (try apply recip_lower; try apply real_lower; exact H).
  symmetry. apply Cconj_sub.
Qed.

Lemma dip_diff_opp mk cell atom_r diel dd qn i j a b :
  dip_ok mk (reciprocal_cell cell) atom_r dd ->
  (i < length atom_r)%nat -> (j < length atom_r)%nat ->
  dip_diff cell atom_r diel dd (vopp qn) i j a b
  = Cconj (dip_diff cell atom_r diel dd qn i j a b).
Proof.
  intros Hok Hi Hj.
  assert (Hup : forall i j, (i <= j)%nat -> (j < length atom_r)%nat ->
    dip_diff cell atom_r diel dd (vopp qn) i j a b
    = Cconj (dip_diff cell atom_r diel dd qn i j a b)).
  { clear i j Hi Hj. intros i j Hij Hj. rewrite !dip_diff_upper by exact Hij.
    rewrite (recip_opp mk), (real_opp mk (reciprocal_cell cell)) by assumption.
    symmetry. apply Cconj_sub. }
  destruct (le_lt_dec i j).
  - apply Hup; assumption.
  - rewrite (dip_diff_lower cell atom_r diel dd (vopp qn) i j) by assumption.
    rewrite (dip_diff_lower cell atom_r diel dd qn i j) by assumption.
    rewrite Hup by lia. reflexivity.
Qed.

Lemma rint_opp x : rint (- x) = (- rint x)%Z.
Proof.
  unfold rint. pose proof (base_Int_part x) as [H1 H2]. set (f := Int_part x) in *.
  destruct (Req_EM_T x (IZR f)) as [E|NE].
  - assert (Int_part (- x) = (- f)%Z) as ->.
    { apply Int_part_unique. rewrite opp_IZR. lra. }
    rewrite opp_IZR. destruct (Rlt_dec (x - IZR f) (1/2)); [|lra].
    destruct (Rlt_dec (- x - - IZR f) (1/2)); [reflexivity|lra].
  - assert (Int_part (- x) = (- f - 1)%Z) as ->.
    { apply Int_part_unique. rewrite minus_IZR, opp_IZR. lra. }
    rewrite minus_IZR, opp_IZR.
    assert (Hpar : Z.even (- f - 1) = negb (Z.even f)).
    { rewrite Z.even_sub, Z.even_opp. destruct (Z.even f); reflexivity. }
    destruct (Rlt_dec (x - IZR f) (1/2)).
    + destruct (Rlt_dec (- x - (- IZR f - 1)) (1/2)); [lra|].
      destruct (Rlt_dec (1/2) (- x - (- IZR f - 1))); [lia|lra].
    + destruct (Rlt_dec (1/2) (x - IZR f)).
      * destruct (Rlt_dec (- x - (- IZR f - 1)) (1/2)); [lia|lra].
      * destruct (Rlt_dec (- x - (- IZR f - 1)) (1/2)); [lra|].
        destruct (Rlt_dec (1/2) (- x - (- IZR f - 1))); [lra|].
        rewrite Hpar. destruct (Z.even f); cbn [negb]; lia.
Qed.

Lemma qnorm_opp q : qnorm (vopp q) = vopp (qnorm q).
Proof.
  destruct q as [[x y] z]. unfold vopp, vscal, qnorm.
  apply V3_eq; match goal with |- -1 * ?x - _ = _ =>
    replace (-1 * x) with (- x) by ring end;
    rewrite rint_opp, opp_IZR; ring.
Qed.

Lemma born_contract_conj born m m' i j a b :
  (forall a b, m' i j a b = Cconj (m i j a b)) ->
  born_contract born m' i j a b = Cconj (born_contract born m i j a b).
Proof.
  intros H. unfold born_contract. rewrite <- Csum_conj. apply Csum_ext. intros a' _.
  rewrite <- Csum_conj. apply Csum_ext. intros b' _. rewrite H, Cconj_scal. reflexivity.
Qed.

Lemma im0_conj z : im z = 0 -> Cconj z = z.
Proof. intros H. apply C_eq; cbn; [reflexivity|rewrite H; ring]. Qed.

Theorem dipole_conj mk cell atom_r born diel dd q x y :
  dip_ok mk (reciprocal_cell cell) atom_r dd ->
  (x < 3 * length atom_r)%nat -> (y < 3 * length atom_r)%nat ->
  dipole_correction cell atom_r born diel dd (vopp q) x y
  = Cconj (dipole_correction cell atom_r born diel dd q x y).
Proof.
  intros Hok Hx Hy. pose proof (div3_lt _ _ Hx) as Hi. pose proof (div3_lt _ _ Hy) as Hj.
  unfold dipole_correction. rewrite qnorm_opp.
  assert (E : born_contract born (dip_diff cell atom_r diel dd (vopp (qnorm q)))
                (x / 3) (y / 3) (x mod 3) (y mod 3)
     = Cconj (born_contract born (dip_diff cell atom_r diel dd (qnorm q))
                (x / 3) (y / 3) (x mod 3) (y mod 3))).
  { apply born_contract_conj. intros. apply (dip_diff_opp mk); assumption. }
  fold (dip_diff cell atom_r diel dd (vopp (qnorm q))).
  fold (dip_diff cell atom_r diel dd (qnorm q)).
  destruct (Nat.eqb (x / 3) (y / 3)).
  - rewrite Cconj_sub, E. f_equal.
    symmetry. apply im0_conj. apply (ok_q0r _ _ _ _ Hok). exact Hi.
  - exact E.
Qed.

(** ** Hermitian *)
Definition sym3 (m : M3) : Prop := transpose m = m.

Lemma sym3_get m a b : sym3 m -> mget m a b = mget m b a.
Proof.
  destruct m as [[[[m00 m01] m02] [[m10 m11] m12]] [[m20 m21] m22]]. unfold sym3, transpose.
  intros H. injection H as H1 H2 H3 H4 H5 H6. unfold mget, row, comp.
  destruct a as [|[|a]], b as [|[|b]]; congruence.
Qed.
Lemma inv3_sym m : sym3 m -> sym3 (inv3 m).
Proof.
  destruct m as [[[[m00 m01] m02] [[m10 m11] m12]] [[m20 m21] m22]]. unfold sym3, transpose.
  intros H. injection H as H1 H2 H3 H4 H5 H6. subst. unfold inv3.
  set (dt := det3 _). repeat (match goal with |- (_, _) = (_, _) => f_equal end);
    try reflexivity; f_equal; ring.
Qed.

Lemma H_block_sym erfc l2 inv_e r re c ce a b : sym3 inv_e ->
  H_block erfc l2 inv_e r re c ce a b = H_block erfc l2 inv_e r re c ce b a.
Proof. intros H. unfold H_block. rewrite (sym3_get inv_e a b H). ring. Qed.

Lemma vsub_self v : vsub v v = vzero.
Proof. destruct v as [[? ?] ?]. cbn. unfold vzero. apply V3_eq; ring. Qed.
Lemma vsub_zero_opp v : vsub vzero (vopp v) = vopp (vsub vzero v).
Proof. destruct v as [[? ?] ?]. cbn. apply V3_eq; ring. Qed.
Lemma dot_vopp_r u v : dot u (vopp v) = - dot u v.
Proof. rewrite dot_comm, dot_vopp_l, dot_comm. reflexivity. Qed.

Lemma H_block_even erfc l2 inv_e c ce a b :
  H_block erfc l2 inv_e vzero vzero (vopp c) (vopp ce) a b
  = H_block erfc l2 inv_e vzero vzero c ce a b.
Proof.
  unfold H_block. rewrite !vsub_zero_opp, !comp_vopp.
  assert (E : dot (vopp (vsub vzero ce)) (vopp (vsub vzero c))
              = dot (vsub vzero ce) (vsub vzero c)).
  { rewrite dot_vopp_l, dot_vopp_r. ring. }
  rewrite E. ring.
Qed.

Lemma H_val_sym erfc l2 cell inv_e atom_r s c i j a b : sym3 inv_e ->
  H_val erfc l2 cell inv_e atom_r s c i j a b = H_val erfc l2 cell inv_e atom_r s c i j b a.
Proof.
  intros H. unfold H_val. destruct (_ && _)%bool; [reflexivity|]. apply H_block_sym. exact H.
Qed.
Lemma H_val_even erfc l2 cell inv_e atom_r s c i a b :
  H_val erfc l2 cell inv_e atom_r s (zopp3 c) i i a b = H_val erfc l2 cell inv_e atom_r s c i i a b.
Proof.
  unfold H_val. destruct (_ && _)%bool; [reflexivity|].
  rewrite !vsub_self, zvec_opp, !vmul_vopp. apply H_block_even.
Qed.

Section Herm.
Variables (erfc : R -> R) (cell : M3) (atom_r : list V3) (born : nat -> M3) (diel : M3) (dd : dipdata).
Variable l2 : R.
Let mk := H_row erfc l2 cell (inv3 diel) atom_r.
Hypothesis Hok : dip_ok mk (reciprocal_cell cell) atom_r dd.
Hypothesis Hsym : sym3 diel.

Lemma dip_diff_sym qn i j a b : (i <= j)%nat -> (j < length atom_r)%nat ->
  dip_diff cell atom_r diel dd qn i j a b = dip_diff cell atom_r diel dd qn i j b a.
Proof.
  intros Hij Hj. rewrite !dip_diff_upper by exact Hij. f_equal.
  - destruct (used_g_rows _ _ _ _ qn Hok) as [gs [E _]].
    rewrite !(recip_closed mk _ _ _ _ qn) with (gs := gs) by assumption.
    f_equal. apply Csum_ext. intros g _. rewrite recip_term_sym. reflexivity.
  - destruct (ok_c _ _ _ _ Hok) as [cs [E _]].
    rewrite !(real_closed mk (reciprocal_cell cell)) with (cs := cs) by assumption.
    f_equal. apply Csum_ext. intros c _. unfold mk. rewrite !H_row_val by assumption.
    rewrite H_val_sym by (apply inv3_sym; exact Hsym). reflexivity.
Qed.

Lemma dip_diff_diag_real qn i a b : (i < length atom_r)%nat ->
  Cconj (dip_diff cell atom_r diel dd qn i i a b) = dip_diff cell atom_r diel dd qn i i a b.
Proof.
  intros Hi. rewrite dip_diff_upper by lia. rewrite Cconj_sub. f_equal.
  - destruct (used_g_rows _ _ _ _ qn Hok) as [gs [E _]].
    rewrite !(recip_closed mk _ _ _ _ qn) with (gs := gs) by (assumption || lia).
    rewrite Cconj_scal. f_equal. rewrite <- Csum_conj. apply Csum_ext. intros g _.
    rewrite Cconj_scal. f_equal. rewrite <- cis_opp. f_equal. ring.
  - destruct (ok_c _ _ _ _ Hok) as [cs [E HP]].
    rewrite !(real_closed mk (reciprocal_cell cell)) with (cs := cs) by (assumption || lia).
    rewrite Cconj_scal. f_equal. rewrite <- Csum_conj.
    rewrite <- (Csum_perm _ _ _ HP) at 1. rewrite Csum_map. apply Csum_ext. intros c _.
    unfold mk. rewrite !H_row_val by lia. rewrite znorm_opp, H_val_even, Cconj_scal.
    f_equal. rewrite zvec_opp, dot_vopp_r, <- cis_opp. f_equal. ring.
Qed.

Lemma dip_diff_herm qn i j a b : (i < length atom_r)%nat -> (j < length atom_r)%nat ->
  dip_diff cell atom_r diel dd qn j i b a = Cconj (dip_diff cell atom_r diel dd qn i j a b).
Proof.
  intros Hi Hj. destruct (lt_eq_lt_dec i j) as [[L|E]|L].
  - rewrite dip_diff_lower by exact L. f_equal. apply dip_diff_sym; lia.
  - subst j. rewrite dip_diff_diag_real by exact Hi. symmetry. apply dip_diff_sym; lia.
  - rewrite (dip_diff_lower cell atom_r diel dd qn i j) by exact L.
    rewrite Cconj_conj. apply dip_diff_sym; lia.
Qed.

Theorem dipole_herm q x y : (x < 3 * length atom_r)%nat -> (y < 3 * length atom_r)%nat ->
  dipole_correction cell atom_r born diel dd q y x
  = Cconj (dipole_correction cell atom_r born diel dd q x y).
Proof.
  intros Hx Hy. pose proof (div3_lt _ _ Hx) as Hi. pose proof (div3_lt _ _ Hy) as Hj.
  unfold dipole_correction. fold (dip_diff cell atom_r diel dd (qnorm q)).
  set (i := (x / 3)%nat) in *. set (j := (y / 3)%nat) in *.
  set (a := (x mod 3)%nat). set (b := (y mod 3)%nat).
  assert (E : born_contract born (dip_diff cell atom_r diel dd (qnorm q)) j i b a
     = Cconj (born_contract born (dip_diff cell atom_r diel dd (qnorm q)) i j a b)).
  { unfold born_contract. rewrite Csum_exchange, <- Csum_conj. apply Csum_ext. intros a' _.
    rewrite <- Csum_conj. apply Csum_ext. intros b' _.
    rewrite dip_diff_herm by assumption. rewrite Cconj_scal. f_equal. ring. }
  rewrite Nat.eqb_sym. destruct (Nat.eqb_spec i j) as [Eij|].
  - rewrite Cconj_sub, E. f_equal. rewrite <- Eij.
    rewrite im0_conj by (apply (ok_q0r _ _ _ _ Hok); exact Hi).
    apply (ok_q0s _ _ _ _ Hok).
  - exact E.
Qed.
End Herm.

(** ** periodicity away from half-integers *)
Lemma rint_add_Z x (n : Z) : (forall m : Z, x <> IZR m + 1/2) -> rint (x + IZR n) = (rint x + n)%Z.
Proof.
  intros H. unfold rint. pose proof (base_Int_part x) as [H1 H2].
  assert (Int_part (x + IZR n) = (Int_part x + n)%Z) as ->.
  { apply Int_part_unique. rewrite plus_IZR. lra. }
  rewrite plus_IZR. replace (x + IZR n - (IZR (Int_part x) + IZR n)) with (x - IZR (Int_part x)) by ring.
  specialize (H (Int_part x)).
  destruct (Rlt_dec _ _); [lia|]. destruct (Rlt_dec _ _); [lia|]. exfalso. lra.
Qed.

Definition not_half (q : V3) : Prop :=
  let '(x, y, z) := q in
  forall m : Z, x <> IZR m + 1/2 /\ y <> IZR m + 1/2 /\ z <> IZR m + 1/2.

Lemma qnorm_shift q G : not_half q -> qnorm (vadd q (zvec G)) = qnorm q.
Proof.
  destruct q as [[x y] z], G as [[g h] k]. intros H. cbn [zvec vadd qnorm].
  rewrite !rint_add_Z by (intros m; apply (H m)). rewrite !plus_IZR. apply V3_eq; ring.
Qed.

Theorem dipole_periodic cell atom_r born diel dd q G x y : not_half q ->
  dipole_correction cell atom_r born diel dd (vadd q (zvec G)) x y
  = dipole_correction cell atom_r born diel dd q x y.
Proof. intros H. unfold dipole_correction. rewrite qnorm_shift by exact H. reflexivity. Qed.
