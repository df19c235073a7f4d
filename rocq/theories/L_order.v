(** The dipole part of a crystal whose atoms are numbered in another way. *)
From Coq Require Import Permutation FunctionalExtensionality.
From Verif Require Import Base Cpx Vec3 M_grid M_cell M_qpts M_dynmat M_dipole S_frame L_dynmat L_dynmat2 L_dipole L_nac.
From Verif Require L_phmodes.
Open Scope R_scope.

(** ** the largest value of a list *)
Lemma amax_le l m : 0 <= m -> (forall x, In x l -> x <= m) -> amax l <= m.
Proof.
  intros H0 H. unfold amax. destruct l as [|y l]; [exact H0|]. cbn [hd tl].
  assert (Hy : y <= m) by (apply H; left; reflexivity).
  assert (Hl : forall x, In x l -> x <= m) by (intros x Hx; apply H; right; exact Hx). clear H.
  induction l as [|z l IH]; [exact Hy|]. cbn [fold_right]. apply Rmax_lub; [apply Hl; left; reflexivity|]. apply IH. intros x Hx. apply Hl. right. exact Hx.
Qed.
Lemma amax_mono l l' : (forall y, In y l' -> 0 <= y) -> (forall x, In x l -> exists y, In y l' /\ x <= y) -> amax l <= amax l'.
Proof.
  intros P H. apply amax_le.
  - destruct l' as [|y l']; [cbn; lra|]. apply Rle_trans with y; [apply P; left; reflexivity|apply amax_ge; left; reflexivity].
  - intros x Hx. destruct (H x Hx) as (y & Hy & L). apply Rle_trans with (1 := L). apply amax_ge. exact Hy.
Qed.

Lemma fold_keep {A B} (P : A -> Prop) (f : A -> B -> A) l : (forall h x, In x l -> P h -> P (f h x)) -> forall h, P h -> P (fold_left f l h).
Proof.
  induction l as [|x l IH]; intros H h Hh; [exact Hh|]. cbn [fold_left]. apply IH; [intros h' y Hy; apply H; right; exact Hy|]. apply H; [left; reflexivity|exact Hh].
Qed.
Lemma H_row_cases erfc l2 cell ie ar s c k a b :
  (exists i j, (i <= j < length ar)%nat /\ k = (hidx (length ar) i + j)%nat) \/ H_row erfc l2 cell ie ar s c k a b = 0.
Proof.
  set (n := length ar).
  destruct (in_dec Nat.eq_dec k (map (fun e : nat * nat => hidx n (fst e) + snd e)%nat (triu n))) as [I|I].
  - left. apply in_map_iff in I. destruct I as ([i j] & E & I). apply in_triu in I. exists i, j. split; [exact I|symmetry; exact E].
  - right. unfold H_row. fold n. cbv zeta.
    apply (fold_keep (fun h : nat -> nat -> nat -> R => h k a b = 0)); [|reflexivity]. intros h i Hi Hh. apply in_seq in Hi.
    apply (fold_keep (fun h : nat -> nat -> nat -> R => h k a b = 0)); [|exact Hh]. intros h' j Hj Hh'. apply in_seq in Hj.
    destruct (_ && _)%bool; [exact Hh'|]. destruct (Nat.eqb_spec k (hidx n i + j)) as [E|]; [|exact Hh'].
    exfalso. apply I. apply in_map_iff. exists (i, j). split; [symmetry; exact E|]. apply in_triu. lia.
Qed.

(** ** the two lists of atoms *)
Definition reord (n : nat) (p p' : nat -> nat) (s : V3) (ar ar' : list V3) : Prop :=
  renumbers n p p' /\ length ar = n /\ length ar' = n /\ forall i, (i < n)%nat -> nth i ar' vzero = vadd (nth (p i) ar vzero) s.
Lemma reord_sym n p p' s ar ar' : reord n p p' s ar ar' -> reord n p' p (vopp s) ar' ar.
Proof.
  intros (A & B & C & D). split; [intros i Hi; destruct (A i Hi) as (?&?&?&?); tauto|]. split; [exact C|]. split; [exact B|].
  intros i Hi. destruct (A i Hi) as (_ & P & _ & Q). rewrite (D _ P), Q. destruct (nth i ar vzero) as [[? ?] ?], s as [[? ?] ?]. cbn. apply V3_eq; ring.
Qed.

Lemma H_val_flip erfc l2 cell ie ar s c i j a b : H_val erfc l2 cell ie ar s (zopp3 c) j i a b = H_val erfc l2 cell ie ar s c i j a b.
Proof.
  unfold H_val. rewrite (Nat.eqb_sym j i). destruct (_ && _)%bool; [reflexivity|]. rewrite zvec_opp, !vmul_vopp.
  set (x := vmul (nth i ar vzero) cell). set (y := vmul (nth j ar vzero) cell). set (z := vmul (zvec c) cell).
  assert (E : forall u v w, vsub (vsub v u) (vopp w) = vopp (vsub (vsub u v) w)) by (intros [[? ?] ?] [[? ?] ?] [[? ?] ?]; cbn; apply V3_eq; ring).
  unfold H_block. cbv zeta. rewrite !E, dot_vopp_l, dot_vopp_r, Ropp_involutive, !comp_vopp. f_equal. ring.
Qed.

Section Order.
Variables (n : nat) (p p' : nat -> nat) (s : V3) (ar ar' : list V3).
Hypothesis HP : reord n p p' s ar ar'.
Variables (erfc : R -> R) (cell diel : M3).

Lemma p_inj i j : (i < n)%nat -> (j < n)%nat -> Nat.eqb (p i) (p j) = Nat.eqb i j.
Proof.
  intros Hi Hj. destruct HP as (A & _). destruct (A i Hi) as (_ & _ & X & _), (A j Hj) as (_ & _ & Y & _).
  destruct (Nat.eqb_spec i j) as [->|N]; [apply Nat.eqb_refl|]. apply Nat.eqb_neq. congruence.
Qed.
Lemma H_val_order l2 ie sh c i j a b : (i < n)%nat -> (j < n)%nat -> H_val erfc l2 cell ie ar' sh c i j a b = H_val erfc l2 cell ie ar sh c (p i) (p j) a b.
Proof.
  intros Hi Hj. unfold H_val. rewrite p_inj by assumption. destruct (_ && _)%bool; [reflexivity|].
  destruct HP as (_ & _ & _ & D). rewrite (D i Hi), (D j Hj).
  assert (E : forall u v m, vsub (vmul (vadd u s) m) (vmul (vadd v s) m) = vsub (vmul u m) (vmul v m)).
  { intros u v m. rewrite !vmul_vadd. destruct (vmul u m) as [[? ?] ?], (vmul v m) as [[? ?] ?], (vmul s m) as [[? ?] ?]. cbn. apply V3_eq; ring. }
  assert (E2 : forall u v m m2, vsub (vmul (vmul (vadd u s) m) m2) (vmul (vmul (vadd v s) m) m2) = vsub (vmul (vmul u m) m2) (vmul (vmul v m) m2)).
  { intros u v m m2. rewrite !vmul_vadd. destruct (vmul (vmul u m) m2) as [[? ?] ?], (vmul (vmul v m) m2) as [[? ?] ?], (vmul (vmul s m) m2) as [[? ?] ?]. cbn. apply V3_eq; ring. }
  rewrite E, E2. reflexivity.
Qed.

Lemma H_amax_order1 l2 ie sh : H_amax n (map (H_row erfc l2 cell ie ar' sh) (shell sh)) <= H_amax n (map (H_row erfc l2 cell ie ar sh) (shell sh)).
Proof.
  pose proof HP as (A & La & La' & D). unfold H_amax. apply amax_mono.
  - intros y Hy. apply in_flat_map in Hy. destruct Hy as (h & _ & Hy). apply in_flat_map in Hy. destruct Hy as (k & _ & Hy). apply in_flat_map in Hy. destruct Hy as (a & _ & Hy).
    apply in_map_iff in Hy. destruct Hy as (b & <- & _). apply Rabs_pos.
  - intros x Hx. apply in_flat_map in Hx. destruct Hx as (h & Hh & Hx). apply in_map_iff in Hh. destruct Hh as (c & <- & Hc).
    apply in_flat_map in Hx. destruct Hx as (k & Hk & Hx). apply in_flat_map in Hx. destruct Hx as (a & Ha & Hx). apply in_map_iff in Hx. destruct Hx as (b & <- & Hb).
    assert (I : forall c k, In c (shell sh) -> (k < n_elems n)%nat -> In (Rabs (H_row erfc l2 cell ie ar sh c k a b))
       (flat_map (fun h => flat_map (fun k => flat_map (fun a => map (fun b => Rabs (h k a b)) idx3) idx3) (seq 0 (n_elems n))) (map (H_row erfc l2 cell ie ar sh) (shell sh)))).
    { intros c0 k0 C0 K0. apply in_flat_map. exists (H_row erfc l2 cell ie ar sh c0). split; [apply in_map; exact C0|]. apply in_flat_map. exists k0. split; [apply in_seq; lia|].
      apply in_flat_map. exists a. split; [exact Ha|]. apply in_map_iff. exists b. split; [reflexivity|exact Hb]. }
    destruct (H_row_cases erfc l2 cell ie ar' sh c k a b) as [(i & j & Hij & ->)|E].
    + rewrite H_row_val by lia. rewrite La' in Hij. rewrite H_val_order by lia.
      destruct (A i) as (Pi & _); [lia|]. destruct (A j) as (Pj & _); [lia|].
      destruct (Nat.le_gt_cases (p i) (p j)) as [L|L].
      * eexists. split; [apply (I c (hidx n (p i) + p j)%nat Hc); apply hidx_bound; lia|]. rewrite <- La at 1. rewrite H_row_val by lia. lra.
      * eexists. split; [apply (I (zopp3 c) (hidx n (p j) + p i)%nat); [apply in_shell; rewrite znorm_opp; apply in_shell; exact Hc|apply hidx_bound; lia]|].
        rewrite <- La at 1. rewrite H_row_val by lia. rewrite H_val_flip. lra.
    + eexists. split; [apply (I c k Hc); apply in_seq in Hk; lia|]. rewrite E, Rabs_R0. apply Rabs_pos.
Qed.

Definition tterm (l2 : R) (l : list V3) (gs : list Z3) (i j a b : nat) : C :=
  Csum gs (fun g => Cscal (recip_term diel l2 (vmul (zvec g) (reciprocal_cell cell)) a b) (cis (2 * PI * (dot (zvec g) (nth i l vzero) - dot (zvec g) (nth j l vzero))))).
Lemma tterm_upper l2 l gs i j a b : (i <= j < length l)%nat -> recip_q0_tmp diel l2 (map (g_row (reciprocal_cell cell) l) gs) i j a b = tterm l2 l gs i j a b.
Proof.
  intros H. unfold recip_q0_tmp, tterm. destruct (Nat.ltb_spec j i); [lia|]. rewrite Csum_map. apply Csum_ext. intros g _. rewrite !g_row_nth by lia. rewrite Cdiv_cis. cbn [g_row fst]. f_equal. f_equal. ring.
Qed.
Lemma tterm_flip l2 l gs i j a b : tterm l2 l gs j i a b = Cconj (tterm l2 l gs i j a b).
Proof. unfold tterm. rewrite <- Csum_conj. apply Csum_ext. intros g _. rewrite Cconj_scal, <- cis_opp. f_equal. f_equal. ring. Qed.
Lemma dot_order g i j : (i < n)%nat -> (j < n)%nat -> dot g (nth i ar' vzero) - dot g (nth j ar' vzero) = dot g (nth (p i) ar vzero) - dot g (nth (p j) ar vzero).
Proof.
  intros Hi Hj. destruct HP as (_ & _ & _ & D). rewrite (D i Hi), (D j Hj). destruct g as [[? ?] ?], (nth (p i) ar vzero) as [[? ?] ?], (nth (p j) ar vzero) as [[? ?] ?], s as [[? ?] ?]. cbn. ring.
Qed.
Lemma tterm_order l2 gs i j a b : (i < n)%nat -> (j < n)%nat -> tterm l2 ar' gs i j a b = tterm l2 ar gs (p i) (p j) a b.
Proof. intros Hi Hj. unfold tterm. apply Csum_ext. intros g _. rewrite dot_order by assumption. reflexivity. Qed.

Lemma block_amax_order1 l2 gs : block_amax n (recip_q0_tmp diel l2 (map (g_row (reciprocal_cell cell) ar') gs)) <= block_amax n (recip_q0_tmp diel l2 (map (g_row (reciprocal_cell cell) ar) gs)).
Proof.
  pose proof HP as (A & La & La' & D). unfold block_amax. apply amax_mono.
  - intros y Hy. apply in_flat_map in Hy. destruct Hy as (i & _ & Hy). apply in_flat_map in Hy. destruct Hy as (j & _ & Hy). apply in_flat_map in Hy. destruct Hy as (a & _ & Hy).
    apply in_map_iff in Hy. destruct Hy as (b & <- & _). apply sqrt_pos.
  - intros x Hx. apply in_flat_map in Hx. destruct Hx as (i & Hi & Hx). apply in_flat_map in Hx. destruct Hx as (j & Hj & Hx). apply in_flat_map in Hx. destruct Hx as (a & Ha & Hx).
    apply in_map_iff in Hx. destruct Hx as (b & <- & Hb). apply in_seq in Hi. apply in_seq in Hj.
    set (t := recip_q0_tmp diel l2 (map (g_row (reciprocal_cell cell) ar) gs)).
    assert (I : forall i j, (i < n)%nat -> (j < n)%nat -> In (Cabs (t i j a b)) (flat_map (fun i => flat_map (fun j => flat_map (fun a => map (fun b => Cabs (t i j a b)) idx3) idx3) (seq 0 n)) (seq 0 n))).
    { intros i0 j0 I0 J0. apply in_flat_map. exists i0. split; [apply in_seq; lia|]. apply in_flat_map. exists j0. split; [apply in_seq; lia|].
      apply in_flat_map. exists a. split; [exact Ha|]. apply in_map_iff. exists b. split; [reflexivity|exact Hb]. }
    destruct (Nat.le_gt_cases i j) as [L|L].
    + rewrite tterm_upper by lia. rewrite tterm_order by lia. destruct (A i) as (Pi & _); [lia|]. destruct (A j) as (Pj & _); [lia|].
      destruct (Nat.le_gt_cases (p i) (p j)) as [L2|L2].
      * eexists. split; [apply (I (p i) (p j)); lia|]. unfold t. rewrite tterm_upper by lia. lra.
      * eexists. split; [apply (I (p j) (p i)); lia|]. unfold t. rewrite tterm_upper by lia. rewrite (tterm_flip l2 ar gs (p j) (p i)). unfold Cabs. rewrite Cnorm2_conj. lra.
    + eexists. split; [apply (I i j); lia|]. unfold recip_q0_tmp at 1. destruct (Nat.ltb_spec j i); [|lia]. unfold Cabs at 1. replace (Cnorm2 Czero) with 0 by (unfold Cnorm2; cbn; ring). rewrite sqrt_0. apply sqrt_pos.
Qed.
End Order.

(** ** the same shells *)
Lemma H_amax_order n p p' s ar ar' erfc cell l2 ie sh : reord n p p' s ar ar' ->
  H_amax n (map (H_row erfc l2 cell ie ar' sh) (shell sh)) = H_amax n (map (H_row erfc l2 cell ie ar sh) (shell sh)).
Proof. intros H. apply Rle_antisym; [exact (H_amax_order1 _ _ _ _ _ _ H _ _ _ _ _)|exact (H_amax_order1 _ _ _ _ _ _ (reord_sym _ _ _ _ _ _ H) _ _ _ _ _)]. Qed.
Lemma block_amax_order n p p' s ar ar' cell diel l2 gs : reord n p p' s ar ar' ->
  block_amax n (recip_q0_tmp diel l2 (map (g_row (reciprocal_cell cell) ar') gs)) = block_amax n (recip_q0_tmp diel l2 (map (g_row (reciprocal_cell cell) ar) gs)).
Proof. intros H. apply Rle_antisym; [exact (block_amax_order1 _ _ _ _ _ _ H _ _ _ _)|exact (block_amax_order1 _ _ _ _ _ _ (reord_sym _ _ _ _ _ _ H) _ _ _ _)]. Qed.

Lemma real_same mk mk' n todo : (forall sh, H_amax n (map (mk' sh) (shell sh)) = H_amax n (map (mk sh) (shell sh))) ->
  forall r0, fst (real_shells mk' n todo r0) = fst (real_shells mk n todo r0).
Proof.
  intros E. induction todo as [|sh todo IH]; intros r0; [reflexivity|]. cbn [real_shells]. cbv zeta. rewrite E.
  destruct (Rltb _ _); [|reflexivity]. match goal with |- context [real_shells mk n todo ?f] => specialize (IH f); destruct (real_shells mk n todo f), (real_shells mk' n todo f) end. cbn [fst] in *. rewrite IH. reflexivity.
Qed.
Lemma recip_same n p p' s ar ar' cell diel l2 : reord n p p' s ar ar' ->
  forall todo f acc acc', exists M, (M <= length todo)%nat /\
  (let gs := flat_map shell (firstn M todo) in
   fst (recip_shells diel (reciprocal_cell cell) l2 ar todo f acc) = map (g_row (reciprocal_cell cell) ar) gs /\
   fst (recip_shells diel (reciprocal_cell cell) l2 ar' todo f acc') = map (g_row (reciprocal_cell cell) ar') gs /\
   (forall i j a b, snd (recip_shells diel (reciprocal_cell cell) l2 ar todo f acc) i j a b = Cadd (acc i j a b) (recip_q0_tmp diel l2 (map (g_row (reciprocal_cell cell) ar) gs) i j a b)) /\
   (forall i j a b, snd (recip_shells diel (reciprocal_cell cell) l2 ar' todo f acc') i j a b = Cadd (acc' i j a b) (recip_q0_tmp diel l2 (map (g_row (reciprocal_cell cell) ar') gs) i j a b))).
Proof.
  intros H. pose proof H as (_ & La & La' & _).
  assert (Z : forall l (acc : nat -> nat -> nat -> nat -> C) i j a b, acc i j a b = Cadd (acc i j a b) (recip_q0_tmp diel l2 (map (g_row (reciprocal_cell cell) l) []) i j a b)).
  { intros. unfold recip_q0_tmp. cbn [map]. destruct (Nat.ltb _ _); rewrite ?Csum_nil; ring. }
  induction todo as [|sh todo IH]; intros f acc acc'.
  - exists 0%nat. split; [cbn; lia|]. cbv zeta. cbn [firstn flat_map recip_shells fst snd]. split; [reflexivity|]. split; [reflexivity|]. split; intros; apply Z.
  - cbn [recip_shells]. cbv zeta. rewrite La, La'. rewrite (block_amax_order n p p' s ar ar' cell diel l2 (shell sh) H).
    destruct (Rltb _ _).
    2:{ exists 0%nat. split; [lia|]. cbn [firstn flat_map fst snd]. split; [reflexivity|]. split; [reflexivity|]. split; intros; apply Z. }
    match goal with |- context [recip_shells diel _ l2 ar todo ?f' ?g] => match goal with |- context [recip_shells diel _ l2 ar' todo f' ?g'] => destruct (IH f' g g') as (M & HM & A1 & A2 & A3 & A4);
      destruct (recip_shells diel (reciprocal_cell cell) l2 ar todo f' g) as [l1 b1], (recip_shells diel (reciprocal_cell cell) l2 ar' todo f' g') as [l2' b2] end end.
    cbn [fst snd] in *. exists (S M). cbn [length firstn flat_map]. split; [lia|]. rewrite !map_app, A1, A2. split; [reflexivity|]. split; [reflexivity|].
    split; intros i j a b; rewrite ?A3, ?A4; unfold recip_q0_tmp; (destruct (Nat.ltb j i); [ring|rewrite Csum_app; ring]).
Qed.

(** ** the dipole part in closed form *)
Section Form.
Variables (erfc : R -> R) (cell diel : M3) (ar : list V3) (param : R).
Notation n := (length ar).
Notation lam := (upper_lambda cell diel n param).
Notation rec := (reciprocal_cell cell).
Notation mk := (H_row erfc (lam ^ 2) cell (inv3 diel) ar).
Notation HV := (H_val erfc (lam ^ 2) cell (inv3 diel) ar).
(** Both sums reach the shells below N and M. *)
Definition reaches (N M : nat) : Prop :=
  fst (real_shells mk n (seq 0 50) 0) = flat_map shell (seq 0 N) /\
  snd (real_shells mk n (seq 0 50) 0) = map (fun c => mk (znorm c) c) (flat_map shell (seq 0 N)) /\
  fst (recip_shells diel rec (lam ^ 2) ar (seq 1 49) 0 (fun _ _ _ _ => Czero)) = map (g_row rec ar) (flat_map shell (seq 1 M)) /\
  forall i j a b, snd (recip_shells diel rec (lam ^ 2) ar (seq 1 49) 0 (fun _ _ _ _ => Czero)) i j a b = recip_q0_tmp diel (lam ^ 2) (map (g_row rec ar) (flat_map shell (seq 1 M))) i j a b.

Definition KR (gs : list Z3) (q : V3) (i j a b : nat) : C := Cscal (PI / (cell_volume cell * lam ^ 2)) (Csum gs (fun g =>
  Cscal (recip_term diel (lam ^ 2) (vmul (vadd (zvec g) q) rec) a b) (cis (2 * PI * (dot (vadd (zvec g) q) (nth i ar vzero) - dot (vadd (zvec g) q) (nth j ar vzero)))))).
Definition KH (cs : list Z3) (q : V3) (i j a b : nat) : C := Cscal (real_factor lam diel) (Csum cs (fun c => Cscal (HV (znorm c) c i j a b) (cis (2 * PI * dot q (zvec c))))).
Lemma KR_flip gs q i j a b : KR gs q j i a b = Cconj (KR gs q i j a b).
Proof. unfold KR. rewrite Cconj_scal, <- Csum_conj. f_equal. apply Csum_ext. intros g _. rewrite Cconj_scal, <- cis_opp. f_equal. f_equal. ring. Qed.
Lemma KH_flip N q i j a b : KH (flat_map shell (seq 0 N)) q j i a b = Cconj (KH (flat_map shell (seq 0 N)) q i j a b).
Proof.
  unfold KH. rewrite Cconj_scal, <- Csum_conj. f_equal. etransitivity; [symmetry; apply (Csum_perm _ _ _ (shells_opp 0 N))|]. rewrite Csum_map. apply Csum_ext. intros c _.
  rewrite Cconj_scal, <- cis_opp, znorm_opp, H_val_flip, zvec_opp. f_equal. f_equal. rewrite dot_vopp_r. ring.
Qed.
Definition dform (born : nat -> M3) (N M : nat) (q : V3) (i j a b : nat) : C :=
  let cs := flat_map shell (seq 0 N) in let gs := flat_map shell (seq 1 M) in let qn := qnorm q in
  let v := born_contract born (fun i j a b => Csub (KR (if is_gamma qn then gs else (0,0,0)%Z :: gs) qn i j a b) (KH cs qn i j a b)) i j a b in
  if Nat.eqb i j then Csub v (dipole_q0 born n (fun i j a b => Csub (KR gs vzero i j a b) (KH cs vzero i j a b)) i a b) else v.

Lemma bc_ext born m m' i j a b : (forall a b, m i j a b = m' i j a b) -> born_contract born m i j a b = born_contract born m' i j a b.
Proof. intros H. unfold born_contract. apply Csum_ext. intros a' _. apply Csum_ext. intros b' _. rewrite H. reflexivity. Qed.
Lemma vadd_zero v : vadd v vzero = v.
Proof. destruct v as [[? ?] ?]. cbn. apply V3_eq; ring. Qed.

Lemma dip_form born N M q i j a b : reaches N M -> (i < n)%nat -> (j < n)%nat -> (a < 3)%nat -> (b < 3)%nat ->
  dipole_correction cell ar born diel (dipole_init erfc cell ar born diel param) q (3 * i + a) (3 * j + b) = dform born N M q i j a b.
Proof.
  intros (R1 & R2 & R3 & R4) Hi Hj Ha Hb. unfold dipole_correction. cbv zeta.
  destruct (L_phmodes.div3 i a Ha) as [-> ->]. destruct (L_phmodes.div3 j b Hb) as [-> ->].
  pose proof (dipole_init_ok erfc cell ar born diel param) as OK.
  set (dd := dipole_init erfc cell ar born diel param) in *. set (qn := qnorm q).
  assert (Dl : dd_lambda dd = lam) by (unfold dd, dipole_init; cbv zeta; destruct (real_shells _ _ _ _), (recip_shells _ _ _ _ _ _ _); reflexivity).
  set (cs := flat_map shell (seq 0 N)) in *. set (gs := flat_map shell (seq 1 M)) in *.
  assert (Dc : combine (dd_cells dd) (dd_H dd) = map (fun c => (c, mk (znorm c) c)) cs).
  { unfold dd, dipole_init. cbv zeta. destruct (real_shells _ _ _ _) as [cells H], (recip_shells _ _ _ _ _ _ _) as [g r]. cbn [dd_cells dd_H fst snd] in *. rewrite R1, R2. apply combine_map_r. }
  assert (Dg : combine (dd_gcart dd) (dd_gph dd) = map (g_row rec ar) ((0,0,0)%Z :: gs)).
  { unfold dd, dipole_init. cbv zeta. destruct (real_shells _ _ _ _) as [cells H], (recip_shells _ _ _ _ _ _ _) as [g r]. cbn [dd_gcart dd_gph fst snd] in *. rewrite combine_fst_snd. cbn [map]. rewrite g_row_zero, R3. reflexivity. }
  set (G := if is_gamma qn then gs else (0,0,0)%Z :: gs).
  assert (Du : used_g dd qn = map (g_row rec ar) G).
  { unfold used_g. cbv zeta. rewrite Dg. unfold G. destruct (is_gamma qn); reflexivity. }
  assert (Up : forall i j a b, (i <= j)%nat -> (j < n)%nat -> dip_diff cell ar diel dd qn i j a b = Csub (KR G qn i j a b) (KH cs qn i j a b)).
  { intros i0 j0 a0 b0 L J. rewrite dip_diff_upper by exact L. rewrite (recip_closed mk _ _ _ _ qn i0 j0 a0 b0 OK L J G Du).
    rewrite (real_closed mk rec ar diel dd qn i0 j0 a0 b0 OK L J cs Dc). rewrite Dl. unfold KR, KH. f_equal. f_equal. apply Csum_ext. intros c _. rewrite H_row_val by assumption. reflexivity. }
  assert (All : forall i j a b, (i < n)%nat -> (j < n)%nat -> dip_diff cell ar diel dd qn i j a b = Csub (KR G qn i j a b) (KH cs qn i j a b)).
  { intros i0 j0 a0 b0 I J. destruct (Nat.le_gt_cases i0 j0) as [L|L]; [apply Up; assumption|]. rewrite dip_diff_lower by exact L. rewrite Up by lia.
    rewrite Cconj_sub. unfold cs. rewrite <- (KR_flip G qn j0 i0), <- (KH_flip N qn j0 i0). reflexivity. }
  assert (Dq : dd_q0 dd i a b = dipole_q0 born n (fun i j a b => Csub (KR gs vzero i j a b) (KH cs vzero i j a b)) i a b).
  { unfold dd, dipole_init. cbv zeta. destruct (real_shells _ _ _ _) as [cells H], (recip_shells _ _ _ _ _ _ _) as [g r]. cbn [dd_q0 fst snd] in *.
    assert (U0 : forall i j a b, (i <= j)%nat -> (j < n)%nat -> Cscal (PI / (cell_volume cell * lam ^ 2)) (r i j a b) = KR gs vzero i j a b /\
       Cscal (real_factor lam diel) (triu_fill Czero n (fun k a b => RtoC (Sum H (fun h => h k a b))) i j a b) = KH cs vzero i j a b).
    { intros i0 j0 a0 b0 L J. split.
      - rewrite R4, tterm_upper by lia. unfold KR, tterm. f_equal. apply Csum_ext. intros c _. rewrite vadd_zero. reflexivity.
      - rewrite triu_fill_upper by assumption. rewrite R2, Sum_map. unfold KH. f_equal. 
        rewrite (Csum_ext cs _ (fun c => RtoC (HV (znorm c) c i0 j0 a0 b0))).
        + rewrite (Sum_ext cs _ (fun c => HV (znorm c) c i0 j0 a0 b0)) by (intros c _; apply H_row_val; assumption).
          apply C_eq; cbn [re im RtoC Csum]; [reflexivity|]. symmetry. apply Sum_zero. 
        + intros c _. replace (2 * PI * dot vzero (zvec c)) with 0 by (destruct (zvec c) as [[? ?] ?]; cbn; ring). rewrite cis_0. apply C_eq; cbn; ring. }
    assert (A0 : forall i j a b, (i < n)%nat -> (j < n)%nat -> Csub (fill_lower (fun i j a b => Cscal (PI / (cell_volume cell * lam ^ 2)) (r i j a b)) i j a b)
        (fill_lower (fun i j a b => Cscal (real_factor lam diel) (triu_fill Czero n (fun k a b => RtoC (Sum H (fun h => h k a b))) i j a b)) i j a b)
       = Csub (KR gs vzero i j a b) (KH cs vzero i j a b)).
    { intros i0 j0 a0 b0 I J. unfold fill_lower. destruct (Nat.ltb_spec j0 i0) as [L|L].
      - destruct (U0 j0 i0 a0 b0) as [X Y]; [lia|lia|]. rewrite X, Y. unfold cs. rewrite <- KR_flip, <- KH_flip. reflexivity.
      - destruct (U0 i0 j0 a0 b0) as [X Y]; [lia|lia|]. rewrite X, Y. reflexivity. }
    unfold dipole_q0. cbv zeta. f_equal. f_equal; apply Csum_ext; intros j0 J; apply in_seq in J; apply bc_ext; intros; apply A0; lia. }
  unfold dform. fold cs gs qn. cbv zeta. fold G. rewrite Dq.
  assert (V : born_contract born (dip_diff cell ar diel dd qn) i j a b = born_contract born (fun i j a b => Csub (KR G qn i j a b) (KH cs qn i j a b)) i j a b).
  { apply bc_ext. intros. apply All; assumption. }
  unfold dip_diff in V. rewrite V. reflexivity.
Qed.
End Form.

(** ** the dipole part of the renumbered crystal *)
Lemma dipole_order n p p' s ar ar' erfc cell diel param born born' q i j a b : reord n p p' s ar ar' -> (forall i, (i < n)%nat -> born' i = born (p i)) ->
  (i < n)%nat -> (j < n)%nat -> (a < 3)%nat -> (b < 3)%nat ->
  dipole_correction cell ar' born' diel (dipole_init erfc cell ar' born' diel param) q (3 * i + a) (3 * j + b)
  = dipole_correction cell ar born diel (dipole_init erfc cell ar born diel param) q (3 * p i + a) (3 * p j + b).
Proof.
  intros H HB Hi Hj Ha Hb. pose proof H as (A & La & La' & D).
  set (l2 := upper_lambda cell diel n param ^ 2).
  assert (ER := real_same (H_row erfc l2 cell (inv3 diel) ar) (H_row erfc l2 cell (inv3 diel) ar') n (seq 0 50) (fun sh => H_amax_order n p p' s ar ar' erfc cell l2 (inv3 diel) sh H) 0).
  destruct (real_shells_spec (H_row erfc l2 cell (inv3 diel) ar) n (seq 0 50) 0) as (N & HN & N1 & N2).
  destruct (real_shells_spec (H_row erfc l2 cell (inv3 diel) ar') n (seq 0 50) 0) as (N' & _ & _ & N2').
  destruct (recip_same n p p' s ar ar' cell diel l2 H (seq 1 49) 0 (fun _ _ _ _ => Czero) (fun _ _ _ _ => Czero)) as (M & HM & M1 & M2 & M3 & M4).
  rewrite seq_length in HN, HM. rewrite firstn_seq in N1 by exact HN. rewrite firstn_seq in M1, M2, M3, M4 by exact HM. cbv zeta in *.
  assert (Z : forall z, Cadd Czero z = z) by (intros z; ring).
  assert (X : reaches erfc cell diel ar param N M).
  { unfold reaches. rewrite La. fold l2. split; [exact N1|]. split; [rewrite N2, N1; reflexivity|]. split; [exact M1|]. intros. rewrite M3. apply Z. }
  assert (X' : reaches erfc cell diel ar' param N M).
  { unfold reaches. rewrite La'. fold l2. split; [rewrite ER; exact N1|]. split; [rewrite N2', ER, N1; reflexivity|]. split; [exact M2|]. intros. rewrite M4. apply Z. }
  destruct (A i Hi) as (Pi & _). destruct (A j Hj) as (Pj & _).
  rewrite (dip_form erfc cell diel ar' param born' N M q i j a b X') by lia. rewrite (dip_form erfc cell diel ar param born N M q (p i) (p j) a b X) by lia.
  assert (ERR : forall gs k i j a b, (i < n)%nat -> (j < n)%nat -> KR cell diel ar' param gs k i j a b = KR cell diel ar param gs k (p i) (p j) a b).
  { intros gs k i0 j0 a0 b0 I J. unfold KR. rewrite La, La'. f_equal. apply Csum_ext. intros g _. rewrite (dot_order n p p' s ar ar' H) by assumption. reflexivity. }
  assert (EHH : forall cs k i j a b, (i < n)%nat -> (j < n)%nat -> KH erfc cell diel ar' param cs k i j a b = KH erfc cell diel ar param cs k (p i) (p j) a b).
  { intros cs k i0 j0 a0 b0 I J. unfold KH. rewrite La, La'. f_equal. apply Csum_ext. intros c _. rewrite (H_val_order n p p' s ar ar' H) by assumption. reflexivity. }
  assert (EB : forall cs gs k i j a b, (i < n)%nat -> (j < n)%nat ->
     born_contract born' (fun i j a b => Csub (KR cell diel ar' param gs k i j a b) (KH erfc cell diel ar' param cs k i j a b)) i j a b
     = born_contract born (fun i j a b => Csub (KR cell diel ar param gs k i j a b) (KH erfc cell diel ar param cs k i j a b)) (p i) (p j) a b).
  { intros cs gs k i0 j0 a0 b0 I J. unfold born_contract. apply Csum_ext. intros a' _. apply Csum_ext. intros b' _. rewrite ERR, EHH, !HB by assumption. reflexivity. }
  unfold dform. cbv zeta. rewrite EB by assumption. rewrite (p_inj n p p' s ar ar' H) by assumption. destruct (Nat.eqb i j); [|reflexivity]. f_equal.
  unfold dipole_q0. cbv zeta. rewrite La, La'.
  assert (PP : Permutation (map p (seq 0 n)) (seq 0 n)).
  { apply NoDup_Permutation_bis.
    - apply NoDup_map_inj; [|apply seq_NoDup]. intros x y Hx Hy E. apply in_seq in Hx. apply in_seq in Hy. destruct (A x) as (_ & _ & X1 & _); [lia|]. destruct (A y) as (_ & _ & Y1 & _); [lia|]. congruence.
    - rewrite map_length. reflexivity.
    - intros x Hx. apply in_map_iff in Hx. destruct Hx as (y & <- & Hy). apply in_seq in Hy. destruct (A y) as [Q _]; [lia|]. apply in_seq. lia. }
  assert (ES : forall f : nat -> C, Csum (seq 0 n) (fun j => f (p j)) = Csum (seq 0 n) f) by (intros f; rewrite <- (Csum_perm _ _ f PP); symmetry; apply Csum_map).
  f_equal. f_equal.
  - etransitivity; [|apply (ES (fun j => born_contract born _ (p i) j a b))]. cbv beta. apply Csum_ext. intros j0 J. apply in_seq in J. apply EB; lia.
  - etransitivity; [|apply (ES (fun j => born_contract born _ (p i) j b a))]. cbv beta. apply Csum_ext. intros j0 J. apply in_seq in J. apply EB; lia.
Qed.
