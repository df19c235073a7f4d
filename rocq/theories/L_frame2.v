(** Two descriptions of one crystal: densities of states, Debye-Waller factors, structure factors. *)
From Coq Require Import Permutation FunctionalExtensionality.
From Verif Require L_dos2 L_qpts.
From Verif Require Import Base Cpx Vec3 M_grid M_qpts M_path M_broad M_dos M_sf M_dynmat M_dipole M_calc S_dynmat S_asr S_calc S_unique S_frame L_bands4 L_unique L_unique2 L_frame.
Open Scope R_scope.

Lemma forall2_cons {A B} (Q : A -> B -> Prop) a l b l' : Forall2 Q (a :: l) (b :: l') -> Q a b /\ Forall2 Q l l'.
Proof. intros H. inversion H. split; assumption. Qed.
Lemma forall2_len {A B} (Q : A -> B -> Prop) l l' : Forall2 Q l l' -> length l = length l'.
Proof. intros H. induction H as [|a b l l' _ _ IH]; [reflexivity|]. cbn [length]. rewrite IH. reflexivity. Qed.
Section Obs.
Variables (F : frame) (n : nat).
Hypothesis HP : renumbers n (fr_p F) (fr_p' F).
Hypothesis HO : orthogonal (fr_G F).
Notation p := (fr_p F).
Notation p' := (fr_p' F).
Notation G := (fr_G F).
Notation T := (fr_T F).

Lemma aperm : Permutation (map p (seq 0 n)) (seq 0 n).
Proof.
  apply NoDup_Permutation_bis.
  - apply NoDup_map_inj; [|apply seq_NoDup]. intros x y Hx Hy E. apply in_seq in Hx. apply in_seq in Hy.
    destruct (HP x) as (_ & _ & X & _); [lia|]. destruct (HP y) as (_ & _ & Y & _); [lia|]. congruence.
  - rewrite map_length. reflexivity.
  - intros x Hx. apply in_map_iff in Hx. destruct Hx as (y & <- & Hy). apply in_seq in Hy. destruct (HP y) as [A _]; [lia|]. apply in_seq. lia.
Qed.
Lemma o1 a b : (a < 3)%nat -> (b < 3)%nat -> entry G a 0 * entry G b 0 + entry G a 1 * entry G b 1 + entry G a 2 * entry G b 2 = if Nat.eqb a b then 1 else 0.
Proof. intros A B. rewrite <- (proj1 (HO a b A B)), three. reflexivity. Qed.
Lemma o2 a b : (a < 3)%nat -> (b < 3)%nat -> entry G 0 a * entry G 0 b + entry G 1 a * entry G 1 b + entry G 2 a * entry G 2 b = if Nat.eqb a b then 1 else 0.
Proof. intros A B. rewrite <- (proj2 (HO a b A B)), three. reflexivity. Qed.

Variables (e : etable) (u : nat -> nat -> C).
Hypothesis He : M_dos.n_atoms e = n.
Hypothesis Hu : forall q i, (i < n)%nat -> Cmul (Cconj (u q i)) (u q i) = Cone.
Notation s := (seen_table F u e).

Lemma seen_evec q m i a : (i < n)%nat -> evec s q m (p i) a = Cmul (Cconj (u q i)) (Csum (seq 0 3) (fun b => Cscal (entry G a b) (evec e q m i b))).
Proof. intros Hi. cbn [seen_table evec]. destruct (HP i Hi) as (_ & _ & -> & _). reflexivity. Qed.
Lemma evec_seen q m i a : (i < n)%nat -> (a < 3)%nat -> evec e q m i a = Cmul (u q i) (Csum (seq 0 3) (fun b => Cscal (entry G b a) (evec s q m (p i) b))).
Proof.
  intros Hi Ha. rewrite (Csum_ext _ _ (fun b => Cscal (entry G b a) (Cmul (Cconj (u q i)) (Csum (seq 0 3) (fun c => Cscal (entry G b c) (evec e q m i c)))))).
  2:{ intros b Hb. rewrite seen_evec by exact Hi. reflexivity. }
  assert (O0 := o2 a 0 Ha ltac:(lia)). assert (O1 := o2 a 1 Ha ltac:(lia)). assert (O2 := o2 a 2 Ha ltac:(lia)).
  rewrite !cthree.
  transitivity (Cmul (Cmul (Cconj (u q i)) (u q i)) (Cadd (Cadd (Cscal (entry G 0 a * entry G 0 0 + entry G 1 a * entry G 1 0 + entry G 2 a * entry G 2 0) (evec e q m i 0%nat))
     (Cscal (entry G 0 a * entry G 0 1 + entry G 1 a * entry G 1 1 + entry G 2 a * entry G 2 1) (evec e q m i 1%nat)))
     (Cscal (entry G 0 a * entry G 0 2 + entry G 1 a * entry G 1 2 + entry G 2 a * entry G 2 2) (evec e q m i 2%nat)))).
  - rewrite O0, O1, O2, (Hu q i Hi). destruct a as [|[|[|]]]; [| | |lia]; cbn [Nat.eqb]; apply C_eq; cbn [re im Cadd Cscal Cmul Cone]; ring.
  - apply C_eq; cbn [re im Cadd Cscal Cmul Cconj]; ring.
Qed.

Lemma term_turn q m i l l' : (i < n)%nat -> (l < 3)%nat -> (l' < 3)%nat -> evec_term e q m i l l' = turned_entry G (evec_term s q m (p i)) l l'.
Proof.
  intros Hi Hl Hl'. unfold evec_term at 1. rewrite (evec_seen q m i l Hi Hl), (evec_seen q m i l' Hi Hl'). unfold turned_entry. rewrite !three. rewrite !cthree.
  unfold evec_term. set (v := evec s q m (p i)).
  pose proof (Hu q i Hi) as U. set (w := u q i) in *.
  transitivity (re (Cmul (Cmul (Cconj w) w) (Cmul (Cadd (Cadd (Cscal (entry G 0 l) (v 0%nat)) (Cscal (entry G 1 l) (v 1%nat))) (Cscal (entry G 2 l) (v 2%nat)))
     (Cconj (Cadd (Cadd (Cscal (entry G 0 l') (v 0%nat)) (Cscal (entry G 1 l') (v 1%nat))) (Cscal (entry G 2 l') (v 2%nat))))))).
  - cbn [re im Cadd Cscal Cmul Cconj]. ring.
  - rewrite U. cbn [re im Cadd Cscal Cmul Cconj Cone]. ring.
Qed.
Lemma weight_turn q m i : (i < n)%nat -> evec_weight e i q m = evec_weight s (p i) q m.
Proof.
  intros Hi. unfold evec_weight. cbn [seen_table M_dos.n_atoms]. f_equal. fold s.
  assert (K : forall t k, re (Csum (seq 0 3) (fun x => Cmul (evec t q m k x) (Cconj (evec t q m k x)))) = evec_term t q m k 0 0 + evec_term t q m k 1 1 + evec_term t q m k 2 2).
  { intros. rewrite cthree. unfold evec_term. cbn [re Cadd]. reflexivity. }
  rewrite !K, !term_turn by lia. unfold turned_entry. rewrite !three.
  assert (O : forall a b, (a < 3)%nat -> (b < 3)%nat -> entry G a 0 * entry G b 0 + entry G a 1 * entry G b 1 + entry G a 2 * entry G b 2 = if Nat.eqb a b then 1 else 0) by exact o1.
  assert (O00 := O 0%nat 0%nat ltac:(lia) ltac:(lia)). assert (O01 := O 0%nat 1%nat ltac:(lia) ltac:(lia)). assert (O02 := O 0%nat 2%nat ltac:(lia) ltac:(lia)).
  assert (O11 := O 1%nat 1%nat ltac:(lia) ltac:(lia)). assert (O12 := O 1%nat 2%nat ltac:(lia) ltac:(lia)). assert (O22 := O 2%nat 2%nat ltac:(lia) ltac:(lia)). clear O. cbn [Nat.eqb] in *.
  set (t := evec_term s q m (p i)).
  set (c00 := entry G 0 0) in *. set (c01 := entry G 0 1) in *. set (c02 := entry G 0 2) in *. set (c10 := entry G 1 0) in *. set (c11 := entry G 1 1) in *.
  set (c12 := entry G 1 2) in *. set (c20 := entry G 2 0) in *. set (c21 := entry G 2 1) in *. set (c22 := entry G 2 2) in *.
  transitivity ((c00 * c00 + c01 * c01 + c02 * c02) * t 0%nat 0%nat + (c10 * c10 + c11 * c11 + c12 * c12) * t 1%nat 1%nat + (c20 * c20 + c21 * c21 + c22 * c22) * t 2%nat 2%nat
    + (c00 * c10 + c01 * c11 + c02 * c12) * (t 0%nat 1%nat + t 1%nat 0%nat) + (c00 * c20 + c01 * c21 + c02 * c22) * (t 0%nat 2%nat + t 2%nat 0%nat) + (c10 * c20 + c11 * c21 + c12 * c22) * (t 1%nat 2%nat + t 2%nat 1%nat)); [ring|].
  rewrite O00, O01, O02, O11, O12, O22. ring.
Qed.

(** ** Partial densities of states *)
Lemma scale_turn cs cs' i : related_opt (same_sections F n) cs cs' -> (i < n)%nat -> pdos_scale e cs' i = pdos_scale s cs (p i).
Proof.
  intros R Hi. unfold pdos_scale. cbn [seen_table M_dos.n_atoms]. destruct cs as [[sg ma]|], cs' as [[sg' ma']|]; try contradiction; [|reflexivity].
  cbn [related_opt] in R. destruct (R i Hi) as [E1 E2]. cbn [fst snd] in E1, E2. rewrite E1, E2. do 3 f_equal. rewrite He.
  symmetry. etransitivity; [symmetry; apply (Sum_perm _ _ _ aperm)|]. rewrite Sum_map. apply Sum_ext. intros j Hj. apply in_seq in Hj. symmetry. destruct (R j) as [_ Rj]; [lia|exact Rj].
Qed.
Lemma pdos_turn k bins wmin meth cs cs' l : related_opt (same_sections F n) cs cs' ->
  calculate_pdos k bins s None wmin meth cs = Ok l -> exists l', calculate_pdos k bins e None wmin meth cs' = Ok l' /\ same_atoms F n l l'.
Proof.
  intros R H. unfold calculate_pdos in *. change (M_dos.n_atoms s) with (M_dos.n_atoms e) in H. rewrite He in *. change (et s) with (et e) in H.
  set (f := fun a => match calculate_dos_data k bins (et e) (Some (evec_weight s a)) None wmin meth with Ok d => Ok (map (fun x => x * pdos_scale s cs a) d) | Err er => Err er end) in H.
  set (g := fun a => match calculate_dos_data k bins (et e) (Some (evec_weight e a)) None wmin meth with Ok d => Ok (map (fun x => x * pdos_scale e cs' a) d) | Err er => Err er end).
  assert (K : forall i, (i < n)%nat -> g i = f (p i)).
  { intros i Hi. unfold f, g. rewrite (scale_turn cs cs' i R Hi).
    assert (W : evec_weight e i = evec_weight s (p i)) by (extensionality q; extensionality m; apply weight_turn; exact Hi). rewrite W. reflexivity. }
  destruct (L_dos2.mapE_inv f (seq 0 n) l H) as [Ln At]. rewrite seq_length in Ln.
  assert (A : forall i, (i < n)%nat -> f i = Ok (nth i l [])).
  { intros i Hi. specialize (At i 0%nat [] ltac:(rewrite ?seq_length; lia)). rewrite nth_seq_id in At by exact Hi. exact At. }
  exists (map (fun i => nth (p i) l []) (seq 0 n)). split.
  - apply L_qpts.mapE_ok. intros i Hi. apply in_seq in Hi. rewrite K by lia. apply A. destruct (HP i) as [B _]; [lia|]. exact B.
  - split; [exact Ln|]. split; [rewrite map_length, seq_length; reflexivity|]. intros i Hi.
    rewrite (map_nth_indep _ _ _ 0%nat) by (rewrite seq_length; exact Hi). rewrite nth_seq_id by exact Hi. reflexivity.
Qed.

(** ** Debye-Waller factors *)
Lemma Sum_turn {A} (L : list A) (w : A -> R) (t : A -> nat -> nat -> R) l l' :
  Sum L (fun x => w x * turned_entry G (t x) l l') = turned_entry G (fun a b => Sum L (fun x => w x * t x a b)) l l'.
Proof.
  induction L as [|x L IH].
  - unfold turned_entry. rewrite !three. rewrite !Sum_nil. ring.
  - rewrite Sum_cons, IH. unfold turned_entry. rewrite !three. rewrite !Sum_cons. ring.
Qed.
Lemma Sum_turn1 {A} (L : list A) (t : A -> nat -> nat -> R) l l' :
  Sum L (fun x => turned_entry G (t x) l l') = turned_entry G (fun a b => Sum L (fun x => t x a b)) l l'.
Proof.
  induction L as [|x L IH].
  - unfold turned_entry. rewrite !three. rewrite !Sum_nil. ring.
  - rewrite Sum_cons, IH. unfold turned_entry. rewrite !three. rewrite !Sum_cons. ring.
Qed.
Lemma turned_ext t t' l l' : (forall a b, (a < 3)%nat -> (b < 3)%nat -> t a b = t' a b) -> turned_entry G t l l' = turned_entry G t' l l'.
Proof. intros H. unfold turned_entry. rewrite !three. rewrite !H by lia. reflexivity. Qed.
Lemma chunk_turn x x' kB temp fmin qi qf i l l' : (forall k, (k < n)%nat -> mass x' k = mass x (p k)) -> (i < n)%nat -> (l < 3)%nat -> (l' < 3)%nat ->
  dw_chunk e x' kB temp fmin qi qf i l l' = turned_entry G (dw_chunk s x kB temp fmin qi qf (p i)) l l'.
Proof.
  intros M Hi Hl Hl'. unfold dw_chunk. change (et s) with (et e).
  transitivity (Sum (seq qi (qf - qi)) (fun q => turned_entry G (fun a b => Sum (seq 0 (nm (et e))) (fun m =>
    (wt (et e) q * (1 / (4 * mass x (p i))) * tanh_term kB temp (freq (et e) q m) * freq_mask fmin (freq (et e) q m)) * evec_term s q m (p i) a b)) l l')).
  - apply Sum_ext. intros q _. rewrite <- Sum_turn. apply Sum_ext. intros m _. rewrite (M i Hi), (term_turn q m i l l' Hi Hl Hl'). reflexivity.
  - rewrite Sum_turn1. reflexivity.
Qed.
Lemma raw_turn chunk x x' kB temp fmin i l l' : (forall k, (k < n)%nat -> mass x' k = mass x (p k)) -> (i < n)%nat -> (l < 3)%nat -> (l' < 3)%nat ->
  dw_raw chunk e x' kB temp fmin i l l' = turned_entry G (dw_raw chunk s x kB temp fmin (p i)) l l'.
Proof.
  intros M Hi Hl Hl'. unfold dw_raw. change (et s) with (et e). cbv zeta.
  assert (K : forall is acc f, acc = turned_entry G f l l' ->
    fold_left (fun a j => a + dw_chunk e x' kB temp fmin (j * chunk) (Nat.min ((j + 1) * chunk) (nq (et e))) i l l') is acc
    = turned_entry G (fun a b => fold_left (fun c j => c + dw_chunk s x kB temp fmin (j * chunk) (Nat.min ((j + 1) * chunk) (nq (et e))) (p i) a b) is (f a b)) l l').
  { induction is as [|j is IH]; intros acc f E; cbn [fold_left]; [exact E|].
    apply (IH _ (fun a b => f a b + dw_chunk s x kB temp fmin (j * chunk) (Nat.min ((j + 1) * chunk) (nq (et e))) (p i) a b)).
    rewrite E, (chunk_turn x x' kB temp fmin _ _ i l l' M Hi Hl Hl'). unfold turned_entry. rewrite !three. rewrite ?three. ring. }
  apply (K _ 0 (fun _ _ => 0)). unfold turned_entry. rewrite !three. ring.
Qed.
Lemma turned_div t c l l' : turned_entry G t l l' / c = turned_entry G (fun a b => t a b / c) l l'.
Proof. unfold turned_entry, Rdiv. rewrite !three. ring. Qed.

Lemma last_unique im : (forall i, (i < n)%nat -> (im i < n)%nat) -> (forall i j, (i < n)%nat -> (j < n)%nat -> im i = im j -> i = j) ->
  forall k, (k < n)%nat -> last_source n im (im k) = Some k.
Proof.
  intros B I k Hk. unfold last_source.
  assert (K : forall is acc, (forall i, In i is -> (i < n)%nat) -> (acc = Some k \/ In k is) -> fold_left (fun a i => if Nat.eqb (im i) (im k) then Some i else a) is acc = Some k).
  { induction is as [|i is IH]; intros acc Hb H; cbn [fold_left]; [destruct H as [H|[]]; exact H|].
    apply IH; [intros j Hj; apply Hb; right; exact Hj|]. destruct (Nat.eqb_spec (im i) (im k)) as [E|E].
    - left. f_equal. apply I; [apply Hb; left; reflexivity|exact Hk|exact E].
    - destruct H as [H|[H|H]]; [left; exact H|congruence|right; exact H]. }
  apply K; [intros i Hi; apply in_seq in Hi; lia|]. right. apply in_seq. lia.
Qed.
Lemma onto im : (forall i, (i < n)%nat -> (im i < n)%nat) -> (forall i j, (i < n)%nat -> (j < n)%nat -> im i = im j -> i = j) ->
  forall j, (j < n)%nat -> exists k, (k < n)%nat /\ im k = j.
Proof.
  intros B I j Hj. assert (P : Permutation (map im (seq 0 n)) (seq 0 n)).
  { apply NoDup_Permutation_bis.
    - apply NoDup_map_inj; [|apply seq_NoDup]. intros x y Hx Hy E. apply in_seq in Hx. apply in_seq in Hy. apply I; [lia|lia|exact E].
    - rewrite map_length. reflexivity.
    - intros x Hx. apply in_map_iff in Hx. destruct Hx as (y & <- & Hy). apply in_seq in Hy. apply in_seq. pose proof (B y ltac:(lia)). lia. }
  assert (In j (map im (seq 0 n))) as Q by (apply (Permutation_in _ (Permutation_sym P)); apply in_seq; lia).
  apply in_map_iff in Q. destruct Q as (k & E & Hk). apply in_seq in Hk. exists k. split; [lia|exact E].
Qed.
Lemma conj_turn R0 R1 w w1 a b : (forall x y, (x < 3)%nat -> (y < 3)%nat -> R1 x y = turned_entry G R0 x y) ->
  (forall x y, (x < 3)%nat -> (y < 3)%nat -> w1 x y = turned_entry G w x y) -> (a < 3)%nat -> (b < 3)%nat ->
  conjugate R1 w1 a b = turned_entry G (conjugate R0 w) a b.
Proof.
  intros HR HW Ha Hb. unfold conjugate.
  assert (T1 : forall x, (x < 3)%nat -> forall t : nat -> R, Sum (seq 0 3) (fun j => R1 x j * sumn 3 (fun c => entry G c j * t c)) = sumn 3 (fun c => sumn 3 (fun d => entry G c x * R0 c d * t d))).
  { intros x Hx t. rewrite (Sum_ext _ _ (fun j => turned_entry G R0 x j * sumn 3 (fun c => entry G c j * t c))) by (intros j Hj; apply in_seq in Hj; rewrite HR by lia; reflexivity).
    change (Sum (seq 0 3)) with (@sumn 3). unfold turned_entry. rewrite !three.
    assert (O00 := o1 0 0 ltac:(lia) ltac:(lia)). assert (O01 := o1 0 1 ltac:(lia) ltac:(lia)). assert (O02 := o1 0 2 ltac:(lia) ltac:(lia)).
    assert (O11 := o1 1 1 ltac:(lia) ltac:(lia)). assert (O12 := o1 1 2 ltac:(lia) ltac:(lia)). assert (O22 := o1 2 2 ltac:(lia) ltac:(lia)). cbn [Nat.eqb] in *.
    set (g0 := entry G 0 x). set (g1 := entry G 1 x). set (g2 := entry G 2 x).
    set (c00 := entry G 0 0) in *. set (c01 := entry G 0 1) in *. set (c02 := entry G 0 2) in *. set (c10 := entry G 1 0) in *. set (c11 := entry G 1 1) in *.
    set (c12 := entry G 1 2) in *. set (c20 := entry G 2 0) in *. set (c21 := entry G 2 1) in *. set (c22 := entry G 2 2) in *.
    set (h0 := g0 * R0 0%nat 0%nat + g1 * R0 1%nat 0%nat + g2 * R0 2%nat 0%nat). set (h1 := g0 * R0 0%nat 1%nat + g1 * R0 1%nat 1%nat + g2 * R0 2%nat 1%nat). set (h2 := g0 * R0 0%nat 2%nat + g1 * R0 1%nat 2%nat + g2 * R0 2%nat 2%nat).
    transitivity (h0 * (t 0%nat * (c00 * c00 + c01 * c01 + c02 * c02) + t 1%nat * (c00 * c10 + c01 * c11 + c02 * c12) + t 2%nat * (c00 * c20 + c01 * c21 + c02 * c22))
      + h1 * (t 0%nat * (c00 * c10 + c01 * c11 + c02 * c12) + t 1%nat * (c10 * c10 + c11 * c11 + c12 * c12) + t 2%nat * (c10 * c20 + c11 * c21 + c12 * c22))
      + h2 * (t 0%nat * (c00 * c20 + c01 * c21 + c02 * c22) + t 1%nat * (c10 * c20 + c11 * c21 + c12 * c22) + t 2%nat * (c20 * c20 + c21 * c21 + c22 * c22))).
    - unfold h0, h1, h2. ring.
    - rewrite O00, O01, O02, O11, O12, O22. unfold h0, h1, h2. ring. }
  transitivity (Sum (seq 0 3) (fun j => R1 a j * sumn 3 (fun c => entry G c j * Sum (seq 0 3) (fun l => R1 b l * sumn 3 (fun d => entry G d l * w c d))))).
  - apply Sum_ext. intros j Hj. apply in_seq in Hj. rewrite (Sum_ext _ _ (fun l => R1 a j * turned_entry G w j l * R1 b l)) by (intros l Hl; apply in_seq in Hl; rewrite HW by lia; reflexivity).
    change (Sum (seq 0 3)) with (@sumn 3). unfold turned_entry. rewrite !three. rewrite ?three. ring.
  - rewrite (T1 a Ha). unfold turned_entry. rewrite !three. rewrite !(T1 b Hb). change (Sum (seq 0 3)) with (@sumn 3). rewrite !three. ring.
Qed.

Lemma dw_turn chunk x x' kB temp fmin ops ops' : (forall k, (k < n)%nat -> mass x' k = mass x (p k)) -> related_opt (Forall2 (same_op F n)) ops ops' ->
  related (turned_dw F) (calculate_debye_waller chunk s x kB temp fmin ops) (calculate_debye_waller chunk e x' kB temp fmin ops').
Proof.
  intros M RO. unfold calculate_debye_waller. change (et s) with (et e). change (M_dos.n_atoms s) with (M_dos.n_atoms e).
  destruct (has_zero (et e) || Reqb _ 0)%bool; [destruct ops, ops'; try contradiction; reflexivity|].
  set (tot := Sum (seq 0 (nq (et e))) (wt (et e))).
  assert (W : forall i l l', (i < n)%nat -> (l < 3)%nat -> (l' < 3)%nat -> dw_raw chunk e x' kB temp fmin i l l' / tot = turned_entry G (fun a b => dw_raw chunk s x kB temp fmin (p i) a b / tot) l l').
  { intros i l l' Hi Hl Hl'. rewrite (raw_turn chunk x x' kB temp fmin i l l' M Hi Hl Hl'), turned_div. reflexivity. }
  destruct ops as [os|], ops' as [os'|]; try contradiction.
  - cbn [related_opt] in RO. destruct os as [|o os], os' as [|o' os1]; [reflexivity|inversion RO|inversion RO|].
    cbn [related]. split; [reflexivity|]. split; [reflexivity|]. cbn [dw_n dw_w]. rewrite He. intros i a b Hi Ha Hb. unfold symmetrise.
    assert (L : length (o :: os) = length (o' :: os1)) by (exact (forall2_len _ _ _ RO)). rewrite L, <- turned_div. unfold Rdiv. apply (f_equal (fun z => z * _)). clear L.
    set (v := fun a l l' => dw_raw chunk s x kB temp fmin a l l' / tot). set (v' := fun a l l' => dw_raw chunk e x' kB temp fmin a l l' / tot).
    assert (K : forall l1 l2 acc acc', Forall2 (same_op F n) l1 l2 -> (forall i a b, (i < n)%nat -> (a < 3)%nat -> (b < 3)%nat -> acc' i a b = turned_entry G (acc (p i)) a b) ->
      fold_left (sym_step n v') l2 acc' i a b = turned_entry G (fun c d => fold_left (sym_step n v) l1 acc (p i) c d) a b).
    { induction l1 as [|q l1 IH]; intros l2 acc acc' F2 E; (destruct l2 as [|q' l3]; [try (exfalso; inversion F2; fail)|try (exfalso; inversion F2; fail)]).
      { cbn [fold_left]. apply E; assumption. }
      apply forall2_cons in F2. destruct F2 as [S1 S2]. cbn [fold_left].
      apply IH; [exact S2|]. clear IH. intros k c d Hk Hc Hd. destruct S1 as (Im & Inj & Rt).
      assert (B : forall j, (j < n)%nat -> (image q j < n)%nat) by (intros j Hj; apply (Im j Hj)).
      assert (B' : forall j, (j < n)%nat -> (image q' j < n)%nat) by (intros j Hj; apply (Im j Hj)).
      assert (Inj' : forall y z, (y < n)%nat -> (z < n)%nat -> image q' y = image q' z -> y = z).
      { intros y z Hy Hz Eq. destruct (Im y Hy) as (_ & Y & _). destruct (Im z Hz) as (_ & Z & _). destruct (HP y Hy) as (Py & _ & Py' & _). destruct (HP z Hz) as (Pz & _ & Pz' & _).
        assert (p y = p z) by (apply Inj; [assumption|assumption|congruence]). congruence. }
      destruct (onto _ B' Inj' k Hk) as (j & Hj & Ej). unfold sym_step.
      assert (S1 : last_source n (image q') k = Some j) by (rewrite <- Ej; apply last_unique; assumption).
      assert (S2' : last_source n (image q) (p k) = Some (p j)).
      { destruct (Im j Hj) as (_ & A & _). rewrite <- Ej, <- A. destruct (HP j Hj) as [C _]. apply last_unique; assumption. }
      rewrite S1, S2'. rewrite (E k c d Hk Hc Hd). rewrite (conj_turn (rotc q) (rotc q') (v (p j)) (v' j) c d Rt (fun y z Y Z => W j y z Hj Y Z) Hc Hd).
      unfold turned_entry. rewrite !three. ring. }
    exact (K (o :: os) (o' :: os1) (fun _ _ _ => 0) (fun _ _ _ => 0) RO ltac:(intros; unfold turned_entry; rewrite !three; ring)).
  - cbn [related]. split; [reflexivity|]. split; [reflexivity|]. cbn [dw_n dw_w]. rewrite He. intros i a b Hi Ha Hb. apply W; assumption.
Qed.
End Obs.
