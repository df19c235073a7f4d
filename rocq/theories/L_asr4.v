(** The reciprocal-space correction and examples (C15). *)
From Verif Require Import Base Cpx Vec3 M_grid M_cell M_qpts M_dynmat S_dynmat M_struct S_struct L_scidx L_conv L_util M_asr S_asr L_asr L_asr2 L_asr3.
Open Scope R_scope.

Lemma Csum_opp {A} (l : list A) f : Csum l (fun x => Copp (f x)) = Copp (Csum l f).
Proof. apply C_eq; unfold Csum; cbn [re im Copp]; apply Sum_opp. Qed.
Lemma fold_correction (g : nat * nat -> C) l x : fold_left (fun x p => Cadd x (Copp (g p))) l x = Cadd x (Copp (Csum l g)).
Proof. revert x. induction l as [|p l IH]; intros x; cbn [fold_left]; [rewrite Csum_nil; ring|]. rewrite IH, Csum_cons. ring. Qed.
Lemma Csum_single {A} (l : list A) k f : NoDup l -> In k l -> (forall j, In j l -> j <> k -> f j = Czero) -> Csum l f = f k.
Proof.
  intros D K Z. induction l as [|a l IH]; [contradiction|]. rewrite Csum_cons. inversion D as [|? ? D1 D2]; subst. destruct K as [->|K].
  - rewrite Csum_zero; [ring|]. intros j J. apply Z; [right; exact J|]. intros ->. contradiction.
  - rewrite IH; [|exact D2|exact K|intros j J; apply Z; right; exact J]. rewrite (Z a); [ring|left; reflexivity|]. intros ->. contradiction.
Qed.
Lemma combine_in (ac : list nat) s i k : In (i, k) (combine (seq s (length ac)) ac) <-> (s <= i < s + length ac)%nat /\ nth (i - s) ac 0%nat = k.
Proof.
  revert s. induction ac as [|a ac IH]; intros s; cbn [combine length seq In]; [split; [intros []|lia]|]. rewrite IH. split.
  - intros [[= -> ->]|(H1 & H2)]; [rewrite Nat.sub_diag; cbn [nth]; split; [lia|reflexivity]|]. split; [lia|]. replace (i - s)%nat with (S (i - S s)) by lia. exact H2.
  - intros (H1 & H2). destruct (Nat.eq_dec i s) as [->|Q]; [left; rewrite Nat.sub_diag in H2; cbn [nth] in H2; rewrite H2; reflexivity|]. right. split; [lia|]. replace (i - s)%nat with (S (i - S s)) in H2 by lia. exact H2.
Qed.
Lemma combine_nodup (ac : list nat) s : NoDup (combine (seq s (length ac)) ac).
Proof. revert s. induction ac as [|a ac IH]; intros s; cbn [combine length seq]; constructor; [|apply IH]. rewrite combine_in. lia. Qed.

Section Recip.
Variables (eigh : complex_eigh) (argsort : list R -> list nat) (n3 : nat) (G : nat -> nat -> C) (ev : nat -> R) (v : nat -> nat -> C) (corr : nat -> nat -> C).
Hypothesis Hsort : sorts argsort.
Hypothesis Hcall : eigh n3 (herm_upper G) = Some (ev, v).
Hypothesis Hsys : ceigen_system n3 G ev v.
Hypothesis Hc : enforce_reciprocal_asr eigh argsort n3 G = Some corr.
Lemma recip_inv : exists ac, find_acoustic_modes argsort n3 v = Some ac /\
  forall a b, corr a b = Copp (Csum (combine (seq 0 (length ac)) ac) (fun p => Cscal (5 / 10 ^ 15 * INR (fst p) + ev (snd p)) (Cmul (v a (snd p)) (v b (snd p))))).
Proof.
  unfold enforce_reciprocal_asr in Hc. rewrite Hcall in Hc. destruct (find_acoustic_modes argsort n3 v) as [ac|]; [|discriminate]. exists ac. split; [reflexivity|]. cbv zeta in Hc. intros a b.
  assert (E : corr = fun a b => fold_left (fun x p => Cadd x (Copp (Cscal (5 / 10 ^ 15 * INR (fst p) + ev (snd p)) (Cmul (v a (snd p)) (v b (snd p)))))) (combine (seq 0 (length ac)) ac) Czero) by congruence.
  rewrite E. rewrite (fold_correction (fun p => Cscal (5 / 10 ^ 15 * INR (fst p) + ev (snd p)) (Cmul (v a (snd p)) (v b (snd p))))). ring.
Qed.
Lemma recip_apply ac f a :
  (forall a b, corr a b = Copp (Csum (combine (seq 0 (length ac)) ac) (fun p => Cscal (5 / 10 ^ 15 * INR (fst p) + ev (snd p)) (Cmul (v a (snd p)) (v b (snd p)))))) ->
  Csum (seq 0 n3) (fun b => Cmul (Cadd (G a b) (corr a b)) (f b)) =
  Cadd (Csum (seq 0 n3) (fun b => Cmul (G a b) (f b))) (Copp (Csum (combine (seq 0 (length ac)) ac) (fun p => Cmul (Cscal (5 / 10 ^ 15 * INR (fst p) + ev (snd p)) (v a (snd p))) (Csum (seq 0 n3) (fun b => Cmul (v b (snd p)) (f b)))))).
Proof.
  intros E. rewrite (Csum_ext (seq 0 n3) _ (fun b => Cadd (Cmul (G a b) (f b)) (Copp (Csum (combine (seq 0 (length ac)) ac) (fun p => Cmul (Cscal (5 / 10 ^ 15 * INR (fst p) + ev (snd p)) (v a (snd p))) (Cmul (v b (snd p)) (f b))))))).
  - rewrite Csum_plus, Csum_opp, Csum_exchange. f_equal. f_equal. apply Csum_ext. intros p _. apply Csum_mul.
  - intros b _. rewrite E. rewrite (Csum_ext _ (fun p => Cmul (Cscal (5 / 10 ^ 15 * INR (fst p) + ev (snd p)) (v a (snd p))) (Cmul (v b (snd p)) (f b))) (fun p => Cmul (Cscal (5 / 10 ^ 15 * INR (fst p) + ev (snd p)) (Cmul (v a (snd p)) (v b (snd p)))) (f b))); [rewrite Csum_mul_r; ring|].
    intros p _. apply C_eq; cbn [re im Cmul Cscal]; ring.
Qed.
Lemma recip_facts : exists ac, length ac = 3%nat /\ NoDup ac /\ (forall k, In k ac -> (k < n3)%nat /\ 1 / 2 * INR (n3 / 3) < com_disp_sq (n3 / 3) (fun i => v i k)) /\
  (forall a k, In a ac -> (k < n3)%nat -> ~ In k ac -> com_disp_sq (n3 / 3) (fun i => v i k) <= com_disp_sq (n3 / 3) (fun i => v i a)) /\
  ((forall k i, In k ac -> (i < n3)%nat -> im (v i k) = 0) ->
    (forall m, (m < 3)%nat -> ceigenvector n3 (fun a b => Cadd (G a b) (corr a b)) (- (5 / 10 ^ 15 * INR m)) (fun i => v i (nth m ac 0%nat))) /\
    (forall f, (forall k, In k ac -> Csum (seq 0 n3) (fun b => Cmul (Cconj (v b k)) (f b)) = Czero) ->
       forall a, (a < n3)%nat -> Csum (seq 0 n3) (fun b => Cmul (Cadd (G a b) (corr a b)) (f b)) = Csum (seq 0 n3) (fun b => Cmul (G a b) (f b)))).
Proof.
  destruct recip_inv as (ac & F & E). exists ac. destruct (found_large argsort n3 v ac Hsort F) as (L & D & B & M). split; [exact L|]. split; [exact D|]. split; [exact B|]. split; [exact M|]. intros Hre.
  assert (Q : forall k f, In k ac -> Csum (seq 0 n3) (fun b => Cmul (v b k) (f b)) = Csum (seq 0 n3) (fun b => Cmul (Cconj (v b k)) (f b))).
  { intros k f K. apply Csum_ext. intros b Hb. apply in_seq in Hb. f_equal. apply C_eq; cbn [re im Cconj]; [reflexivity|]. rewrite (Hre k b K) by lia. ring. }
  assert (INC : forall p, In p (combine (seq 0 (length ac)) ac) -> In (snd p) ac) by (intros [i k] P; cbn [snd]; exact (in_combine_r _ _ _ _ P)).
  split.
  - intros m Hm a Ha. set (k := nth m ac 0%nat). assert (K : In k ac) by (apply nth_In; lia). rewrite (recip_apply ac (fun i => v i k) a E). destruct Hsys as (S1 & S2). rewrite (S1 k (proj1 (B k K)) a Ha).
    rewrite (Csum_single _ (m, k)).
    + cbn [fst snd]. rewrite (Q k (fun b => v b k) K). rewrite (S2 k k) by (apply B; exact K). rewrite Nat.eqb_refl. apply C_eq; cbn [re im Cadd Copp Cscal Cmul Cone RtoC]; ring.
    + apply combine_nodup.
    + apply combine_in. rewrite Nat.sub_0_r. split; [lia|reflexivity].
    + intros [i j] P NE. cbn [fst snd]. pose proof (INC _ P) as J. cbn [snd] in J. rewrite (Q j (fun b => v b k) J). rewrite (S2 j k) by (apply B; assumption).
      assert (X : j <> k). { intros ->. apply NE. apply combine_in in P. rewrite Nat.sub_0_r in P. destruct P as (P1 & P2). f_equal. apply (proj1 (NoDup_nth ac 0%nat) D); [lia|lia|exact P2]. }
      rewrite (proj2 (Nat.eqb_neq j k) X). apply C_eq; cbn [re im Cmul Cscal Czero RtoC]; ring.
  - intros f Hf a Ha. rewrite (recip_apply ac f a E). rewrite (Csum_zero (combine (seq 0 (length ac)) ac)); [ring|]. intros p P. pose proof (INC _ P) as J. rewrite (Q _ f J), (Hf _ J). ring.
Qed.
End Recip.

(** Two orthonormal columns mixing two sites, the same for each direction *)
Definition mix (s m : nat) : R := match s, m with O, O => 4/5 | O, S O => 3/5 | S O, O => 3/5 | S O, S O => -4/5 | _, _ => 0 end.
Definition mixv (i m : nat) : R := if Nat.eqb (i mod 3) (m mod 3) then mix (i / 3) (m / 3) else 0.
Ltac upto6 H := match type of H with (?i < 6)%nat => destruct i as [|[|[|[|[|[|i]]]]]]; [..|lia] end.
Ltac six := unfold sumn; cbn [seq]; rewrite ?Sum_cons, ?Sum_nil.
Lemma mix_orthonormal : orthonormal 6 mixv.
Proof. intros m k M K. upto6 M; upto6 K; six; cbn; field. Qed.
Lemma mix_com m : (m < 6)%nat -> total_displacement_sq 2 (fun i => mixv i m) = if Nat.ltb m 3 then 49 / 25 else 1 / 25.
Proof. intros M. unfold total_displacement_sq. upto6 M; six; cbn; field. Qed.
Lemma mix_found argsort : sorts argsort -> exists ac, find_acoustic_modes argsort 6 (fun i m => RtoC (mixv i m)) = Some ac /\ Permutation ac [0;1;2]%nat.
Proof.
  intros S. assert (W : forall m, (m < 6)%nat -> com_disp_sq 2 (fun i => RtoC (mixv i m)) = if Nat.ltb m 3 then 49 / 25 else 1 / 25).
  { intros m M. rewrite com_real. exact (mix_com m M). }
  assert (E : exists ac, find_acoustic_modes argsort 6 (fun i m => RtoC (mixv i m)) = Some ac).
  { unfold find_acoustic_modes. cbv zeta. change (6 / 3)%nat with 2%nat. destruct (Nat.ltb _ 3) eqn:Q; [exfalso|eexists; reflexivity]. apply Nat.ltb_lt in Q.
    cbn [seq map] in Q. rewrite !W in Q by lia. cbn [Nat.ltb Nat.leb INR] in Q. cbn [filter] in Q.
    assert (T : Rltb (1 / 2 * (1 * (1 + 1))) (49 / 25) = true) by (apply Rltb_iff; lra). rewrite !T in Q. cbn [length] in Q. lia. }
  destruct E as (ac & E). exists ac. split; [exact E|]. destruct (found_large _ _ _ _ S E) as (L & D & B & _). change (6 / 3)%nat with 2%nat in B.
  apply NoDup_Permutation_bis; [exact D|rewrite L; reflexivity|]. intros k K. destruct (B k K) as (K1 & K2). rewrite W in K2 by exact K1. cbn [INR] in K2. destruct (Nat.ltb k 3) eqn:Q; [apply Nat.ltb_lt in Q; cbn [In]; lia|lra].
Qed.
Lemma mix_sum ac f : Permutation ac [0;1;2]%nat -> Sum ac f = f 0%nat + f 1%nat + f 2%nat.
Proof. intros P. rewrite (Sum_perm _ _ _ P). rewrite !Sum_cons, Sum_nil. ring. Qed.

Definition cube : V3 * V3 * V3 := ((1,0,0),(0,1,0),(0,0,1)).
(** Two atoms in one cell; a uniform displacement costs energy. *)
Definition stiff (a b : nat) : R := if Nat.eqb (a mod 3) (b mod 3) then match (a / 3)%nat, (b / 3)%nat with O, O => 10 | S O, S O => 17 | _, _ => -12 end else 0.
Definition one_cell : fcdata := mkFC cube [vzero; (1/2,0,0)] ((1,0,0),(0,1,0),(0,0,1))%Z [(0,0,0)%Z] (fun _ => stiff).
(** One atom per cell, two cells, each atom bound to its own site *)
Definition einstein (k : R) : fcdata := mkFC cube [vzero] pair_sc (pair_org 0) (fun c a b => if Nat.eqb c 0 then if Nat.eqb a b then k else 0 else 0).

Lemma one_cell_home : home_first one_cell. Proof. reflexivity. Qed.
Lemma one_cell_distinct : distinct_cells one_cell.
Proof. intros k k' K K' _. unfold n_cells, one_cell in K, K'. cbn [f_origins length] in K, K'. lia. Qed.
Lemma stiff_sym a b : (a < 6)%nat -> (b < 6)%nat -> stiff a b = stiff b a.
Proof. intros A B. upto6 A; upto6 B; cbn; lra. Qed.
Lemma same_refl sc z : same_mod_supercell sc z z.
Proof. apply same_lat. replace (zsub3 z z) with (0,0,0)%Z; [apply lat_zero|]. unfold zsub3. z3. Qed.
Lemma one_cell_sym : fc_symmetric one_cell.
Proof.
  exists (fun c => c). split.
  - intros c C1. unfold n_cells, one_cell in C1. cbn [f_origins length] in C1. split; [exact C1|]. split; [reflexivity|]. assert (c = 0)%nat as -> by lia. apply same_refl.
  - intros c a b _ A B. apply stiff_sym; assumption.
Qed.
Lemma einstein_distinct k : distinct_cells (einstein k).
Proof.
  intros c c' C1 C2 H. unfold n_cells, einstein in *. cbn [f_origins pair_org length f_sc] in *. destruct c as [|[|]]; [| |lia]; (destruct c' as [|[|]]; [| |lia]); try reflexivity; cbn [nth] in H; exfalso; revert H; apply not_same_half; reflexivity.
Qed.
Lemma einstein_sym k : fc_symmetric (einstein k).
Proof.
  exists (fun c => c). split.
  - intros c C1. unfold n_cells, einstein in C1. cbn [f_origins pair_org length] in C1. split; [exact C1|]. split; [reflexivity|]. unfold einstein. cbn [f_origins pair_org f_sc].
    destruct c as [|[|]]; [| |lia]; cbn [nth zopp3]; [apply same_half; reflexivity|apply (same_half (-1) 1); reflexivity].
  - intros c a b _ A B. cbn [f_fc einstein]. rewrite (Nat.eqb_sym a b). reflexivity.
Qed.
