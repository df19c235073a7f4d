(** A sorter, a tabulated eigensolver, and a case that meets the hypotheses (C15). *)
From Verif Require Import Base Cpx Vec3 M_grid M_cell M_qpts M_dynmat S_dynmat M_struct S_struct L_scidx L_conv L_util M_asr S_asr L_asr L_asr2 L_asr3 L_asr4 L_asr5.
From Coq Require Import Sorted.
Open Scope R_scope.

Fixpoint ins (w : list R) (i : nat) (l : list nat) : list nat :=
  match l with [] => [i] | j :: r => if Rleb (nth i w 0) (nth j w 0) then i :: l else j :: ins w i r end.
Definition isort (w : list R) : list nat := fold_right (ins w) [] (seq 0 (length w)).
Lemma ins_perm w i l : Permutation (ins w i l) (i :: l).
Proof. induction l as [|j l IH]; cbn [ins]; [reflexivity|]. destruct (Rleb _ _); [reflexivity|]. rewrite IH. apply perm_swap. Qed.
Lemma ins_sorted w i l : StronglySorted (fun i j => nth i w 0 <= nth j w 0) l -> StronglySorted (fun i j => nth i w 0 <= nth j w 0) (ins w i l).
Proof.
  intros H. induction H as [|j l S IH F]; cbn [ins]; [constructor; constructor|]. destruct (Rleb (nth i w 0) (nth j w 0)) eqn:E.
  - apply Rleb_iff in E. constructor; [constructor; assumption|]. constructor; [exact E|]. eapply Forall_impl; [|exact F]. intros x X. cbv beta in *. lra.
  - apply Rleb_nf in E. constructor; [exact IH|]. apply Forall_forall. intros x X. apply (Permutation_in x (ins_perm w i l)) in X. destruct X as [<-|X]; [lra|]. rewrite Forall_forall in F. exact (F x X).
Qed.
Lemma strong_nth {A} (P : A -> A -> Prop) l d : StronglySorted P l -> forall i j, (i < j < length l)%nat -> P (nth i l d) (nth j l d).
Proof.
  intros H. induction H as [|a l S IH F]; intros i j L; cbn [length] in L; [lia|]. destruct j as [|j]; [lia|]. destruct i as [|i]; cbn [nth]; [rewrite Forall_forall in F; apply F; apply nth_In; lia|]. apply IH. lia.
Qed.
Lemma isort_sorts : sorts isort.
Proof.
  intros w. assert (G : forall l, Permutation (fold_right (ins w) [] l) l /\ StronglySorted (fun i j => nth i w 0 <= nth j w 0) (fold_right (ins w) [] l)).
  { induction l as [|i l (I1 & I2)]; cbn [fold_right]; [split; constructor|]. split; [rewrite ins_perm, I1; reflexivity|apply ins_sorted; exact I2]. }
  destruct (G (seq 0 (length w))) as (G1 & G2). split; [exact G1|]. intros i j L. apply (strong_nth _ _ 0%nat G2). rewrite (Permutation_length G1), seq_length. exact L.
Qed.
Definition tabulated (A0 : nat -> nat -> R) (ev : nat -> R) (v : nat -> nat -> R) : real_eigh :=
  fun n A => if Nat.eqb n 6 && forallb (fun i => forallb (fun j => Reqb (A i j) (A0 i j)) (seq 0 6)) (seq 0 6) then Some (ev, v) else None.
Lemma tabulated_solves A0 ev v : eigen_system 6 A0 ev v -> solves (tabulated A0 ev v).
Proof.
  intros (S1 & S2) n A ev' v' _ E. unfold tabulated in E. destruct (Nat.eqb n 6 && _) eqn:Q; [|discriminate]. injection E as <- <-. apply andb_true_iff in Q. destruct Q as (N & Q). apply Nat.eqb_eq in N. rewrite N. split; [|exact S2].
  intros m M. apply (eigenvector_ext _ A0); [|exact (S1 m M)]. intros i j I J. rewrite forallb_forall in Q. specialize (Q i ltac:(apply in_seq; lia)). rewrite forallb_forall in Q. specialize (Q j ltac:(apply in_seq; lia)). destruct (Reqb_spec (A i j) (A0 i j)) as [->|]; [reflexivity|discriminate].
Qed.
Lemma tabulated_runs A0 ev v A : (forall i j, (i < 6)%nat -> (j < 6)%nat -> A i j = A0 i j) -> tabulated A0 ev v 6%nat A = Some (ev, v).
Proof.
  intros H. unfold tabulated. cbn [Nat.eqb andb]. replace (forallb _ (seq 0 6)) with true; [reflexivity|]. symmetry. apply forallb_forall. intros i I. apply forallb_forall. intros j J. apply in_seq in I, J. rewrite H by lia. destruct (Reqb_spec (A0 i j) (A0 i j)); [reflexivity|contradiction].
Qed.

(** Two atoms joined by a spring of stiffness k *)
Definition spring (k : R) (a b : nat) : R := if Nat.eqb (a mod 3) (b mod 3) then if Nat.eqb (a / 3) (b / 3) then k else - k else 0.
Definition sprung (k : R) : fcdata := mkFC cube [vzero; (1/2,0,0)] ((1,0,0),(0,1,0),(0,0,1))%Z [(0,0,0)%Z] (fun _ => spring k).
Lemma sprung_rule k : sum_rule (sprung k).
Proof. intros a x A X. change (3 * n_atoms (sprung k))%nat with 6%nat in A. change (n_cells (sprung k)) with 1%nat. change (n_atoms (sprung k)) with 2%nat. cbn [f_fc sprung]. unfold spring. upto6 A; (destruct x as [|[|[|]]]; [| | |lia]); six; cbn; ring. Qed.
Lemma sprung_sym k : fc_symmetric (sprung k).
Proof.
  exists (fun c => c). split.
  - intros c C1. unfold n_cells, sprung in C1. cbn [f_origins length] in C1. split; [exact C1|]. split; [reflexivity|]. assert (c = 0)%nat as -> by lia. apply same_refl.
  - intros c a b _ A B. cbn [f_fc sprung]. unfold spring. rewrite (Nat.eqb_sym (a mod 3)), (Nat.eqb_sym (a / 3)). reflexivity.
Qed.
Lemma sprung_distinct k : distinct_cells (sprung k).
Proof. intros c c' K K' _. unfold n_cells, sprung in K, K'. cbn [f_origins length] in K, K'. lia. Qed.
Definition half_r : R := / sqrt 2.
Lemma half_r_sq : half_r * half_r = 1 / 2.
Proof. unfold half_r. rewrite <- Rinv_mult. rewrite sqrt_sqrt by lra. lra. Qed.
Definition even_v (i m : nat) : R := if Nat.eqb (i mod 3) (m mod 3) then if Nat.eqb (i / 3) 1 && Nat.eqb (m / 3) 1 then - half_r else half_r else 0.
Definition spring_ev (k : R) (m : nat) : R := if Nat.ltb m 3 then 0 else 2 * k.
Lemma spring_system k : eigen_system 6 (spring k) (spring_ev k) even_v.
Proof.
  pose proof half_r_sq as H. split.
  - intros m M i I. unfold spring, spring_ev, even_v. upto6 M; upto6 I; six; cbn; generalize half_r; intros r; ring.
  - intros m n M N. unfold even_v. upto6 M; upto6 N; six; cbn; revert H; generalize half_r; intros r H; lra.
Qed.
Lemma spring_found : exists ac, find_acoustic_modes isort 6 (fun i m => RtoC (even_v i m)) = Some ac.
Proof.
  unfold find_acoustic_modes. cbv zeta. change (6 / 3)%nat with 2%nat. destruct (Nat.ltb _ 3) eqn:Q; [exfalso|eexists; reflexivity]. apply Nat.ltb_lt in Q.
  assert (W : forall m, (m < 6)%nat -> com_disp_sq 2 (fun i => RtoC (even_v i m)) = if Nat.ltb m 3 then 2 else 0).
  { intros m M. rewrite com_real. pose proof half_r_sq as H. unfold even_v. upto6 M; six; cbn; revert H; generalize half_r; intros r H; lra. }
  cbn [seq map] in Q. rewrite !W in Q by lia. cbn [Nat.ltb Nat.leb INR] in Q. cbn [filter] in Q.
  assert (T : Rltb (1 / 2 * (1 * (1 + 1))) 2 = true) by (apply Rltb_iff; lra). rewrite !T in Q. cbn [length] in Q. lia.
Qed.
Lemma sprung_runs k : exists fc', enforce_realspace_asr (tabulated (spring k) (spring_ev k) even_v) isort 100 (sprung k) = Ok (true, fc').
Proof.
  assert (D : zdet3 (f_sc (sprung k)) = 1%Z) by reflexivity. assert (D1 : zdet3 (f_sc (sprung k)) <> 0%Z) by (rewrite D; lia). assert (D2 : (Z.abs (zdet3 (f_sc (sprung k))) < 2 ^ 48)%Z) by (rewrite D; reflexivity).
  assert (Hc : (0 < 100)%nat) by lia. destruct (rel_exists 100 (sprung k) Hc D1 D2) as (t & T).
  { intros nc j A B. change (n_cells (sprung k)) with 1%nat in *. assert (nc = 0)%nat as -> by lia. assert (j = 0)%nat as -> by lia. exists 0%nat. split; [lia|]. apply same_refl. }
  pose proof (sq_supercell (sprung k) 100 t Hc D1 D2 (sprung_distinct k) T) as SM. unfold supercell_matrix in SM. cbv zeta in SM. change (n_cells (sprung k)) with 1%nat in SM. change (n_atoms (sprung k)) with 2%nat in SM.
  assert (S0 : forall i j, (i < 6)%nat -> (j < 6)%nat -> spring k i j = spring k j i) by (intros; unfold spring; rewrite (Nat.eqb_sym (i mod 3)), (Nat.eqb_sym (i / 3)); reflexivity).
  assert (Q : forall i j, (i < 6)%nat -> (j < 6)%nat -> sq_fc 6 (relf t) (f_fc (sprung k)) i j = spring k i j).
  { intros i j I J. specialize (SM 0%nat 0%nat 0%nat i j ltac:(lia) ltac:(lia) ltac:(lia) I J (same_refl _ _)). cbn [Nat.mul Nat.add] in SM. rewrite S0 by assumption. exact SM. }
  destruct spring_found as (ac & F).
  destruct (enforce_run (sprung k) 100 t (tabulated (spring k) (spring_ev k) even_v) isort (spring_ev k) even_v ac (spring k) T (tabulated_runs (spring k) (spring_ev k) even_v) S0 Q F) as (fc' & E & _). exists fc'. exact E.
Qed.
Lemma one_cell_orthogonal : orthogonal_supercell one_cell.
Proof. unfold orthogonal_supercell, sc_vecs, one_cell. cbn. repeat split; lra. Qed.
Lemma one_cell_inside : inside_supercell one_cell.
Proof.
  intros c j C1 J. unfold n_cells, n_atoms, one_cell in *. cbn [f_origins f_atom_r length] in *. assert (c = 0)%nat as -> by lia. destruct j as [|[|]]; [| |lia].
  - exists (0, 0, 0). split; [unfold atom_pos, sc_vecs; cbn; apply V3_eq; ring|lra].
  - exists (1/2, 0, 0). split; [unfold atom_pos, sc_vecs; cbn; apply V3_eq; ring|lra].
Qed.
