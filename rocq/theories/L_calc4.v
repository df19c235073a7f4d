(** Witnesses for stale results after assigning force constants, Born charges or the dielectric
    tensor (C64). *)
From Coq Require Import FunctionalExtensionality.
From Verif Require Import Base Cpx Vec3 M_grid M_cell M_qpts M_dynmat M_dipole M_struct M_asr M_calc
  S_qpts S_dynmat S_dipole S_asr S_calc L_util L_qpts L_dynmat2 L_dipole L_nac L_conv L_asr L_asr3 L_asr4 L_asr6 L_total2 L_calc L_calc2 L_calc3.
Open Scope R_scope.

(** ** Solvers for diagonal matrices *)
Definition offdiag {A} (zero : A -> bool) (n : nat) (M : nat -> nat -> A) : bool :=
  forallb (fun i => forallb (fun j => Nat.eqb i j || zero (M i j)) (seq 0 n)) (seq 0 n).
Lemma offdiag_spec {A} (zero : A -> bool) n M : offdiag zero n M = true <-> forall i j, (i < n)%nat -> (j < n)%nat -> i <> j -> zero (M i j) = true.
Proof.
  unfold offdiag. rewrite forallb_forall. split.
  - intros H i j I J N. specialize (H i ltac:(apply in_seq; lia)). rewrite forallb_forall in H. specialize (H j ltac:(apply in_seq; lia)).
    apply orb_true_iff in H. destruct H as [H|H]; [apply Nat.eqb_eq in H; contradiction|exact H].
  - intros H i I. apply forallb_forall. intros j J. apply in_seq in I. apply in_seq in J. destruct (Nat.eqb_spec i j); [reflexivity|]. cbn. apply H; lia.
Qed.
Definition rdiag : real_eigh := fun n A => if offdiag (fun x => Reqb x 0) n A then Some ((fun m => A m m), (fun i m => if Nat.eqb i m then 1 else 0)) else None.
Definition czero (z : C) : bool := (Reqb (re z) 0 && Reqb (im z) 0)%bool.
Definition cdiag : complex_eigh := fun n A => if offdiag czero n A then Some ((fun m => re (A m m)), (fun i m => if Nat.eqb i m then Cone else Czero)) else None.
Lemma czero_spec z : czero z = true <-> z = Czero.
Proof.
  unfold czero. rewrite andb_true_iff. split.
  - intros [H1 H2]. destruct (Reqb_spec (re z) 0); [|discriminate]. destruct (Reqb_spec (im z) 0); [|discriminate]. now apply C_eq.
  - intros ->. cbn. split; destruct (Reqb_spec 0 0); congruence.
Qed.
Lemma rdiag_solves : solves rdiag.
Proof.
  intros n A ev v _ E. unfold rdiag in E. destruct (offdiag _ n A) eqn:Q; [|discriminate]. assert (Z := proj1 (offdiag_spec _ _ _) Q). injection E as <- <-. split.
  - intros m M i I. cbv beta. destruct (Nat.eq_dec i m) as [->|N].
    + rewrite Nat.eqb_refl. unfold sumn. rewrite (Sum_ext _ _ (fun j => if Nat.eqb j m then A m m else 0)).
      * rewrite Sum_pick; [ring|apply seq_NoDup|apply in_seq; lia].
      * intros j _. destruct (Nat.eqb_spec j m) as [->|]; ring.
    + destruct (Nat.eqb_spec i m); [contradiction|]. rewrite Rmult_0_r. apply Sum_zero_ext. intros j J. apply in_seq in J. destruct (Nat.eqb_spec j m) as [->|]; [|ring].
      specialize (Z i m I M N). cbv beta in Z. destruct (Reqb_spec (A i m) 0); [rewrite e; ring|discriminate].
  - intros m k M K. unfold sumn. rewrite (Sum_ext _ _ (fun i => if Nat.eqb i m then (if Nat.eqb m k then 1 else 0) else 0)).
    + rewrite Sum_pick; [reflexivity|apply seq_NoDup|apply in_seq; lia].
    + intros i _. destruct (Nat.eqb_spec i m) as [->|]; ring.
Qed.
Lemma cdiag_solves : csolves cdiag.
Proof.
  intros n A ev v H E. unfold cdiag in E. destruct (offdiag _ n A) eqn:Q; [|discriminate]. assert (Z := proj1 (offdiag_spec _ _ _) Q). injection E as <- <-. split.
  - intros m M i I. cbv beta. destruct (Nat.eq_dec i m) as [->|N].
    + rewrite Nat.eqb_refl. rewrite (Csum_single _ m); [|apply seq_NoDup|apply in_seq; lia|].
      * rewrite Nat.eqb_refl. pose proof (H m m) as S. apply (f_equal im) in S. cbn in S. apply C_eq; cbn; lra.
      * intros j _ Hj. destruct (Nat.eqb_spec j m); [contradiction|]. ring.
    + destruct (Nat.eqb_spec i m); [contradiction|]. rewrite (Csum_single _ m); [|apply seq_NoDup|apply in_seq; lia|].
      * rewrite Nat.eqb_refl. specialize (Z i m I M N). apply czero_spec in Z. rewrite Z. apply C_eq; cbn; ring.
      * intros j _ Hj. destruct (Nat.eqb_spec j m); [contradiction|]. ring.
  - intros m k M K. rewrite (Csum_single _ m); [|apply seq_NoDup|apply in_seq; lia|].
    + rewrite Nat.eqb_refl. destruct (Nat.eqb m k); apply C_eq; cbn; ring.
    + intros j _ Hj. destruct (Nat.eqb_spec j m); [contradiction|]. apply C_eq; cbn; ring.
Qed.

(** ** One atom in a unit cube, held by springs of strength k *)
Definition held (k : R) : fcdata := mkFC unit_cell3 [vzero] ((1,0,0),(0,1,0),(0,0,1))%Z [(0,0,0)%Z] (fun _ a b => if Nat.eqb a b then k else 0).
Definition at_gamma (asr : option asr_kind) (dipole : bool) : options := mkOpts [vzero] None asr dipole 1 false false false false.
Lemma held_home k : home_first (held k). Proof. reflexivity. Qed.
Lemma held_orth k : orthogonal_supercell (held k).
Proof. unfold orthogonal_supercell, sc_vecs, held. cbn. repeat split; lra. Qed.
Lemma held_inside k : inside_supercell (held k).
Proof.
  intros c j C1 J. unfold n_cells, n_atoms, held in *. cbn [f_origins f_atom_r length] in *. assert (c = 0)%nat as -> by lia. assert (j = 0)%nat as -> by lia.
  exists (0, 0, 0). split; [unfold atom_pos, sc_vecs; cbn; apply V3_eq; ring|lra].
Qed.
Lemma held_dyn k fc junk a b : (a < 3)%nat -> (b < 3)%nat -> interp_dyn_mat (with_fc (held k) fc) junk vzero a b = RtoC (fc 0%nat a b).
Proof.
  intros A B. rewrite gamma_sum; [|reflexivity|exact (held_orth k)|exact (held_inside k)|exact A|exact B].
  f_equal. unfold n_cells. cbn [held with_fc f_origins length f_fc]. unfold sumn. cbn [seq]. rewrite Sum_cons, Sum_nil. ring.
Qed.

Section W.
Variable erfc : R -> R.
Variable reigh : real_eigh.
Variable ceigh : complex_eigh.
Variable argsort : list R -> list nat.
Variable chunk : nat.
Notation call := (call erfc reigh ceigh argsort chunk).
Notation result := (result erfc reigh ceigh argsort chunk).
Notation next := (next erfc reigh ceigh argsort chunk).

(** One q-point: the result is that of the solver. *)
Lemma one_point junk asr dip x k fc w : asr <> Some Reciprocal -> asr_of reigh argsort chunk x (at_gamma asr dip) = Ok (k, fc, w) ->
  result junk (at_gamma asr dip) x =
  match solve ceigh (3 * n_atoms (o_d x)) (o_mass x)
    (full_dyn_mat (o_d x) (images_of x) (fc_img_weighted (images_of x) junk fc)
       (match o_born x, dipole_of erfc x (at_gamma asr dip) with
        | Some bo, Some (_, dat) => if dip then Some (bo, o_diel x, dat) else None
        | _, _ => None
        end) None (o_born x) (o_diel x) vzero None) None with
  | Some md => Ok ([vzero], [1 / INR 1], [md])
  | None => Err NotConverged
  end.
Proof.
  intros Hr Ha. unfold M_calc.result, M_calc.call. change (weights_ok (at_gamma asr dip)) with true. cbn [negb].
  destruct (q_dirs_ok x (at_gamma asr dip)) as [l El]. rewrite El, Ha. cbn [snd].
  assert (Hs : use_splitting x (at_gamma asr dip) = false) by (unfold use_splitting; destruct (use_dipole _ _); reflexivity).
  assert (Hq : the_qpts x (at_gamma asr dip) = [vzero]) by (unfold the_qpts; rewrite Hs; reflexivity).
  assert (Hw : the_weights x (at_gamma asr dip) = None) by (unfold the_weights; rewrite Hs; reflexivity).
  rewrite Hs, Hq, Hw. cbn [at_gamma p_asr p_grads p_dipole p_reduce].
  match goal with |- match calculate ?f _ _ _ _ with _ => _ end = _ => set (calc := f) end.
  destruct (calculate_correct _ calc None false false [vzero]) as (out & E & Ln & P). rewrite E.
  destruct out as [|r [|? ?]]; try discriminate. specialize (P 0%nat vzero eq_refl). cbn in P. injection P as ->.
  cbn [mapE]. unfold calc.
  assert (Hrec : match asr with Some Reciprocal => enforce_reciprocal_asr ceigh argsort (3 * n_atoms (o_d x)) (full_dyn_mat (o_d x) (images_of x) (fc_img_weighted (images_of x) junk fc) match o_born x with
        | Some bo => match dipole_of erfc x (at_gamma asr dip) with
                     | Some (_, dat) => if dip then Some (bo, o_diel x, dat) else None
                     | None => None
                     end
        | None => None
        end None None (o_diel x) vzero None) | _ => None end = None) by (destruct asr as [[|]|]; [reflexivity|congruence|reflexivity]).
  rewrite Hrec. destruct (solve _ _ _ _ _); reflexivity.
Qed.
End W.
