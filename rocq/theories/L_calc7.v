(** The warning given once (C16) and the modes as those of the Fourier sum (C65). *)
From Coq Require Import FunctionalExtensionality.
From Verif Require Import Base Cpx Vec3 M_grid M_cell M_qpts M_dynmat M_dipole M_struct M_asr M_calc
  S_qpts S_dynmat S_dipole S_asr S_calc L_util L_qpts L_dynmat2 L_near L_nac L_conv L_chain L_broad3 L_asr L_asr3 L_asr4 L_calc L_calc2 L_calc3 L_calc4 L_calc6.
Open Scope R_scope.

Lemma modes_ext n mass D D' md : (forall a b, (a < n)%nat -> (b < n)%nat -> D a b = D' a b) -> modes_of n mass D md -> modes_of n mass D' md.
Proof.
  intros H [H1 H2]. split; [|exact H2]. intros m M i I. rewrite <- (H1 m M i I). apply Csum_ext. intros j J. apply in_seq in J. rewrite H by lia. reflexivity.
Qed.
Section C.
Variable erfc : R -> R.
Variable reigh : real_eigh.
Variable ceigh : complex_eigh.
Variable argsort : list R -> list nat.
Variable chunk : nat.
Variables (d : fcdata) (mass : nat -> R) (born : option (nat -> M3)) (diel : M3).
Notation obj := (new_fc d mass born diel).
Hypothesis Hh : home_first d.
Hypothesis Hc : search_complete d.
Hypothesis Hd : det3 (zrows (f_sc d)) <> 0.
Hypothesis Hf : fc_symmetric d.
Hypothesis He : symmetric3 diel.
Hypothesis Hs : csolves ceigh.
Lemma modes_fourier : exists L, shares_images d L /\
  forall cs junk o qpts w ms, p_asr o = None -> result erfc reigh ceigh argsort chunk junk o (after erfc reigh ceigh argsort chunk obj cs) = Ok (qpts, w, ms) ->
    qpts = the_qpts obj o /\ length ms = length qpts /\
    forall k q, nth_error qpts k = Some q -> exists md, nth_error ms k = Some md /\
      modes_of (3 * n_atoms d) mass
        (whole_matrix erfc d born diel (p_dipole o) (p_param o) L (if (p_reduce o && is_gamma q)%bool then vzero else q)
           (if (p_splitting o && is_gamma q)%bool then Some (approach qpts k) else None)) md.
Proof.
  destruct (fourier_shared d (fun _ _ _ => 0) Hh Hc Hd) as (L & HL & HF). exists L. split; [exact HL|].
  intros cs junk o qpts w ms Ha H. rewrite (history _ _ _ _ _ _ _ _ _ _ _ (fun _ _ _ => 0)) in H.
  destruct (fresh_modes erfc reigh ceigh argsort chunk d mass born diel Hh Hc Hf He Hs (fun _ _ _ => 0) o qpts w ms Ha H) as (A & B & K).
  split; [exact A|]. split; [exact B|]. intros k q Hq. destruct (K k q Hq) as (md & M1 & M2). exists md. split; [exact M1|].
  eapply modes_ext; [|exact M2]. intros a b Ia Ib. unfold parts, dip_part, nac_part, whole_matrix, use_splitting, use_dipole. cbn [o_born new_fc].
  rewrite HF by assumption. destruct born as [bo|]; [destruct (p_dipole o)|]; cbn [andb].
  - destruct (p_splitting o && is_gamma q)%bool; apply C_eq; cbn; ring.
  - apply C_eq; cbn; ring.
  - apply C_eq; cbn; ring.
Qed.
End C.

(** Two atoms, each tied to its own place by a spring of its own. *)
Definition tied : fcdata := mkFC unit_cell3 [vzero; (1/2, 0, 0)] ((1,0,0),(0,1,0),(0,0,1))%Z [(0,0,0)%Z] (fun _ a b => if Nat.eqb a b then if Nat.ltb a 3 then 1 else 2 else 0).
Notation spring2 i := (if Nat.ltb i 3 then 1 else 2).
Lemma tied_com l (v : nat -> R) : eigenvector 6 (fun i j => if Nat.eqb i j then spring2 i else 0) l v -> sumn 6 (fun i => v i * v i) = 1 -> com_disp_sq 2 (fun i => RtoC (v i)) <= 1.
Proof.
  intros E N. rewrite com_real.
  assert (P : forall i, (i < 6)%nat -> (spring2 i - l) * v i = 0).
  { intros i I. specialize (E i I). cbv beta in E. rewrite (sumn_single 6 _ i I) in E by (intros j _ J; destruct (Nat.eqb_spec i j); [congruence|ring]). rewrite Nat.eqb_refl in E. lra. }
  pose proof (P 0%nat ltac:(lia)) as P0. pose proof (P 1%nat ltac:(lia)) as P1. pose proof (P 2%nat ltac:(lia)) as P2.
  pose proof (P 3%nat ltac:(lia)) as P3. pose proof (P 4%nat ltac:(lia)) as P4. pose proof (P 5%nat ltac:(lia)) as P5. cbn [Nat.ltb Nat.leb] in *.
  unfold sumn in *. cbn [seq] in *. rewrite !Sum_cons, ?Sum_nil in *. cbn [Nat.mul Nat.add] in *.
  destruct (Req_dec l 1) as [->|L].
  - assert (v 3%nat = 0) as E3 by lra. assert (v 4%nat = 0) as E4 by lra. assert (v 5%nat = 0) as E5 by lra. rewrite E3, E4, E5 in *. lra.
  - assert (K : forall x, (1 - l) * x = 0 -> x = 0) by (intros x X; apply Rmult_integral in X; destruct X; lra).
    apply K in P0. apply K in P1. apply K in P2. rewrite P0, P1, P2 in *. lra.
Qed.
Lemma tied_uncorrected reigh argsort chunk : (0 < chunk)%nat -> solves reigh -> enforce_realspace_asr reigh argsort chunk tied = Ok (false, f_fc tied).
Proof.
  intros Hc Hs. assert (D : zdet3 (f_sc tied) = 1%Z) by reflexivity.
  destruct (rel_exists chunk tied Hc) as (t & T); [rewrite D; lia|rewrite D; reflexivity| |].
  { intros nc j A B. change (n_cells tied) with 1%nat in *. assert (nc = 0)%nat as -> by lia. assert (j = 0)%nat as -> by lia. exists 0%nat. split; [lia|]. apply same_refl. }
  unfold enforce_realspace_asr. rewrite T. change (n_atoms tied) with 2%nat. change (n_cells tied) with 1%nat. change (3 * 2 * 1)%nat with 6%nat. change (3 * 2)%nat with 6%nat.
  cbv zeta. set (sq := sq_fc 6 _ _).
  assert (Q : forall i j, (i < 6)%nat -> (j < 6)%nat -> sq i j = if Nat.eqb i j then spring2 i else 0).
  { intros i j I J. unfold sq, sq_fc, tied. cbn [f_fc]. rewrite !Nat.mod_small by assumption. rewrite Nat.eqb_sym. destruct (Nat.eqb_spec i j) as [->|]; reflexivity. }
  clearbody sq.
  destruct (reigh 6%nat (sym_upper sq)) as [[ev v]|] eqn:E; [|reflexivity].
  destruct (Hs _ _ _ _ (sym_upper_sym sq) E) as [E1 E2].
  assert (F : find_acoustic_modes argsort 6 (fun i m => RtoC (v i m)) = None).
  { unfold find_acoustic_modes. cbv zeta. change (6 / 3)%nat with 2%nat.
    assert (W : filter (fun x => Rltb (1 / 2 * (1 * INR 2)) x) (map (fun m => com_disp_sq 2 (fun i => RtoC (v i m))) (seq 0 6)) = []).
    { apply filter_none. intros x X. apply in_map_iff in X. destruct X as (m & <- & M). apply in_seq in M.
      apply Rltb_nf. cbn [INR]. replace (1 / 2 * (1 * (1 + 1))) with 1 by lra. apply (tied_com (ev m)).
      - intros i I. rewrite <- (E1 m ltac:(lia) i I). apply sumn_ext. intros j J. unfold sym_upper. destruct (Nat.leb i j); rewrite Q by assumption; [reflexivity|]. destruct (Nat.eqb_spec i j) as [e|], (Nat.eqb_spec j i); try congruence; subst; reflexivity.
      - rewrite (E2 m m ltac:(lia) ltac:(lia)). now rewrite Nat.eqb_refl. }
    rewrite W. reflexivity. }
  rewrite F. reflexivity.
Qed.
Lemma warned_once erfc reigh ceigh argsort chunk mass junk junk' : (0 < chunk)%nat -> solves reigh -> (forall n A, ceigh n A <> None) ->
  let x := new_fc tied mass None unit_cell3 in
  let o := at_gamma (Some Realspace) false in
  warnings erfc reigh ceigh argsort chunk junk o x = [RealspaceUncorrected] /\
  warnings erfc reigh ceigh argsort chunk junk' o (next erfc reigh ceigh argsort chunk x (junk, o)) = [].
Proof.
  intros Hc Hs Ht x o. pose proof (tied_uncorrected reigh argsort chunk Hc Hs) as U. split.
  - unfold M_calc.warnings, M_calc.call. change (weights_ok o) with true. cbn [negb]. destruct (q_dirs_ok x o) as [l ->].
    unfold asr_of. cbn [o at_gamma p_asr x new_fc o_asr o_d]. rewrite U. reflexivity.
  - destruct (result erfc reigh ceigh argsort chunk junk o x) as [r|e] eqn:Er.
    + apply (no_second_warning erfc reigh ceigh argsort chunk x junk o r junk' o eq_refl Er eq_refl).
    + exfalso. destruct (only_errors _ _ _ _ _ _ _ _ _ Er) as [(_ & w & W & _)|[(s & _ & _ & S1)|(_ & M & S1)]]; [discriminate| |exact (Ht _ _ S1)].
      unfold enforce_realspace_asr in U. cbn [x new_fc o_d] in S1. rewrite S1 in U. discriminate.
Qed.
Lemma chain_runs erfc reigh argsort chunk k0 k1 junk : exists r,
  result erfc reigh cdiag argsort chunk junk (at_gamma None false) (new_fc (chain k0 k1) (fun _ => 1) None unit_cell3) = Ok r.
Proof.
  rewrite (one_point erfc reigh cdiag argsort chunk junk None false _ None (f_fc (chain k0 k1)) []) by (discriminate || reflexivity).
  cbn [o_d o_mass o_born o_diel new_fc].
  match goal with |- context [solve cdiag _ _ ?D _] => destruct (L_calc6.cdiag_solve D (fun _ => k0 + k1 * cos (2 * PI * comp vzero 0))) as (md & Em & _) end.
  { intros a b A B. unfold full_dyn_mat. change (dyn_mat _ 2 _ _ vzero a b) with (interp_dyn_mat (chain k0 k1) junk vzero a b). now apply chain_dyn. }
  change (3 * n_atoms (chain k0 k1))%nat with 3%nat. rewrite Em. eexists. reflexivity.
Qed.
