(** Witnesses: structure factors and gradients of modes of equal frequency depend on the eigenvectors. *)
From Coq Require Import FunctionalExtensionality Permutation.
From Verif Require Import Base Cpx Vec3 M_dos M_sf M_grid M_cell M_qpts M_dynmat M_dipole M_struct M_asr M_calc
  S_qpts S_dynmat S_dipole S_asr S_calc S_unique L_util L_nac L_qpts L_dynmat2 L_chain L_cgrad L_calc2 L_unique3.
From Verif Require L_calc4 L_sf2.
Open Scope R_scope.

(** ** Solvers for the unit matrix of order 3, with the axes or axes turned by 45 degrees as eigenvectors *)
Definition unit3 (A : nat -> nat -> C) : bool :=
  forallb (fun i => forallb (fun j => L_calc4.czero (Csub (A i j) (if Nat.eqb i j then Cone else Czero))) (seq 0 3)) (seq 0 3).
Definition hs : R := sqrt (1 / 2).
Lemma hs2 : hs * hs = 1 / 2. Proof. apply sqrt_sqrt. lra. Qed.
Definition axes (i m : nat) : C := if Nat.eqb i m then Cone else Czero.
Definition turned (i m : nat) : C :=
  RtoC (match i, m with O, O => hs | S O, O => hs | O, S O => hs | S O, S O => - hs | S (S O), S (S O) => 1 | _, _ => 0 end).
Definition with_vectors (v : nat -> nat -> C) : complex_eigh :=
  fun n A => if (Nat.eqb n 3 && unit3 A)%bool then Some ((fun _ => 1), v) else None.
Lemma unit3_spec A : unit3 A = true -> forall i j, (i < 3)%nat -> (j < 3)%nat -> A i j = if Nat.eqb i j then Cone else Czero.
Proof.
  unfold unit3. intros H i j Hi Hj. rewrite forallb_forall in H. specialize (H i ltac:(apply in_seq; lia)). rewrite forallb_forall in H.
  specialize (H j ltac:(apply in_seq; lia)). apply L_calc4.czero_spec in H.
  pose proof (f_equal re H) as E1. pose proof (f_equal im H) as E2. cbn [re im Csub Czero Cadd Copp] in E1, E2. apply C_eq; lra.
Qed.
Lemma unit3_intro A : (forall i j, (i < 3)%nat -> (j < 3)%nat -> A i j = if Nat.eqb i j then Cone else Czero) -> unit3 A = true.
Proof.
  intros H. unfold unit3. apply forallb_forall. intros i Hi. apply forallb_forall. intros j Hj. apply in_seq in Hi, Hj.
  apply L_calc4.czero_spec. rewrite H by lia. destruct (Nat.eqb i j); apply C_eq; cbn; ring.
Qed.
Lemma unit_system A v : unit3 A = true -> corthonormal 3 v -> ceigen_system 3 A (fun _ => 1) v.
Proof.
  intros U O. split; [|exact O]. intros m Hm i Hi. pose proof (unit3_spec A U) as S3. cbn [seq]. rewrite !Csum_cons, Csum_nil.
  rewrite !S3 by lia. destruct i as [|[|[|i]]]; [| | |lia]; cbn [Nat.eqb]; apply C_eq; cbn; ring.
Qed.
Lemma axes_orth : corthonormal 3 axes.
Proof.
  intros m k Hm Hk. cbn [seq]. rewrite !Csum_cons, Csum_nil. unfold axes.
  destruct m as [|[|[|m]]]; [| | |lia]; (destruct k as [|[|[|k]]]; [| | |lia]); cbn [Nat.eqb]; apply C_eq; cbn; ring.
Qed.
Lemma turned_orth : corthonormal 3 turned.
Proof.
  pose proof hs2 as E. intros m k Hm Hk. cbn [seq]. rewrite !Csum_cons, Csum_nil. unfold turned.
  destruct m as [|[|[|m]]]; [| | |lia]; (destruct k as [|[|[|k]]]; [| | |lia]); cbn [Nat.eqb]; apply C_eq; cbn; lra.
Qed.
Lemma with_vectors_solves v : corthonormal 3 v -> csolves (with_vectors v).
Proof.
  intros O n A ev w _ E. unfold with_vectors in E. destruct (Nat.eqb_spec n 3) as [->|]; cbn [andb] in E; [|discriminate].
  destruct (unit3 A) eqn:U; [|discriminate]. injection E as <- <-. now apply unit_system.
Qed.
Lemma with_vectors_sorts v : csorts (with_vectors v).
Proof.
  intros n A ev w E. unfold with_vectors in E. destruct (Nat.eqb n 3 && unit3 A)%bool; [|discriminate]. injection E as <- _. intros i j _ _. lra.
Qed.

(** ** Two branches that cross at (1/4, 0, 0) *)
Definition crossing : fcdata := with_fc (chain 1 1)
    (fun nc a b => if Nat.eqb a b then match nc with O => 1 | _ => match a with O => 1 | S O => -1 | _ => 0 end end else 0).
Definition quarter : V3 := (1/4, 0, 0).
Lemma ms_with_fc d fc s nc i j : ms (with_fc d fc) s nc i j = ms d s nc i j.
Proof. unfold ms. f_equal. Qed.
Lemma crossing_ms0 : Permutation (ms crossing 2 0 0 0) [(0,0,0)%Z].
Proof. unfold crossing. rewrite ms_with_fc. exact (chain_ms0 1 1). Qed.
Lemma crossing_ms1 : Permutation (ms crossing 2 1 0 0) [(-1,0,0); (0,0,0)]%Z.
Proof. unfold crossing. rewrite ms_with_fc. exact (chain_ms1 1 1). Qed.
Lemma crossing_dyn junk a b : (a < 3)%nat -> (b < 3)%nat -> interp_dyn_mat crossing junk quarter a b = if Nat.eqb a b then Cone else Czero.
Proof.
  intros Ha Hb. rewrite interp_closed by (cbn; lia).
  assert (a / 3 = 0)%nat as -> by (apply Nat.div_small; exact Ha).
  assert (b / 3 = 0)%nat as -> by (apply Nat.div_small; exact Hb).
  change (seq 0 (n_cells crossing)) with [0; 1]%nat.
  rewrite !Csum_cons, Csum_nil.
  rewrite (Permutation_length crossing_ms0), (Permutation_length crossing_ms1).
  rewrite (Csum_perm _ _ _ crossing_ms0), (Csum_perm _ _ _ crossing_ms1).
  rewrite !Csum_cons, Csum_nil.
  unfold latv, quarter. cbn [crossing with_fc chain f_origins f_sc nth zmul3 zadd3 zvec dot comp f_fc length].
  cbn [Z.mul Z.add Pos.mul Z.pos_sub Pos.pred_double].
  replace (2 * PI * (1 / 4 * 0 + 0 * 0 + 0 * 0)) with 0 by ring.
  replace (2 * PI * (1 / 4 * -1 + 0 * 0 + 0 * 0)) with (- (PI / 2)) by field.
  replace (2 * PI * (1 / 4 * 1 + 0 * 0 + 0 * 0)) with (PI / 2) by field.
  rewrite cis_0, cis_opp. unfold cis. rewrite cos_PI2, sin_PI2.
  destruct (Nat.eqb a b); apply C_eq; cbn; field.
Qed.
Lemma crossing_grad junk a b l : (a < 3)%nat -> (b < 3)%nat -> (l < 3)%nat -> interp_dyn_mat_grad crossing junk quarter a b l
  = if (Nat.eqb a b && Nat.eqb l 0)%bool then RtoC (match a with O => -1 | S O => 1 | _ => 0 end) else Czero.
Proof.
  intros Ha Hb Hl. rewrite interp_grad_closed by (cbn; lia).
  assert (a / 3 = 0)%nat as -> by (apply Nat.div_small; exact Ha).
  assert (b / 3 = 0)%nat as -> by (apply Nat.div_small; exact Hb).
  change (seq 0 (n_cells crossing)) with [0; 1]%nat.
  rewrite !Csum_cons, Csum_nil.
  rewrite (Permutation_length crossing_ms0), (Permutation_length crossing_ms1).
  rewrite (Csum_perm _ _ _ crossing_ms0), (Csum_perm _ _ _ crossing_ms1).
  rewrite !Csum_cons, Csum_nil.
  unfold latv, quarter. cbn [crossing with_fc chain f_origins f_sc f_cell nth zmul3 zadd3 zvec dot comp f_fc length].
  cbn [Z.mul Z.add Pos.mul Z.pos_sub Pos.pred_double].
  replace (2 * PI * (1 / 4 * 0 + 0 * 0 + 0 * 0)) with 0 by ring.
  replace (2 * PI * (1 / 4 * -1 + 0 * 0 + 0 * 0)) with (- (PI / 2)) by field.
  replace (2 * PI * (1 / 4 * 1 + 0 * 0 + 0 * 0)) with (PI / 2) by field.
  rewrite cis_0, cis_opp. unfold cis. rewrite cos_PI2, sin_PI2.
  destruct a as [|[|[|a]]]; [| | |lia]; (destruct b as [|[|[|b]]]; [| | |lia]); (destruct l as [|[|[|l]]]; [| | |lia]); apply C_eq; cbn; field.
Qed.

Definition at_quarter : options := mkOpts [quarter] None None false 1 false false false true.
Section W.
Variable erfc : R -> R.
Variable reigh : real_eigh.
Variable ceigh : complex_eigh.
Variable argsort : list R -> list nat.
Variable chunk : nat.
Lemma one_quarter junk : result erfc reigh ceigh argsort chunk junk at_quarter (new_fc crossing (fun _ => 1) None unit_cell3)
  = match solve ceigh 3 (fun _ => 1) (interp_dyn_mat crossing junk quarter) (Some (interp_dyn_mat_grad crossing junk quarter)) with
    | Some md => Ok ([quarter], [1 / INR 1], [md])
    | None => Err NotConverged
    end.
Proof.
  unfold M_calc.result, M_calc.call. change (weights_ok at_quarter) with true. cbn [negb].
  set (x := new_fc crossing (fun _ => 1) None unit_cell3).
  destruct (q_dirs_ok x at_quarter) as [l El]. rewrite El. cbn [snd].
  change (asr_of reigh argsort chunk x at_quarter) with (@Ok (option (nat -> nat -> nat -> R) * (nat -> nat -> nat -> R) * list warning) sc_err (None, f_fc crossing, [])). cbn [snd].
  change (use_splitting x at_quarter) with false. change (the_qpts x at_quarter) with [quarter]. change (the_weights x at_quarter) with (@None weights_t).
  cbn [at_quarter p_asr p_grads p_dipole p_reduce].
  match goal with |- match calculate ?f _ _ _ _ with _ => _ end = _ => set (calc := f) end.
  destruct (calculate_correct _ calc None false false [quarter]) as (out & E & Ln & P). rewrite E.
  destruct out as [|r [|? ?]]; try discriminate. specialize (P 0%nat quarter eq_refl). cbn in P. injection P as ->.
  cbn [mapE].
  change (calc quarter None) with (solve ceigh 3 (fun _ => 1) (interp_dyn_mat crossing junk quarter) (Some (interp_dyn_mat_grad crossing junk quarter))).
  destruct (solve _ _ _ _ _); reflexivity.
Qed.
End W.
Lemma quarter_modes erfc reigh argsort chunk junk v : 
  result erfc reigh (with_vectors v) argsort chunk junk at_quarter (new_fc crossing (fun _ => 1) None unit_cell3)
  = Ok ([quarter], [1 / INR 1], [mkModes (fun _ => freq_of_eval 1) (fun m i => v i m)
       (Some (fun m l => re (mode_gradient 3 (fun i => v i m) (freq_of_eval 1) (mass_weight_grad (fun _ => 1) (interp_dyn_mat_grad crossing junk quarter)) l)))]).
Proof.
  rewrite one_quarter. unfold solve, with_vectors. cbn [Nat.eqb andb].
  rewrite unit3_intro; [reflexivity|]. intros i j Hi Hj. unfold herm_upper, mass_weight.
  replace (1 / sqrt (1 * 1)) with 1 by (rewrite Rmult_1_r, sqrt_1; field).
  rewrite !crossing_dyn by lia. destruct (Nat.ltb_spec i j), (Nat.ltb_spec j i); try lia.
  - destruct (Nat.eqb_spec i j); [lia|]. apply C_eq; cbn; ring.
  - rewrite (Nat.eqb_sym j i). destruct (Nat.eqb_spec i j); [lia|]. apply C_eq; cbn; ring.
  - rewrite Nat.eqb_refl. assert (i = j) as -> by lia. rewrite Nat.eqb_refl. apply C_eq; cbn; ring.
Qed.
Lemma freq_one : freq_of_eval 1 = 1.
Proof. unfold freq_of_eval. destruct (Rlt_dec 1 0); [lra|]. rewrite Rabs_R1. exact sqrt_1. Qed.
Lemma grad_value junk v m l : (m < 3)%nat -> (l < 3)%nat ->
  re (mode_gradient 3 (fun i => v i m) (freq_of_eval 1) (mass_weight_grad (fun _ => 1) (interp_dyn_mat_grad crossing junk quarter)) l)
  = if Nat.eqb l 0 then (Cnorm2 (v 1%nat m) - Cnorm2 (v 0%nat m)) / 2 else 0.
Proof.
  intros Hm Hl. unfold mode_gradient, mass_weight_grad. rewrite freq_one. replace (1 / sqrt (1 * 1)) with 1 by (rewrite Rmult_1_r, sqrt_1; field).
  cbn [seq]. rewrite !Csum_cons, !Csum_nil. rewrite !crossing_grad by lia. unfold Cnorm2.
  destruct l as [|[|[|l]]]; [| | |lia]; cbn [Nat.eqb andb]; cbn; field.
Qed.

Lemma gradients_depend erfc reigh argsort chunk junk : exists ceigh ceigh' d mass diel o,
  csolves ceigh /\ csolves ceigh' /\ csorts ceigh /\ csorts ceigh' /\ exists qpts w md md' g g',
  result erfc reigh ceigh argsort chunk junk o (new_fc d mass None diel) = Ok (qpts, w, [md]) /\
  result erfc reigh ceigh' argsort chunk junk o (new_fc d mass None diel) = Ok (qpts, w, [md']) /\
  m_grad md = Some g /\ m_grad md' = Some g' /\ g 0%nat 0%nat <> 0 /\ forall m l, (m < 3 * n_atoms d)%nat -> (l < 3)%nat -> g' m l = 0.
Proof.
  exists (with_vectors axes), (with_vectors turned), crossing, (fun _ => 1), unit_cell3, at_quarter.
  split; [apply with_vectors_solves, axes_orth|]. split; [apply with_vectors_solves, turned_orth|]. split; [apply with_vectors_sorts|]. split; [apply with_vectors_sorts|].
  do 6 eexists. split; [apply quarter_modes|]. split; [apply quarter_modes|]. split; [reflexivity|]. split; [reflexivity|]. split.
  - rewrite grad_value by lia. cbn. unfold Cnorm2. cbn. lra.
  - intros m l Hm Hl. change (3 * n_atoms crossing)%nat with 3%nat in Hm. rewrite grad_value by assumption.
    destruct l as [|l]; cbn [Nat.eqb]; [|reflexivity]. pose proof hs2.
    destruct m as [|[|[|m]]]; [| | |lia]; unfold Cnorm2, turned; cbn [re im RtoC]; lra.
Qed.

(** ** Structure factors of single modes *)
Definition one_atom (v : nat -> nat -> C) : etable := mkE (mkF 1 3 (fun _ _ => 1) (fun _ => 1)) 1 (fun _ m _ x => v x m).
Lemma one_atom_modes v : corthonormal 3 v -> table_modes (one_atom v) (fun _ => 1) (fun _ => axes).
Proof.
  intros O. split; [reflexivity|]. intros q Hq. apply modes_plain. cbn [one_atom M_dos.n_atoms modes_at m_freq m_evec et freq evec].
  rewrite Rabs_R1, Rmult_1_r. change (3 * 1)%nat with 3%nat. destruct (unit_system axes v) as [E _]; [apply unit3_intro; reflexivity|exact O|].
  assert (I : forall i, (i < 3)%nat -> (i mod 3)%nat = i) by (intros i Hi; apply Nat.mod_small; exact Hi).
  split.
  - intros m Hm i Hi. cbv beta. rewrite (I i Hi). rewrite <- (E m Hm i Hi). apply Csum_ext. intros j Ij. apply in_seq in Ij. rewrite I by lia. reflexivity.
  - intros m k Hm Hk. rewrite <- (O m k Hm Hk). apply Csum_ext. intros j Ij. apply in_seq in Ij. rewrite I by lia. reflexivity.
Qed.
Definition box : xtal := M_sf.mkX (fun _ => 1) (fun _ => vzero) ((1,0,0),(0,1,0),(0,0,1)).
Lemma sf_depends : exists e e' mass D x sl qpt s s', same_points e e' /\ table_modes e mass D /\ table_modes e' mass D /\
  (forall q m, freq (et e) q m = freq (et e') q m) /\
  calculate_structure_factor e x sl None qpt = Ok s /\ calculate_structure_factor e' x sl None qpt = Ok s' /\ sf_val s 0 0 <> sf_val s' 0 0.
Proof.
  exists (one_atom axes), (one_atom turned), (fun _ => 1), (fun _ => axes), box, (fun _ => 1), (fun _ => (1, 0, 0)).
  assert (Z : forall v, has_zero (et (one_atom v)) = false).
  { intros v. apply L_sf2.no_zero. intros q m _ _. exact R1_neq_R0. }
  do 2 eexists. split; [split; [reflexivity|split; reflexivity]|]. split; [apply one_atom_modes, axes_orth|]. split; [apply one_atom_modes, turned_orth|].
  split; [reflexivity|]. split; [unfold calculate_structure_factor; rewrite Z; reflexivity|]. split; [unfold calculate_structure_factor; rewrite Z; reflexivity|].
  cbn [sf_val].
  assert (V : forall v, (forall i m, im (v i m) = 0) -> sf_mode (one_atom v) box (fun _ => 1) None (fun _ => (1, 0, 0)) 0 0 = (re (v 0 0)%nat * re (v 0 0)%nat) / 2).
  { intros v R0. unfold sf_mode. 
    assert (T : sf_term (one_atom v) box (fun _ => 1) None (fun _ => (1, 0, 0)) 0 0 = RtoC (re (v 0 0)%nat)).
    { unfold sf_term. cbn [one_atom M_dos.n_atoms seq]. rewrite Csum_cons, Csum_nil. unfold evec_dot_q. cbn [seq]. rewrite !Csum_cons, Csum_nil.
      cbn [exp_factor box M_sf.mass M_sf.pos evec Qvec recip vmul]. replace (2 * PI * dot (1, 0, 0) vzero) with 0 by (cbn; ring). rewrite cis_0, sqrt_1.
      apply C_eq; cbn; rewrite ?R0; field. }
    rewrite T. cbn [one_atom et freq M_dos.n_atoms]. rewrite Rabs_R1. unfold M_sf.Cabs, Cnorm2. cbn [re im Cmul Cconj RtoC].
    set (r := re (v 0 0)%nat). match goal with |- sqrt ?X / _ / _ = _ => replace X with ((r * r) * (r * r)) by ring end.
    rewrite sqrt_square by nra. cbn [INR]. field. }
  rewrite !V.
  - cbn. rewrite hs2. lra.
  - intros i m. reflexivity.
  - intros i m. unfold axes. destruct (Nat.eqb i m); reflexivity.
Qed.
