(** Stale results: force constants, Born charges and dielectric tensor (C64). *)
From Coq Require Import FunctionalExtensionality.
From Verif Require Import Base Cpx Vec3 M_grid M_cell M_qpts M_dynmat M_dipole M_struct M_asr M_calc
  S_qpts S_dynmat S_dipole S_asr S_calc L_util L_qpts L_dynmat2 L_dipole L_nac L_conv L_asr L_asr3 L_asr4 L_asr5 L_asr6 L_total2 L_calc L_calc2 L_calc3 L_calc4 L_calc5.
Open Scope R_scope.

(** ** Force constants *)
Lemma held_corrected argsort chunk k : (0 < chunk)%nat -> sorts argsort ->
  exists fc', enforce_realspace_asr rdiag argsort chunk (held k) = Ok (true, fc') /\
    forall a b, (a < 3)%nat -> (b < 3)%nat -> fc' 0%nat a b = if Nat.eqb a b then - (1 / 10 ^ 8 * Rabs k) else 0.
Proof.
  intros Hc Hs. assert (D : zdet3 (f_sc (held k)) = 1%Z) by reflexivity.
  destruct (rel_exists chunk (held k) Hc) as (t & T); [rewrite D; lia|rewrite D; reflexivity| |].
  { intros nc j A B. change (n_cells (held k)) with 1%nat in *. assert (nc = 0)%nat as -> by lia. assert (j = 0)%nat as -> by lia. exists 0%nat. split; [lia|]. apply same_refl. }
  unfold enforce_realspace_asr. rewrite T. change (n_atoms (held k)) with 1%nat. change (n_cells (held k)) with 1%nat. change (3 * 1 * 1)%nat with 3%nat. change (3 * 1)%nat with 3%nat.
  cbv zeta. set (sq := sq_fc 3 _ _).
  assert (Q : forall i j, (i < 3)%nat -> (j < 3)%nat -> sq i j = if Nat.eqb i j then k else 0).
  { intros i j I J. unfold sq, sq_fc, held. cbn [f_fc]. rewrite !Nat.mod_small by assumption. rewrite Nat.eqb_sym. reflexivity. }
  clearbody sq.
  assert (Qs : forall i j, (i < 3)%nat -> (j < 3)%nat -> sym_upper sq i j = if Nat.eqb i j then k else 0).
  { intros i j I J. unfold sym_upper. destruct (Nat.leb i j); rewrite Q by assumption; [reflexivity|]. now rewrite Nat.eqb_sym. }
  unfold rdiag. assert (O : offdiag (fun x => Reqb x 0) 3 (sym_upper sq) = true).
  { apply offdiag_spec. intros i j I J N. rewrite Qs by assumption. destruct (Nat.eqb_spec i j); [contradiction|]. destruct (Reqb_spec 0 0); congruence. }
  rewrite O. set (v := fun i m => if Nat.eqb i m then 1 else 0).
  assert (F : exists ac, find_acoustic_modes argsort 3 (fun i m => RtoC (v i m)) = Some ac /\ Permutation ac [0;1;2]%nat).
  { unfold find_acoustic_modes. cbv zeta. change (3 / 3)%nat with 1%nat.
    assert (W : forall m, (m < 3)%nat -> com_disp_sq 1 (fun i => RtoC (v i m)) = 1).
    { intros m M. rewrite com_real. unfold v, sumn. destruct m as [|[|[|m]]]; try lia; cbn; ring. }
    assert (E : map (fun m => com_disp_sq 1 (fun i => RtoC (v i m))) (seq 0 3) = [1;1;1]).
    { cbn [seq map]. rewrite !W by lia. reflexivity. }
    rewrite E. assert (B : Rltb (1 / 2 * (1 * INR 1)) 1 = true) by (apply Rltb_iff; cbn; lra). cbn [filter]. rewrite B. cbn [length Nat.ltb Nat.leb Nat.sub skipn].
    eexists. split; [reflexivity|]. destruct (Hs [1;1;1]) as [P _]. exact P. }
  destruct F as (ac & F & P). unfold v in F; rewrite F; fold v in F. eexists. split; [reflexivity|].
  intros a b A B. cbv beta. change (0 * 3 + a)%nat with a. rewrite subtract_sum. rewrite Q by assumption.
  assert (Mn : min_abs 3 (fun m => sym_upper sq m m) = Rabs k).
  { apply min_abs_is.
    - exists 0%nat. split; [lia|]. rewrite Qs by lia. reflexivity.
    - intros m M. rewrite Qs by assumption. rewrite Nat.eqb_refl. lra. }
  rewrite Mn. rewrite (Sum_perm _ _ _ P). rewrite !Sum_cons, Sum_nil. rewrite !Qs by lia. rewrite !Nat.eqb_refl. unfold v.
  destruct a as [|[|[|a]]]; try lia; destruct b as [|[|[|b]]]; try lia; cbn [Nat.eqb]; ring.
Qed.

Notation mass1 := (fun _ : nat => 1).
Lemma weight_one D a b : mass_weight mass1 D a b = D a b.
Proof. unfold mass_weight. replace (1 * 1) with 1 by ring. rewrite sqrt_1. apply C_eq; cbn; field. Qed.
Lemma weight_fun D : mass_weight mass1 D = D.
Proof. extensionality a. extensionality b. apply weight_one. Qed.
(** A diagonal matrix is solved by [cdiag]. *)
Lemma cdiag_solve D (f : nat -> R) : (forall a b, (a < 3)%nat -> (b < 3)%nat -> D a b = if Nat.eqb a b then RtoC (f a) else Czero) ->
  exists md, solve cdiag 3 mass1 D None = Some md /\ forall m, (m < 3)%nat -> m_freq md m = freq_of_eval (f m).
Proof.
  intros H. unfold solve, cdiag. rewrite weight_fun.
  assert (O : offdiag czero 3 (herm_upper D) = true).
  { apply offdiag_spec. intros i j I J N. apply czero_spec. unfold herm_upper. destruct (Nat.ltb_spec i j); [rewrite H by assumption; destruct (Nat.eqb_spec i j); [contradiction|reflexivity]|].
    destruct (Nat.ltb_spec j i); [|lia]. rewrite H by assumption. destruct (Nat.eqb_spec j i); [lia|]. apply C_eq; cbn; ring. }
  rewrite O. eexists. split; [reflexivity|]. intros m M. cbn [m_freq]. unfold herm_upper. rewrite Nat.ltb_irrefl. rewrite H by assumption. rewrite Nat.eqb_refl. reflexivity.
Qed.
Lemma freq_neg x : 0 < x -> freq_of_eval (- x) = - sqrt x.
Proof. intros H. unfold freq_of_eval. destruct (Rlt_dec (- x) 0); [|lra]. rewrite Rabs_Ropp, Rabs_pos_eq by lra. ring. Qed.

Lemma fresh_held erfc argsort chunk junk k : (0 < chunk)%nat -> sorts argsort -> 0 < k ->
  exists md, result erfc rdiag cdiag argsort chunk junk (at_gamma (Some Realspace) false) (new_fc (held k) mass1 None unit_cell3) = Ok ([vzero], [1 / INR 1], [md]) /\
    m_freq md 0 = - sqrt (1 / 10 ^ 8 * k).
Proof.
  intros Hc Hs Hk. destruct (held_corrected argsort chunk k Hc Hs) as (fc' & E & V).
  rewrite (one_point erfc rdiag cdiag argsort chunk junk (Some Realspace) false _ (Some fc') fc' []); [|discriminate|unfold asr_of; cbn [at_gamma p_asr new_fc o_asr o_d]; rewrite E; reflexivity].
  cbn [o_d o_mass o_born o_diel new_fc].
  destruct (cdiag_solve (full_dyn_mat (held k) (images_of (new_fc (held k) mass1 None unit_cell3)) (fc_img_weighted (images_of (new_fc (held k) mass1 None unit_cell3)) junk fc') None None None unit_cell3 vzero None) (fun _ => - (1 / 10 ^ 8 * Rabs k))) as (md & Em & Fm).
  { intros a b A B. unfold full_dyn_mat. change (dyn_mat _ 2 _ _ vzero a b) with (interp_dyn_mat (with_fc (held k) fc') junk vzero a b). rewrite held_dyn by assumption. rewrite V by assumption. destruct (Nat.eqb a b); reflexivity. }
  change (n_atoms (held k)) with 1%nat. change (3 * 1)%nat with 3%nat. rewrite Em. exists md. split; [reflexivity|].
  rewrite Fm by lia. rewrite Rabs_pos_eq by lra. apply freq_neg. apply Rmult_lt_0_compat; [|exact Hk]. apply Rdiv_lt_0_compat; [lra|]. apply pow_lt. lra.
Qed.
Lemma fc_stale erfc argsort chunk junk junk' junk'' : (0 < chunk)%nat -> sorts argsort ->
  let x := new_fc (held 1) mass1 None unit_cell3 in
  let o := at_gamma (Some Realspace) false in
  let res := result erfc rdiag cdiag argsort chunk in
  exists r r', res junk' o (set_force_constants (next erfc rdiag cdiag argsort chunk x (junk, o)) (f_fc (held 4))) = Ok r /\
    res junk'' o (new_fc (held 4) mass1 None unit_cell3) = Ok r' /\ r <> r'.
Proof.
  intros Hc Hs x o res. destruct (fresh_held erfc argsort chunk junk 1 Hc Hs ltac:(lra)) as (m1 & E1 & F1).
  destruct (fresh_held erfc argsort chunk junk'' 4 Hc Hs ltac:(lra)) as (m4 & E4 & F4). fold x o res in E1. fold o res in E4.
  exists ([vzero], [1 / INR 1], [m1]), ([vzero], [1 / INR 1], [m4]). split; [|split; [exact E4|]].
  - unfold res. rewrite (setter_ignored erfc rdiag cdiag argsort chunk x junk o _ junk' o _ eq_refl E1 eq_refl).
    change (next erfc rdiag cdiag argsort chunk x (junk, o)) with (after erfc rdiag cdiag argsort chunk x [(junk, o)]).
    unfold x. rewrite (history erfc rdiag cdiag argsort chunk (held 1) mass1 None unit_cell3 [(junk, o)] junk' junk o). exact E1.
  - intros E. assert (m1 = m4) as Em by congruence. rewrite Em in F1. rewrite F1 in F4. 
    assert (S4 : sqrt (1 / 10 ^ 8 * 4) = 2 * sqrt (1 / 10 ^ 8 * 1)).
    { apply sqrt_lem_1; [apply Rlt_le, Rmult_lt_0_compat; [apply Rdiv_lt_0_compat; [lra|apply pow_lt; lra]|lra]|pose proof (sqrt_pos (1 / 10 ^ 8 * 1)); lra|].
      transitivity (4 * (sqrt (1 / 10 ^ 8 * 1) * sqrt (1 / 10 ^ 8 * 1))); [ring|]. rewrite sqrt_sqrt; [ring|]. apply Rlt_le, Rmult_lt_0_compat; [apply Rdiv_lt_0_compat; [lra|apply pow_lt; lra]|lra]. }
    rewrite S4 in F4. assert (0 < sqrt (1 / 10 ^ 8 * 1)) by (apply sqrt_lt_R0, Rmult_lt_0_compat; [apply Rdiv_lt_0_compat; [lra|apply pow_lt; lra]|lra]). lra.
Qed.

(** ** Born charges and dielectric tensor *)
Lemma S_sym l2 e M a b : S l2 e M a b = S l2 e M b a.
Proof. unfold S. apply Sum_ext. intros g _. apply recip_term_sym. Qed.
(** Stored data for (b0, e0), used with (b, e): a multiple of the identity-like diagonal. *)
Lemma mixed_dipole erfc b0 e0 b e : 0 < e0 -> 0 < e -> exists f : nat -> R,
  (forall x y, (x < 3)%nat -> (y < 3)%nat -> dipole_correction unit_cell3 [vzero] (fun _ => iso b) (iso e) (dd erfc b0 e0) vzero x y = if Nat.eqb x y then RtoC (f x) else Czero) /\
  forall x, (x < 3)%nat -> exists l2 M, 0 < l2 /\ (1 <= M)%nat /\ exists c, 0 < c /\ f x = c * (b * b * S l2 e M x x - b0 * b0 * S l2 e0 M x x).
Proof.
  intros E0 E. exists (fun x => re (dipole_correction unit_cell3 [vzero] (fun _ => iso b) (iso e) (dd erfc b0 e0) vzero x x)). split.
  - intros x y X Y. destruct (stale_dipole erfc b0 e0 E0 b e x y X Y) as (M & M1 & H). destruct (Nat.eqb_spec x y) as [->|N].
    + rewrite H. reflexivity.
    + rewrite H. rewrite !S_off by (try apply l2_pos; auto). apply C_eq; cbn; ring.
  - intros x X. destruct (stale_dipole erfc b0 e0 E0 b e x x X X) as (M & M1 & H). exists (lam1 e0 ^ 2), M. split; [apply l2_pos|]. split; [exact M1|]. exists (factor e0). split; [apply factor_pos|].
    rewrite H. cbn [re RtoC]. field.
Qed.
(** Same modes for two matrices that differ by a diagonal without zeros: impossible. *)
Lemma modes_differ ceigh D D' (g g' : nat -> R) md md' : csolves ceigh ->
  (forall a b, (a < 3)%nat -> (b < 3)%nat -> D a b = if Nat.eqb a b then RtoC (g a) else Czero) ->
  (forall a b, (a < 3)%nat -> (b < 3)%nat -> D' a b = if Nat.eqb a b then RtoC (g' a) else Czero) ->
  (forall a, (a < 3)%nat -> g a <> g' a) ->
  solve ceigh 3 mass1 D None = Some md -> solve ceigh 3 mass1 D' None = Some md' -> md <> md'.
Proof.
  intros Hs HD HD' Hg E E' <-.
  assert (K : forall D0 (g0 : nat -> R), (forall a b, (a < 3)%nat -> (b < 3)%nat -> D0 a b = if Nat.eqb a b then RtoC (g0 a) else Czero) -> solve ceigh 3 mass1 D0 None = Some md ->
     (forall i, (i < 3)%nat -> Cscal (g0 i) (m_evec md 0 i) = Cscal (m_freq md 0 * Rabs (m_freq md 0)) (m_evec md 0 i)) /\ corthonormal 3 (fun i m => m_evec md m i)).
  { intros D0 g0 H0 E0. apply solve_modes in E0; [|exact Hs|].
    - destruct E0 as [E1 E2]. split; [|exact E2]. intros i I. specialize (E1 0%nat ltac:(lia) i I). rewrite <- E1.
      rewrite (Csum_single _ i); [|apply seq_NoDup|apply in_seq; lia|].
      + rewrite H0, Nat.eqb_refl by assumption. replace (1 * 1) with 1 by ring. rewrite sqrt_1. apply C_eq; cbn; field.
      + intros j J N. apply in_seq in J. rewrite H0 by lia. destruct (Nat.eqb_spec i j); [congruence|]. apply C_eq; cbn; ring.
    - intros a b A B. rewrite !H0 by assumption. rewrite Nat.eqb_sym. destruct (Nat.eqb_spec a b) as [->|]; apply C_eq; cbn; ring. }
  destruct (K D g HD E) as [K1 K2]. destruct (K D' g' HD' E') as [K3 _].
  assert (Z : forall i, (i < 3)%nat -> m_evec md 0 i = Czero).
  { intros i I. pose proof (K1 i I) as P1. pose proof (K3 i I) as P3. rewrite <- P3 in P1. specialize (Hg i I).
    destruct (m_evec md 0 i) as [u w]. apply (f_equal (fun z => (re z, im z))) in P1. cbn in P1. injection P1 as P1 P2.
    assert ((g i - g' i) * u = 0) as Q1 by lra. assert ((g i - g' i) * w = 0) as Q2 by lra.
    apply Rmult_integral in Q1. apply Rmult_integral in Q2. destruct Q1 as [Q1|Q1]; [lra|]. destruct Q2 as [Q2|Q2]; [lra|]. apply C_eq; cbn; lra. }
  specialize (K2 0%nat 0%nat ltac:(lia) ltac:(lia)). cbn [Nat.eqb] in K2. rewrite Csum_zero_ext in K2.
  - apply (f_equal re) in K2. cbn in K2. lra.
  - intros i I. apply in_seq in I. rewrite Z by lia. apply C_eq; cbn; ring.
Qed.

Section P.
Variable erfc : R -> R.
Variable reigh : real_eigh.
Variable ceigh : complex_eigh.
Variable argsort : list R -> list nat.
Variable chunk : nat.
Notation result := (result erfc reigh ceigh argsort chunk).
Notation next := (next erfc reigh ceigh argsort chunk).
Notation o := (at_gamma None true).
Definition ion (b e : R) : fcobj := new_fc (held 1) mass1 (Some (fun _ => iso b)) (iso e).
Lemma ion_next junk b e : next (ion b e) (junk, o) = mkObj (held 1) mass1 (Some (fun _ => iso b)) (iso e) (Some (sc_images (held 1) 2)) (Some (1, dd erfc b e)) None.
Proof.
  unfold M_calc.next, M_calc.call. cbn [fst snd]. change (weights_ok o) with true. cbn [negb]. destruct (q_dirs_ok (ion b e) o) as [l El]. rewrite El. reflexivity.
Qed.
(** The result of an object with stored data for (b0, e0) and current values (b, e). *)
Lemma mixed_result junk b0 e0 b e im : 0 < e0 -> 0 < e -> (im = None \/ im = Some (sc_images (held 1) 2)) ->
  exists D f, result junk o (mkObj (held 1) mass1 (Some (fun _ => iso b)) (iso e) im (Some (1, dd erfc b0 e0)) None)
     = match solve ceigh 3 mass1 D None with Some md => Ok ([vzero], [1 / INR 1], [md]) | None => Err NotConverged end /\
    (forall x y, (x < 3)%nat -> (y < 3)%nat -> D x y = if Nat.eqb x y then RtoC (1 + f x) else Czero) /\
    forall x, (x < 3)%nat -> exists l2 M, 0 < l2 /\ (1 <= M)%nat /\ exists c, 0 < c /\ f x = c * (b * b * S l2 e M x x - b0 * b0 * S l2 e0 M x x).
Proof.
  intros E0 E Him. destruct (mixed_dipole erfc b0 e0 b e E0 E) as (f & F1 & F2).
  set (y := mkObj _ _ _ _ _ _ _).
  rewrite (one_point erfc reigh ceigh argsort chunk junk None true y None (f_fc (held 1)) []) by (discriminate || reflexivity).
  assert (I2 : images_of y = sc_images (held 1) 2) by (destruct Him as [-> | ->]; reflexivity). rewrite I2.
  assert (Dp : dipole_of erfc y o = Some (1, dd erfc b0 e0)).
  { unfold dipole_of, y. cbn [o_born p_dipole at_gamma o_dip p_param]. destruct (Reqb_spec 1 1); [reflexivity|contradiction]. }
  rewrite Dp. cbn [y o_d o_mass o_born o_diel]. change (3 * n_atoms (held 1))%nat with 3%nat.
  eexists. exists f. split; [reflexivity|]. split; [|exact F2].
  intros x z X Z. unfold full_dyn_mat. change (dyn_mat _ 2 _ _ vzero x z) with (interp_dyn_mat (with_fc (held 1) (f_fc (held 1))) junk vzero x z).
  rewrite held_dyn by assumption. cbn [held f_cell f_atom_r f_fc]. rewrite F1 by assumption. destruct (Nat.eqb x z); apply C_eq; cbn; ring.
Qed.
Lemma fresh_ion junk b e : result junk o (ion b e) = result junk o (mkObj (held 1) mass1 (Some (fun _ => iso b)) (iso e) None (Some (1, dd erfc b e)) None).
Proof.
  rewrite !(one_point erfc reigh ceigh argsort chunk junk None true _ None (f_fc (held 1)) []) by (discriminate || reflexivity).
  assert (Dp : dipole_of erfc (mkObj (held 1) mass1 (Some (fun _ => iso b)) (iso e) None (Some (1, dd erfc b e)) None) o = Some (1, dd erfc b e)).
  { unfold dipole_of. cbn [o_born p_dipole at_gamma o_dip p_param]. destruct (Reqb_spec 1 1); [reflexivity|contradiction]. }
  rewrite Dp. reflexivity.
Qed.
(** General form of the two refutations. *)
Lemma polar_stale junk' junk'' b e r r' : csolves ceigh -> 0 < e ->
  (forall l2 M x, 0 < l2 -> (1 <= M)%nat -> (x < 3)%nat -> b * b * S l2 e M x x <> 1 * 1 * S l2 1 M x x) ->
  result junk' o (mkObj (held 1) mass1 (Some (fun _ => iso b)) (iso e) (Some (sc_images (held 1) 2)) (Some (1, dd erfc 1 1)) None) = Ok r ->
  result junk'' o (ion b e) = Ok r' -> r <> r'.
Proof.
  intros Hs He Hn H1 H2 Er. rewrite fresh_ion in H2.
  destruct (mixed_result junk' 1 1 b e (Some (sc_images (held 1) 2)) ltac:(lra) He ltac:(now right)) as (D & f & R1 & HD & Hf).
  destruct (mixed_result junk'' b e b e None He He ltac:(now left)) as (D' & f' & R2 & HD' & Hf').
  rewrite R1 in H1. rewrite R2 in H2. destruct (solve ceigh 3 mass1 D None) as [md|] eqn:S1; [|discriminate]. destruct (solve ceigh 3 mass1 D' None) as [md'|] eqn:S2; [|discriminate].
  apply (modes_differ ceigh D D' (fun x => 1 + f x) (fun x => 1 + f' x) md md' Hs HD HD'); [|exact S1|exact S2|congruence].
  intros x X Q. destruct (Hf x X) as (l2 & M & L & M1 & c & Hc & Ef). destruct (Hf' x X) as (l2' & M' & _ & _ & c' & _ & Ef'). 
  assert (f' x = 0) as Z by (rewrite Ef'; ring). assert (f x = 0) as Z' by lra. rewrite Ef in Z'. apply Rmult_integral in Z'. destruct Z' as [Z'|Z']; [lra|]. specialize (Hn l2 M x L M1 X). lra.
Qed.
Lemma born_stale junk junk' junk'' r r' : csolves ceigh ->
  result junk' o (set_born (next (ion 1 1) (junk, o)) (fun _ => iso 2)) = Ok r ->
  result junk'' o (ion 2 1) = Ok r' -> r <> r'.
Proof.
  intros Hs H1. rewrite ion_next in H1. apply (polar_stale junk'); [exact Hs|lra| |exact H1].
  intros l2 M x L M1 X. pose proof (S_pos l2 1 M x L Rlt_0_1 M1 X). lra.
Qed.
Lemma diel_stale junk junk' junk'' r r' : csolves ceigh ->
  result junk' o (set_dielectric (next (ion 1 1) (junk, o)) (iso 2)) = Ok r ->
  result junk'' o (ion 1 2) = Ok r' -> r <> r'.
Proof.
  intros Hs H1. rewrite ion_next in H1. apply (polar_stale junk'); [exact Hs|lra| |exact H1].
  intros l2 M x L M1 X. pose proof (S_decay l2 M x L M1 X). lra.
Qed.
End P.
(** Both calls succeed with the solver for diagonal matrices. *)
Lemma ion_runs erfc reigh argsort chunk junk b0 e0 b e im : 0 < e0 -> 0 < e -> (im = None \/ im = Some (sc_images (held 1) 2)) ->
  exists r, result erfc reigh cdiag argsort chunk junk (at_gamma None true) (mkObj (held 1) mass1 (Some (fun _ => iso b)) (iso e) im (Some (1, dd erfc b0 e0)) None) = Ok r.
Proof.
  intros E0 E I. destruct (mixed_result erfc reigh cdiag argsort chunk junk b0 e0 b e im E0 E I) as (D & f & R1 & HD & _). rewrite R1.
  destruct (cdiag_solve D (fun x => 1 + f x) HD) as (md & -> & _). eexists. reflexivity.
Qed.
