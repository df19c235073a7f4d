(** The acoustic modes of whole calculations (C90). *)
From Verif Require Import Base Cpx Vec3 M_grid M_cell M_qpts M_dynmat M_dipole M_struct M_asr M_calc
  S_qpts S_dynmat S_dipole S_struct S_asr S_calc S_acoustic L_util L_qpts L_dynmat2 L_near L_dipole L_nac L_conv L_chain L_asr3 L_spectral L_calc4 L_calc5 L_calc7 L_calc9 L_acoustic L_acoustic2.
From Verif Require L_calc L_calc2 L_calc6 L_bands3.
Open Scope R_scope.

(** When the dipole part is balanced *)
Section Bal.
Variable erfc : R -> R.
Variable cell : M3.
Variable atom_r : list V3.
Variable born : nat -> M3.
Variable diel : M3.
Variable dp : R.
Hypothesis Hs : symmetric3 diel.
Notation n := (length atom_r).
Notation dd := (dipole_init erfc cell atom_r born diel dp).
Notation diff0 := (dip_diff cell atom_r diel dd vzero).
Lemma diff_sym i j a b : (i < n)%nat -> (j < n)%nat -> diff0 i j a b = diff0 i j b a.
Proof.
  intros I J. pose proof (dipole_init_ok erfc cell atom_r born diel dp) as OK. destruct (Nat.le_gt_cases i j) as [L|L].
  - exact (dip_diff_sym erfc cell atom_r diel dd _ OK Hs vzero i j a b L J).
  - rewrite !(dip_diff_lower cell atom_r diel dd vzero i j) by exact L. f_equal. exact (dip_diff_sym erfc cell atom_r diel dd _ OK Hs vzero j i a b ltac:(lia) I).
Qed.
Lemma balanced_net : (forall i a b, (i < n)%nat -> (a < 3)%nat -> (b < 3)%nat -> net erfc cell atom_r born diel dp i a b = net erfc cell atom_r born diel dp i b a) ->
  balanced n (dipole_correction cell atom_r born diel dd vzero).
Proof. intros H i a b I A B. rewrite !dip_rows by assumption. rewrite (H i a b I A B). reflexivity. Qed.
Lemma one_atom_balanced : n = 1%nat -> balanced n (dipole_correction cell atom_r born diel dd vzero).
Proof.
  intros N. apply balanced_net. intros i a b I A B. unfold net. apply Csum_ext. intros j J. apply in_seq in J. assert (i = 0 /\ j = 0)%nat as [-> ->] by lia.
  unfold born_contract. rewrite Csum_exchange. apply Csum_ext. intros a' _. apply Csum_ext. intros b' _. rewrite (diff_sym 0 0 b' a') by lia. f_equal. ring.
Qed.
Lemma isotropic_balanced z : (forall i, (i < n)%nat -> born i = iso (z i)) -> balanced n (dipole_correction cell atom_r born diel dd vzero).
Proof.
  intros Z. apply balanced_net. intros i a b I A B. unfold net. apply Csum_ext. intros j J. apply in_seq in J. assert (J' : (j < n)%nat) by lia.
  assert (E : forall a b, (a < 3)%nat -> (b < 3)%nat -> born_contract born diff0 i j a b = Cscal (z i * z j) (diff0 i j a b)).
  { intros x y X Y. unfold born_contract. rewrite (Z i I), (Z j J'). unfold idx3. rewrite !Csum_cons, !Csum_nil. unfold iso.
    destruct x as [|[|[|x]]]; try lia; destruct y as [|[|[|y]]]; try lia; cbn [mget row comp]; apply C_eq; cbn [re im Cadd Cscal Czero]; ring. }
  rewrite !E by assumption. rewrite (diff_sym i j a b I J'). reflexivity.
Qed.
(** The part that is left is turned when directions are exchanged. *)
Lemma dip_rows_odd i a b : (i < n)%nat -> (a < 3)%nat -> (b < 3)%nat ->
  Csum (seq 0 n) (fun k => dipole_correction cell atom_r born diel dd vzero (3 * i + a) (3 * k + b))
  = Copp (Csum (seq 0 n) (fun k => dipole_correction cell atom_r born diel dd vzero (3 * i + b) (3 * k + a))).
Proof. intros I A B. rewrite !dip_rows by assumption. apply C_eq; cbn; ring. Qed.
End Bal.

Section Res.
Variable erfc : R -> R.
Variable reigh : real_eigh.
Variable ceigh : complex_eigh.
Variable argsort : list R -> list nat.
Variable chunk : nat.
Variables (d : fcdata) (mass : nat -> R) (born : option (nat -> M3)) (diel : M3).
Notation obj := (new_fc d mass born diel).
Notation result := (result erfc reigh ceigh argsort chunk).
Notation after := (after erfc reigh ceigh argsort chunk).
Hypothesis Hh : home_first d.
Hypothesis Hc : search_complete d.
Hypothesis Hd : det3 (zrows (f_sc d)) <> 0.
Hypothesis Hf : fc_symmetric d.
Hypothesis He : symmetric3 diel.
Hypothesis Hs : csolves ceigh.
Hypothesis Hm : forall i, (i < n_atoms d)%nat -> 0 < mass i.
Hypothesis Hn : (0 < n_atoms d)%nat.
Hypothesis Hr : sum_rule d.
Definition charges_fit (o : options) : Prop :=
  match born with
  | Some bo => p_dipole o = true ->
      balanced (n_atoms d) (dipole_correction (f_cell d) (f_atom_r d) bo diel (dipole_init erfc (f_cell d) (f_atom_r d) bo diel (p_param o)) vzero) /\
      (p_splitting o = true -> neutral (n_atoms d) bo)
  | None => True
  end.
Lemma fit_dir o (dir : option V3) : charges_fit o -> (dir <> None -> p_splitting o = true) ->
  match born with
  | Some bo => p_dipole o = true -> balanced (n_atoms d) (dipole_correction (f_cell d) (f_atom_r d) bo diel (dipole_init erfc (f_cell d) (f_atom_r d) bo diel (p_param o)) vzero)
                 /\ match dir with Some _ => neutral (n_atoms d) bo | None => True end
  | None => True
  end.
Proof. unfold charges_fit. intros H Q. destruct born as [bo|]; [|exact I]. intros P. destruct (H P) as [H1 H2]. split; [exact H1|]. destruct dir; [apply H2, Q; discriminate|exact I]. Qed.
Lemma acoustic_result cs junk o qpts w ms : p_asr o = None -> charges_fit o -> result junk o (after obj cs) = Ok (qpts, w, ms) ->
  forall k q md, nth_error qpts k = Some q -> (q = vzero \/ (p_reduce o = true /\ is_gamma q = true)) -> nth_error ms k = Some md -> acoustic_modes (n_atoms d) mass md.
Proof.
  intros Ha Hq R k q md Kq G Kmd. destruct (modes_fourier erfc reigh ceigh argsort chunk d mass born diel Hh Hc Hd Hf He Hs) as (L & HL & F).
  destruct (F cs junk o qpts w ms Ha R) as (_ & _ & F'). destruct (F' k q Kq) as (md' & Kmd' & M). assert (md' = md) as -> by congruence.
  assert (Z : (if (p_reduce o && is_gamma q)%bool then vzero else q) = vzero). { destruct G as [-> | [-> ->]]; [destruct (p_reduce o && is_gamma vzero)%bool; reflexivity|reflexivity]. }
  rewrite Z in M. eapply acoustic; [exact Hm|exact M| |exact Hn]. apply whole_no_force; [exact HL|exact Hr|].
  apply fit_dir; [exact Hq|]. destruct (p_splitting o); [reflexivity|]. cbn [andb]. congruence.
Qed.
Hypothesis Hchunk : (0 < chunk)%nat.
Hypothesis Hdet : zdet3 (f_sc d) <> 0%Z.
Hypothesis Hbig : (Z.abs (zdet3 (f_sc d)) < 2 ^ 48)%Z.
Hypothesis Hdist : distinct_cells d.
Hypothesis Hsort : sorts argsort.
Hypothesis Hsol : solves reigh.
Lemma acoustic_realspace cs junk o qpts w ms : p_asr o = Some Realspace -> charges_fit o -> result junk o (after obj cs) = Ok (qpts, w, ms) ->
  forall k q md, nth_error qpts k = Some q -> (q = vzero \/ (p_reduce o = true /\ is_gamma q = true)) -> nth_error ms k = Some md -> acoustic_modes (n_atoms d) mass md.
Proof.
  intros Ha Hq R k q md Kq G Kmd.
  destruct (enforce_realspace_asr reigh argsort chunk d) as [[wn fc']|e] eqn:En.
  2:{ exfalso. rewrite (L_calc.history _ _ _ _ _ _ _ _ _ _ _ junk) in R. unfold M_calc.result, M_calc.call in R. destruct (weights_ok o); cbn [negb snd] in R; [|discriminate].
      destruct (the_q_dirs obj o); [|discriminate]. unfold asr_of in R. rewrite Ha in R. cbn [o_asr new_fc o_d] in R. rewrite En in R. discriminate. }
  pose proof (kept d chunk reigh argsort Hchunk Hdet Hbig Hh Hdist Hf Hsort wn fc' Hsol Hr En) as K.
  assert (Hf' : fc_symmetric (with_fc d fc')).
  { destruct Hf as (p & P1 & P2). exists p. split; [exact P1|]. intros nc a b A B C0. cbn [with_fc f_fc]. change (n_cells (with_fc d fc')) with (n_cells d) in A. change (n_atoms (with_fc d fc')) with (n_atoms d) in B, C0.
    destruct (P1 nc A) as (P3 & _). rewrite !K by assumption. exact (P2 nc a b A B C0). }
  assert (Hr' : sum_rule (with_fc d fc')).
  { intros a x A X. change (n_cells (with_fc d fc')) with (n_cells d). change (n_atoms (with_fc d fc')) with (n_atoms d) in *. cbn [with_fc f_fc]. rewrite <- (Hr a x A X). apply sumn_ext. intros c C0. apply sumn_ext. intros kk KK. apply K; [exact C0|exact A|lia]. }
  destruct (realspace_modes erfc reigh ceigh argsort chunk d mass born diel Hh Hc Hd He Hs wn fc' En Hf') as (L & HL & F).
  destruct (F cs junk o qpts w ms Ha R) as (_ & _ & F'). destruct (F' k q Kq) as (md' & Kmd' & M). assert (md' = md) as -> by congruence.
  assert (Z : (if (p_reduce o && is_gamma q)%bool then vzero else q) = vzero). { destruct G as [-> | [-> ->]]; [destruct (p_reduce o && is_gamma vzero)%bool; reflexivity|reflexivity]. }
  rewrite Z in M. eapply acoustic; [exact Hm|exact M| |exact Hn].
  refine (whole_no_force erfc (with_fc d fc') born diel (p_dipole o) (p_param o) L _ HL Hr' _).
  apply (fit_dir o); [exact Hq|]. destruct (p_splitting o); [reflexivity|]. cbn [andb]. congruence.
Qed.
End Res.

(** One charged atom in a cube, with no forces of short range *)
Definition along_x : V3 := (1/2, 0, 0).
Lemma along_not_gamma : is_gamma along_x = false.
Proof. unfold along_x. apply half_not_gamma. Qed.
Lemma charged_matrix erfc param L a b : shares_images (held 0) L -> (a < 3)%nat -> (b < 3)%nat ->
  whole_matrix erfc (held 0) (Some (fun _ => iso 1)) (iso 1) true param L vzero (Some along_x) a b = if (Nat.eqb a 0 && Nat.eqb b 0)%bool then RtoC (4 * PI) else Czero.
Proof.
  intros HL A B. unfold whole_matrix. rewrite (shared_gamma (held 0) L a b HL A B).
  assert (F : sumn (n_cells (held 0)) (fun nc => f_fc (held 0) nc a b) = 0). { change (n_cells (held 0)) with 1%nat. unfold sumn. cbn [seq]. rewrite Sum_cons, Sum_nil. cbn [held f_fc]. destruct (Nat.eqb a b); ring. }
  rewrite F.
  pose proof (dip_no_force erfc (f_cell (held 0)) (f_atom_r (held 0)) (fun _ => iso 1) (iso 1) param (one_atom_balanced erfc (f_cell (held 0)) (f_atom_r (held 0)) (fun _ => iso 1) (iso 1) param eq_refl eq_refl) a b A B) as G.
  change (length (f_atom_r (held 0))) with 1%nat in G. cbn [seq] in G. rewrite Csum_cons, Csum_nil in G. replace (3 * 0 + b)%nat with b in G by lia.
  match type of G with Cadd ?u _ = _ => assert (U : u = Czero) by (rewrite <- G; ring); rewrite U end.
  unfold gamma_correction. rewrite along_not_gamma. change (f_cell (held 0)) with unit_cell3. rewrite unit_recip.
  pose proof PI_RGT_0 as P.
  assert (V : vmul along_x ((2 * PI, 0, 0), (0, 2 * PI, 0), (0, 0, 2 * PI)) = (PI, 0, 0)) by (unfold along_x; cbn; apply V3_eq; field). rewrite V.
  assert (W : cell_volume unit_cell3 = 1) by (unfold cell_volume, cell_vectors_to_volume, unit_cell3; cbn; ring). rewrite W.
  match goal with |- context [1 * ?s] => assert (X : s = PI * PI) by (unfold idx3, iso; rewrite !Sum_cons, !Sum_nil; cbn; ring); rewrite X end.
  unfold idx3, iso. rewrite !Sum_cons, !Sum_nil.
  destruct a as [|[|[|a]]]; try lia; destruct b as [|[|[|b]]]; try lia; cbn [Nat.modulo Nat.divmod fst snd mget row comp Nat.eqb andb Nat.sub]; apply C_eq; cbn [re im Cadd RtoC Czero]; field; lra.
Qed.
Lemma charged_modes erfc param L md : shares_images (held 0) L ->
  modes_of 3 (fun _ => 1) (whole_matrix erfc (held 0) (Some (fun _ => iso 1)) (iso 1) true param L vzero (Some along_x)) md -> ~ acoustic_modes 1 (fun _ => 1) md.
Proof.
  intros HL M [(l & N & Ll & Z) _]. pose proof (modes_trace 3 (fun _ => 1) _ md (fun _ _ => Rlt_0_1) M) as T.
  assert (Z' : forall m, (m < 3)%nat -> m_freq md m = 0).
  { intros m Hm. apply Z. assert (I : incl (seq 0 3) l). { apply NoDup_length_incl; [exact N|rewrite seq_length; lia|]. intros x X. apply in_seq. destruct (Z x X). lia. } apply I, in_seq. lia. }
  unfold sumn in T. cbn [seq] in T. rewrite !Sum_cons, !Sum_nil in T. rewrite !Z', !charged_matrix in T by (exact HL || lia). cbn in T. pose proof PI_RGT_0. lra.
Qed.
Lemma charged_have_modes erfc param L : shares_images (held 0) L ->
  exists md, modes_of 3 (fun _ => 1) (whole_matrix erfc (held 0) (Some (fun _ => iso 1)) (iso 1) true param L vzero (Some along_x)) md.
Proof.
  intros HL. set (D := whole_matrix _ _ _ _ _ _ _ _ _).
  assert (E : forall a b, (a < 3)%nat -> (b < 3)%nat -> D a b = if Nat.eqb a b then RtoC (if Nat.eqb a 0 then 4 * PI else 0) else Czero).
  { intros a b A B. unfold D. rewrite charged_matrix by assumption. destruct a as [|[|[|a]]]; try lia; destruct b as [|[|[|b]]]; try lia; reflexivity. }
  destruct (L_calc6.cdiag_solve D _ E) as (md & S1 & _). exists md.
  refine (L_calc2.solve_modes cdiag 3 _ D None md cdiag_solves _ S1).
  intros a b A B. rewrite !E by assumption. rewrite (Nat.eqb_sym b a). destruct (Nat.eqb_spec a b) as [->|]; apply C_eq; cbn; ring.
Qed.
Definition towards (param : R) : options := mkOpts [vzero; along_x] None None true param true false true false.
Lemma charged_result erfc reigh ceigh argsort chunk cs junk param qpts w ms md : csolves ceigh ->
  result erfc reigh ceigh argsort chunk junk (towards param) (after erfc reigh ceigh argsort chunk (new_fc (held 0) (fun _ => 1) (Some (fun _ => iso 1)) (iso 1)) cs) = Ok (qpts, w, ms) ->
  nth_error ms 0 = Some md -> nth_error qpts 0 = Some vzero /\ ~ acoustic_modes 1 (fun _ => 1) md.
Proof.
  intros Hs R Kmd.
  destruct (modes_fourier erfc reigh ceigh argsort chunk (held 0) (fun _ => 1) (Some (fun _ => iso 1)) (iso 1)) as (L & HL & F).
  - apply held_home.
  - exact (orth_complete (held 0) (held_home 0) (held_orth 0) (held_inside 0)).
  - exact (L_bands3.held_det 0).
  - exact (L_bands3.held_sym 0).
  - reflexivity.
  - exact Hs.
  - destruct (F cs junk (towards param) qpts w ms eq_refl R) as (Q & _ & F'). change (the_qpts _ (towards param)) with [vzero; along_x] in Q.
    subst qpts. split; [reflexivity|]. destruct (F' 0%nat vzero eq_refl) as (md' & K & M). assert (md' = md) as -> by congruence.
    cbn [towards p_dipole p_param p_reduce p_splitting andb] in M. rewrite gamma_zero in M.
    assert (A : approach [vzero; along_x] 0 = along_x) by (unfold approach, along_x; cbn; apply V3_eq; ring). rewrite A in M.
    exact (charged_modes erfc param L md HL M).
Qed.

(** The chain of equal springs keeps the sum rule. *)
Lemma chain_rule k : sum_rule (chain k (- k)).
Proof.
  intros a x A X. change (n_atoms (chain k (- k))) with 1%nat in *. change (n_cells (chain k (- k))) with 2%nat. unfold sumn. cbn [seq]. rewrite !Sum_cons, !Sum_nil. cbn [chain f_fc]. destruct (Nat.eqb _ _); ring.
Qed.
Lemma chain_distinct k0 k1 : distinct_cells (chain k0 k1).
Proof.
  intros i j I J S0. change (n_cells (chain k0 k1)) with 2%nat in *.
  destruct i as [|[|i]]; try lia; destruct j as [|[|j]]; try lia; try reflexivity; exfalso; destruct S0 as (m & M); destruct m as [[m1 m2] m3]; unfold zmul3 in M; cbn [chain f_origins f_sc nth zsub3 zadd3] in M.
  - assert (X : (1 = 0 + (m1 * 2 + m2 * 0 + m3 * 0))%Z) by congruence. lia.
  - assert (X : (0 = 1 + (m1 * 2 + m2 * 0 + m3 * 0))%Z) by congruence. lia.
Qed.
Lemma chain_cells k0 k1 : exists t, supercell_relative_idx 100 (f_origins (chain k0 k1)) (f_sc (chain k0 k1)) = Ok t.
Proof.
  apply (L_asr3.rel_exists 100 (chain k0 k1)); [lia|cbn; lia|reflexivity|].
  intros i j I J. change (n_cells (chain k0 k1)) with 2%nat in *.
  exists (if Nat.eqb i j then 0 else 1)%nat. split; [destruct (Nat.eqb i j); lia|].
  destruct i as [|[|i]]; try lia; destruct j as [|[|j]]; try lia.
  - exists (0,0,0)%Z. reflexivity.
  - exists (0,0,0)%Z. reflexivity.
  - exists (-1,0,0)%Z. reflexivity.
  - exists (0,0,0)%Z. reflexivity.
Qed.
Lemma chain_realspace erfc reigh argsort k junk : solves reigh -> sorts argsort ->
  exists r, result erfc reigh cdiag argsort 100 junk (at_gamma (Some Realspace) false) (new_fc (chain k (- k)) (fun _ => 1) None unit_cell3) = Ok r.
Proof.
  intros Hs Ho.
  assert (exists w fc', enforce_realspace_asr reigh argsort 100 (chain k (- k)) = Ok (w, fc')) as (w & fc' & E).
  { unfold enforce_realspace_asr. destruct (chain_cells k (- k)) as (t & ->). cbv zeta. destruct (reigh _ _) as [[ev v]|]; [|eexists; eexists; reflexivity]. destruct (find_acoustic_modes _ _ _); eexists; eexists; reflexivity. }
  pose proof (kept (chain k (- k)) 100 reigh argsort ltac:(lia) ltac:(cbn; lia) eq_refl (chain_home _ _) (chain_distinct _ _) (chain_sym _ _) Ho w fc' Hs (chain_rule k) E) as K.
  rewrite (one_point erfc reigh cdiag argsort 100 junk (Some Realspace) false _ (Some fc') fc' (if w then [] else [RealspaceUncorrected])); [|discriminate|unfold asr_of; cbn [at_gamma p_asr new_fc o_asr o_d]; rewrite E; reflexivity].
  cbn [o_d o_mass o_born o_diel new_fc].
  match goal with |- context [solve cdiag _ _ ?D _] => destruct (L_calc6.cdiag_solve D (fun _ => 0)) as (md & Em & _) end.
  { intros a b A B. unfold full_dyn_mat. change (dyn_mat _ 2 _ _ vzero a b) with (interp_dyn_mat (with_fc (chain k (- k)) fc') junk vzero a b).
    rewrite (gamma_sum_general (with_fc (chain k (- k)) fc') junk a b eq_refl (chain_complete k (- k)) A B). change (n_cells (with_fc _ fc')) with 2%nat. unfold sumn. cbn [seq]. rewrite !Sum_cons, Sum_nil. cbn [with_fc f_fc].
    rewrite !K by (change (n_cells (chain k (- k))) with 2%nat; change (n_atoms (chain k (- k))) with 1%nat; lia). cbn [chain f_fc]. destruct (Nat.eqb a b); apply C_eq; cbn; ring. }
  change (3 * n_atoms (chain k (- k)))%nat with 3%nat. rewrite Em. eexists. reflexivity.
Qed.
Lemma held_rule : sum_rule (held 0).
Proof. intros a x A X. change (n_atoms (held 0)) with 1%nat. change (n_cells (held 0)) with 1%nat. unfold sumn. cbn [seq]. rewrite !Sum_cons, !Sum_nil. cbn [held f_fc]. destruct (Nat.eqb _ _); ring. Qed.
Lemma balanced_cases erfc cell atom_r born diel dp : symmetric3 diel ->
  (forall i, (i < length atom_r)%nat -> exists z, born i = ((z, 0, 0), (0, z, 0), (0, 0, z))) \/ length atom_r = 1%nat ->
  balanced (length atom_r) (dipole_correction cell atom_r born diel (dipole_init erfc cell atom_r born diel dp) vzero).
Proof.
  intros Hs [H|H]; [|exact (one_atom_balanced erfc cell atom_r born diel dp Hs H)].
  apply (isotropic_balanced erfc cell atom_r born diel dp Hs (fun i => mget (born i) 0 0)). intros i I. destruct (H i I) as (z & ->). reflexivity.
Qed.
