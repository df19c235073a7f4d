(** Two descriptions of one crystal: what a user sees. *)
From Coq Require Import Permutation FunctionalExtensionality.
From Verif Require Import Base Cpx Vec3 M_grid M_cell M_qpts M_path M_broad M_dos M_sf M_dynmat M_dipole M_asr M_calc S_dynmat S_dipole S_asr S_calc S_unique S_frame
  L_bands4 L_unique L_unique2 L_unique3 L_calc L_calc7 L_frame L_frame2 L_frame3.
Open Scope R_scope.

Lemma same_dw_refl w : same_dw w w.
Proof. split; [reflexivity|]. split; [reflexivity|]. intros; reflexivity. Qed.

Section Calc.
Variables (erfc : R -> R) (reigh reigh' : real_eigh) (argsort argsort' : list R -> list nat) (chunk chunk' : nat) (ceigh ceigh' : complex_eigh).
Variables (F : frame) (d d' : fcdata) (mass mass' : nat -> R) (born born' : option (nat -> M3)) (diel diel' : M3).
Hypothesis HR : redescribes F d d' mass mass'.
Hypothesis HB : same_charges F (M_dynmat.n_atoms d) born born' diel diel'.
Hypothesis Hh : home_first d. Hypothesis Hh' : home_first d'.
Hypothesis Hc : search_complete d. Hypothesis Hc' : search_complete d'.
Hypothesis Hd : det3 (zrows (f_sc d)) <> 0.
Hypothesis Hf : fc_symmetric d. Hypothesis Hf' : fc_symmetric d'.
Hypothesis He : symmetric3 diel. Hypothesis He' : symmetric3 diel'.
Hypothesis Hs : csolves ceigh. Hypothesis Hs' : csolves ceigh'.
Notation n := (M_dynmat.n_atoms d).

Variables (cs cs' : list ((nat -> nat -> nat -> R) * options)) (junk junk' : nat -> nat -> nat -> R) (o : options) (r r' : list V3 * list R * list modes).
Hypothesis Ha : p_asr o = None.
Hypothesis H : result erfc reigh ceigh argsort chunk junk o (after erfc reigh ceigh argsort chunk (new_fc d mass born diel) cs) = Ok r.
Hypothesis H' : result erfc reigh' ceigh' argsort' chunk' junk' o (after erfc reigh' ceigh' argsort' chunk' (new_fc d' mass' born' diel') cs') = Ok r'.
Notation e := (table_of n r).
Notation e' := (table_of n r').

Definition used_q (k : nat) : V3 := let q := nth k (fst (fst r)) vzero in if (p_reduce o && is_gamma q)%bool then vzero else q.
Definition used_u (k : nat) : nat -> C := site_phase F (used_q k).
Lemma tables : fst (fst r) = fst (fst r') /\ same_points e e' /\
  exists A, table_modes e mass A /\ forall u, (forall q i, (q < length (fst (fst r)))%nat -> (i < n)%nat -> u q i = used_u q i) -> table_modes (seen_table F u e') mass A.
Proof. exact (two_tables erfc reigh reigh' argsort argsort' chunk chunk' ceigh ceigh' F d d' mass mass' born born' diel diel' HR HB Hh Hh' Hc Hc' Hd Hf Hf' He He' Hs Hs' cs cs' junk junk' o r r' Ha H H'). Qed.
Lemma HPn : renumbers n (fr_p F) (fr_p' F). Proof. apply HR. Qed.
Lemma HOn : orthogonal (fr_G F). Proof. apply HR. Qed.
Lemma na' x : M_dos.n_atoms (table_of n x) = n. Proof. destruct x as [[? ?] ?]. reflexivity. Qed.
Lemma used_unit q i : (i < n)%nat -> Cmul (Cconj (used_u q i)) (used_u q i) = Cone. Proof. intros _. apply phase_one. Qed.
Lemma seen_points u : same_points e e' -> same_points e (seen_table F u e'). Proof. intros S0. exact S0. Qed.
Lemma shape : nq (et e) = length (fst (fst r)) /\ nm (et e) = (3 * n)%nat /\ nm (et e') = (3 * n)%nat.
Proof. destruct r as [[? ?] ?], r' as [[? ?] ?]. split; [|split]; reflexivity. Qed.

Lemma same_results :
  fst (fst r) = fst (fst r') /\ same_points e e' /\
  (forall q, (q < length (fst (fst r)))%nat -> Permutation (map (freq (et e) q) (seq 0 (3 * n))) (map (freq (et e') q) (seq 0 (3 * n)))) /\
  (csorts ceigh -> csorts ceigh' -> forall q m, (q < length (fst (fst r)))%nat -> (m < 3 * n)%nat -> freq (et e) q m = freq (et e') q m) /\
  (forall k bins wmin meth, calculate_dos k bins (et e) None wmin meth = calculate_dos k bins (et e') None wmin meth) /\
  (forall k bins wmin meth sec sec' l, related_opt (same_sections F n) sec sec' -> calculate_pdos k bins e None wmin meth sec = Ok l ->
     exists l', calculate_pdos k bins e' None wmin meth sec' = Ok l' /\ same_atoms F n l l') /\
  (forall chk x x' sl sl' kB temp fmin ops ops', redescribes_xtal F n x x' sl sl' -> related_opt (Forall2 (same_op F n)) ops ops' ->
     related (turned_dw F) (calculate_debye_waller chk e x kB temp fmin ops) (calculate_debye_waller chk e' x' kB temp fmin ops')).
Proof.
  destruct tables as (Q & S0 & A & M & M'). specialize (M' used_u (fun q i _ _ => eq_refl)). destruct shape as (Nq & Nm & Nm').
  pose proof (seen_points used_u S0) as S1.
  split; [exact Q|]. split; [exact S0|]. split; [|split; [|split; [|split]]].
  - intros q Hq. destruct M as [_ M]. destruct M' as [_ M']. rewrite <- Nq in Hq. specialize (M q Hq).
    assert (Hq' : (q < nq (et e'))%nat) by (destruct S0 as (_ & X & _); rewrite <- X; exact Hq). specialize (M' q Hq').
    change (M_dos.n_atoms (seen_table F used_u e')) with (M_dos.n_atoms e') in M'. rewrite na' in M, M'. exact (modes_perm _ _ _ _ _ M M').
  - intros O1 O2 q m Hq Hm. destruct M as [_ M]. destruct M' as [_ M']. rewrite <- Nq in Hq. specialize (M q Hq).
    assert (Hq' : (q < nq (et e'))%nat) by (destruct S0 as (_ & X & _); rewrite <- X; exact Hq). specialize (M' q Hq').
    change (M_dos.n_atoms (seen_table F used_u e')) with (M_dos.n_atoms e') in M'. rewrite na' in M, M'.
    pose proof HR as (_ & _ & En & _). rewrite Nq in Hq. pose proof Q as Q1.
    refine (modes_equal _ _ _ _ _ M M' _ _ m Hm); cbn [modes_at m_freq seen_table et].
    + pose (j := fun _ _ _ : nat => 0). pose proof H as Hr. rewrite (history _ _ _ _ _ _ _ _ _ _ _ j) in Hr. destruct r as [[qpts w] ms]. cbn [fst] in *.
      destruct (call_solves erfc reigh argsort chunk ceigh j o (new_fc d mass born diel) qpts w ms ltac:(congruence) Hr) as (kp & fcx & wn & _ & _ & _ & _ & P).
      destruct (P q _ (nth_error_at qpts q vzero Hq)) as (md & Gm & M1 & M2). cbn [table_of freq et]. rewrite (nth_error_nth _ _ _ M1). exact (solve_ascending _ _ _ _ _ _ O1 M2).
    + pose (j := fun _ _ _ : nat => 0). pose proof H' as Hr. rewrite (history _ _ _ _ _ _ _ _ _ _ _ j) in Hr. destruct r' as [[qpts w] ms]. cbn [fst] in *. rewrite Q1 in Hq.
      destruct (call_solves erfc reigh' argsort' chunk' ceigh' j o (new_fc d' mass' born' diel') qpts w ms ltac:(congruence) Hr) as (kp & fcx & wn & _ & _ & _ & _ & P).
      destruct (P q _ (nth_error_at qpts q vzero Hq)) as (md & Gm & M1 & M2). cbn [table_of freq et]. rewrite (nth_error_nth _ _ _ M1).
      pose proof (solve_ascending _ _ _ _ _ _ O2 M2) as K. cbn [o_d new_fc] in K. rewrite En in K. exact K.
  - intros k bins wmin meth. exact (dos_same e (seen_table F used_u e') mass A S1 M M' k bins wmin meth).
  - intros k bins wmin meth sec sec' l Rs Hl. rewrite (pdos_same e (seen_table F used_u e') mass A S1 M M' k bins wmin meth sec) in Hl.
    exact (pdos_turn F n HPn HOn e' used_u (na' r') used_unit k bins wmin meth sec sec' l Rs Hl).
  - intros chk x x' sl sl' kB temp fmin ops ops' Rx Ro.
    pose proof (dw_same e (seen_table F used_u e') mass A S1 M M' chk x kB temp fmin ops) as D1.
    assert (Mx : forall k, (k < n)%nat -> M_sf.mass x' k = M_sf.mass x (fr_p F k)) by (intros k Hk; apply (proj2 Rx k Hk)).
    pose proof (dw_turn F n HPn HOn e' used_u (na' r') used_unit chk x x' kB temp fmin ops ops' Mx Ro) as D2.
    destruct (calculate_debye_waller chk e x kB temp fmin ops) as [w|er] eqn:E1, (calculate_debye_waller chk (seen_table F used_u e') x kB temp fmin ops) as [w1|er1] eqn:E2, (calculate_debye_waller chk e' x' kB temp fmin ops') as [w2|er2] eqn:E3; try contradiction; [|congruence].
    cbn [related] in D1, D2 |- *. destruct D1 as (A1 & A2 & A3). destruct D2 as (B1 & B2 & B3).
    assert (Nw : dw_n w2 = n).
    { unfold calculate_debye_waller in E3. destruct (_ || _)%bool; [discriminate|]. destruct ops' as [[|? ?]|]; [discriminate| |]; injection E3 as <-; cbn [dw_n]; apply na'. }
    split; [congruence|]. split; [congruence|]. intros i a b Hi Ha0 Hb. rewrite <- B1 in B3. rewrite (B3 i a b) by (try assumption; congruence || (rewrite B1, <- A1; exact Hi)).
    apply (turned_ext F n e' (na' r')). intros a0 b0 Xa Xb. symmetry. apply A3; [|assumption|assumption]. rewrite A1, <- B1, Nw. destruct (HPn i) as [Y _]; [rewrite <- Nw, B1, <- A1; exact Hi|exact Y].
Qed.

(** Atoms stay in their unit cells, or q-points are not reduced, or those close to lattice vectors are lattice vectors. *)
Lemma same_maps_seen : 
  (p_reduce o = false \/ (forall i, (i < n)%nat -> fr_T F i = (0,0,0)%Z) \/ (forall q, In q (fst (fst r)) -> is_gamma q = true -> exists g, q = zvec g)) ->
  forall x x' sl sl' dw dw', redescribes_xtal F n x x' sl sl' -> related_opt (turned_dw F) dw dw' ->
  related same_maps (calculate_structure_factor e x sl dw (fun k => nth k (fst (fst r)) vzero)) (calculate_structure_factor e' x' sl' dw' (fun k => nth k (fst (fst r')) vzero)).
Proof.
  intros Hq x x' sl sl' dw dw' Rx Rd. destruct tables as (Q & S0 & A & M & M'). set (qpt := fun k => nth k (fst (fst r)) vzero).
  assert (U : forall q i, (q < length (fst (fst r)))%nat -> (i < n)%nat -> site_phase F (qpt q) i = used_u q i).
  { intros q i Lq Hi. unfold used_u, used_q. fold (qpt q). cbv zeta. destruct (p_reduce o) eqn:Er; cbn [andb]; [|reflexivity]. destruct (is_gamma (qpt q)) eqn:Eg; [|reflexivity].
    unfold site_phase. destruct Hq as [Hq|[Hq|Hq]]; [discriminate| |].
    - rewrite (Hq i Hi). f_equal. destruct (qpt q) as [[? ?] ?]. cbn. ring.
    - destruct (Hq (qpt q)) as [g Eq]; [apply nth_In; exact Lq|exact Eg|]. rewrite Eq.
      replace (2 * PI * dot vzero (zvec (fr_T F i))) with 0 by (destruct (zvec (fr_T F i)) as [[? ?] ?]; cbn; ring). rewrite cis_0.
      destruct g as [[g1 g2] g3], (fr_T F i) as [[t1 t2] t3]. replace (2 * PI * dot (zvec (g1, g2, g3)) (zvec (t1, t2, t3))) with (0 + 2 * PI * IZR (g1 * t1 + g2 * t2 + g3 * t3)).
      + rewrite cis_period. apply cis_0.
      + rewrite !plus_IZR, !mult_IZR. cbn. ring. }
  specialize (M' (fun q => site_phase F (qpt q)) U). rewrite <- Q. fold qpt.
  pose proof (sf_same e (seen_table F (fun q => site_phase F (qpt q)) e') mass A (seen_points _ S0) M M' x sl qpt dw dw) as K.
  rewrite (sf_turn F n x x' sl sl' HPn HOn Rx e' qpt (na' r') dw dw' Rd). apply K. destruct dw; [apply same_dw_refl|exact Logic.I].
Qed.
End Calc.
