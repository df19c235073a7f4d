(** Two descriptions of one crystal: structure factors and whole calculations. *)
From Coq Require Import Permutation FunctionalExtensionality.
From Verif Require L_dos2 L_qpts L_phmodes S_qpts.
From Verif Require Import Base Cpx Vec3 M_grid M_cell M_qpts M_path M_broad M_dos M_sf M_dynmat M_dipole M_asr M_calc S_dynmat S_dipole S_asr S_calc S_unique S_frame L_bands4 L_unique L_unique2 L_unique3 L_calc L_calc7 L_frame L_frame2 L_order.
Open Scope R_scope.

Section Sf.
Variables (F : frame) (n : nat) (x x' : xtal) (sl sl' : nat -> R).
Hypothesis HP : renumbers n (fr_p F) (fr_p' F).
Hypothesis HO : orthogonal (fr_G F).
Hypothesis HX : redescribes_xtal F n x x' sl sl'.
Notation p := (fr_p F).
Notation p' := (fr_p' F).
Notation G := (fr_G F).
Notation T := (fr_T F).
Variables (e : etable) (qpt : nat -> V3).
Hypothesis He : M_dos.n_atoms e = n.
Notation u := (fun q => site_phase F (qpt q)).
Notation s := (seen_table F u e).

Lemma phase_one q i : Cmul (Cconj (site_phase F q i)) (site_phase F q i) = Cone.
Proof. unfold site_phase. rewrite <- cis_opp, <- cis_add. rewrite <- cis_0. f_equal. ring. Qed.

Lemma Qvec_turn q a : (a < 3)%nat -> comp (Qvec x' q) a = sumn 3 (fun c => entry G c a * comp (Qvec x q) c).
Proof.
  intros Ha. unfold Qvec. rewrite (proj1 HX), vmul_turn. rewrite three. destruct (vmul q (recip x)) as [[v1 v2] v3].
  unfold entry. destruct G as [[[[g1 g2] g3] [[g4 g5] g6]] [[g7 g8] g9]]. destruct a as [|[|[|]]]; [| | |lia]; cbn; ring.
Qed.
Lemma evq_turn q m i : (i < n)%nat -> evec_dot_q e x' qpt q m i = Cmul (Cconj (u q i)) (evec_dot_q s x qpt q m (p i)).
Proof.
  intros Hi. unfold evec_dot_q.
  rewrite (Csum_ext (seq 0 3) (fun l => Cscal (comp (Qvec x' (qpt q)) l) _) (fun l => Cscal (sumn 3 (fun c => entry G c l * comp (Qvec x (qpt q)) c))
     (Cconj (Cmul (u q i) (Csum (seq 0 3) (fun b => Cscal (entry G b l) (evec s q m (p i) b))))))).
  2:{ intros l Hl. apply in_seq in Hl. rewrite Qvec_turn by lia. rewrite <- (evec_seen F n HP HO e u He) by (try lia; intros; apply phase_one). reflexivity. }
  set (v := evec s q m (p i)). set (Q := comp (Qvec x (qpt q))). set (w := u q i).
  rewrite !cthree. rewrite !three.
  assert (O00 := o1 F HO 0 0 ltac:(lia) ltac:(lia)). assert (O01 := o1 F HO 0 1 ltac:(lia) ltac:(lia)). assert (O02 := o1 F HO 0 2 ltac:(lia) ltac:(lia)).
  assert (O11 := o1 F HO 1 1 ltac:(lia) ltac:(lia)). assert (O12 := o1 F HO 1 2 ltac:(lia) ltac:(lia)). assert (O22 := o1 F HO 2 2 ltac:(lia) ltac:(lia)). cbn [Nat.eqb] in *.
  set (c00 := entry G 0 0) in *. set (c01 := entry G 0 1) in *. set (c02 := entry G 0 2) in *. set (c10 := entry G 1 0) in *. set (c11 := entry G 1 1) in *.
  set (c12 := entry G 1 2) in *. set (c20 := entry G 2 0) in *. set (c21 := entry G 2 1) in *. set (c22 := entry G 2 2) in *.
  transitivity (Cmul (Cconj w) (Cadd (Cadd
     (Cscal (Q 0%nat * (c00 * c00 + c01 * c01 + c02 * c02) + Q 1%nat * (c00 * c10 + c01 * c11 + c02 * c12) + Q 2%nat * (c00 * c20 + c01 * c21 + c02 * c22)) (Cconj (v 0%nat)))
     (Cscal (Q 0%nat * (c00 * c10 + c01 * c11 + c02 * c12) + Q 1%nat * (c10 * c10 + c11 * c11 + c12 * c12) + Q 2%nat * (c10 * c20 + c11 * c21 + c12 * c22)) (Cconj (v 1%nat))))
     (Cscal (Q 0%nat * (c00 * c20 + c01 * c21 + c02 * c22) + Q 1%nat * (c10 * c20 + c11 * c21 + c12 * c22) + Q 2%nat * (c20 * c20 + c21 * c21 + c22 * c22)) (Cconj (v 2%nat))))).
  - apply C_eq; cbn [re im Cadd Cscal Cmul Cconj]; ring.
  - rewrite O00, O01, O02, O11, O12, O22. apply C_eq; cbn [re im Cadd Cscal Cmul Cconj]; ring.
Qed.
Lemma expf_turn dw dw' q i : related_opt (turned_dw F) dw dw' -> (forall w, dw = Some w -> dw_n w = n) -> (i < n)%nat ->
  exp_factor x' dw' q i = Cmul (cis (2 * PI * dot q (fr_s F))) (Cmul (site_phase F q i) (exp_factor x dw q (p i))).
Proof.
  intros RD Hn Hi. destruct HX as [_ At]. destruct (At i Hi) as (_ & _ & Ps).
  assert (E : cis (2 * PI * dot q (pos x' i)) = Cmul (cis (2 * PI * dot q (fr_s F))) (Cmul (site_phase F q i) (cis (2 * PI * dot q (pos x (p i)))))).
  { unfold site_phase. rewrite <- !cis_add. f_equal. rewrite Ps. destruct q as [[q1 q2] q3], (pos x (p i)) as [[y1 y2] y3], (fr_s F) as [[s1 s2] s3], (zvec (T i)) as [[t1 t2] t3]. cbn. ring. }
  unfold exp_factor. cbv zeta. destruct dw as [w|], dw' as [w'|]; try contradiction; [|exact E].
  destruct RD as (_ & _ & W). rewrite (Hn w eq_refl) in W. rewrite E.
  assert (X : Sum (seq 0 3) (fun k => Sum (seq 0 3) (fun l => dw_w w' i k l * comp (Qvec x' q) k * comp (Qvec x' q) l))
     = Sum (seq 0 3) (fun k => Sum (seq 0 3) (fun l => dw_w w (p i) k l * comp (Qvec x q) k * comp (Qvec x q) l))).
  { change (Sum (seq 0 3)) with (@sumn 3). rewrite !three. rewrite ?three, !W, !Qvec_turn by lia. unfold turned_entry. rewrite ?three. rewrite ?three.
    set (Q := comp (Qvec x q)). set (d := dw_w w (p i)).
    assert (O00 := o1 F HO 0 0 ltac:(lia) ltac:(lia)). assert (O01 := o1 F HO 0 1 ltac:(lia) ltac:(lia)). assert (O02 := o1 F HO 0 2 ltac:(lia) ltac:(lia)).
    assert (O11 := o1 F HO 1 1 ltac:(lia) ltac:(lia)). assert (O12 := o1 F HO 1 2 ltac:(lia) ltac:(lia)). assert (O22 := o1 F HO 2 2 ltac:(lia) ltac:(lia)). cbn [Nat.eqb] in *.
    set (c00 := entry G 0 0) in *. set (c01 := entry G 0 1) in *. set (c02 := entry G 0 2) in *. set (c10 := entry G 1 0) in *. set (c11 := entry G 1 1) in *.
    set (c12 := entry G 1 2) in *. set (c20 := entry G 2 0) in *. set (c21 := entry G 2 1) in *. set (c22 := entry G 2 2) in *.
    set (f := fun a => match a with O => Q 0%nat * (c00 * c00 + c01 * c01 + c02 * c02) + Q 1%nat * (c00 * c10 + c01 * c11 + c02 * c12) + Q 2%nat * (c00 * c20 + c01 * c21 + c02 * c22)
       | S O => Q 0%nat * (c00 * c10 + c01 * c11 + c02 * c12) + Q 1%nat * (c10 * c10 + c11 * c11 + c12 * c12) + Q 2%nat * (c10 * c20 + c11 * c21 + c12 * c22)
       | _ => Q 0%nat * (c00 * c20 + c01 * c21 + c02 * c22) + Q 1%nat * (c10 * c20 + c11 * c21 + c12 * c22) + Q 2%nat * (c20 * c20 + c21 * c21 + c22 * c22) end).
    transitivity (d 0%nat 0%nat * f 0%nat * f 0%nat + d 0%nat 1%nat * f 0%nat * f 1%nat + d 0%nat 2%nat * f 0%nat * f 2%nat
      + (d 1%nat 0%nat * f 1%nat * f 0%nat + d 1%nat 1%nat * f 1%nat * f 1%nat + d 1%nat 2%nat * f 1%nat * f 2%nat)
      + (d 2%nat 0%nat * f 2%nat * f 0%nat + d 2%nat 1%nat * f 2%nat * f 1%nat + d 2%nat 2%nat * f 2%nat * f 2%nat)).
    - unfold f. ring.
    - unfold f. rewrite O00, O01, O02, O11, O12, O22. ring. }
  rewrite X. apply C_eq; cbn [re im Cscal Cmul]; ring.
Qed.
Lemma sfm_turn dw dw' q m : related_opt (turned_dw F) dw dw' -> (forall w, dw = Some w -> dw_n w = n) -> sf_mode e x' sl' dw' qpt q m = sf_mode s x sl dw qpt q m.
Proof.
  intros RD Hn.
  assert (E : sf_term e x' sl' dw' qpt q m = Cmul (cis (2 * PI * dot (qpt q) (fr_s F))) (sf_term s x sl dw qpt q m)).
  { unfold sf_term. change (M_dos.n_atoms s) with (M_dos.n_atoms e). rewrite He, <- Csum_mul.
    symmetry. etransitivity; [symmetry; apply (Csum_perm _ _ _ (aperm F n HP))|]. rewrite Csum_map. symmetry. apply Csum_ext. intros i Hi. apply in_seq in Hi.
    assert (Hi' : (i < n)%nat) by lia. destruct HX as [_ At]. destruct (At i Hi') as (M & S0 & _). rewrite M, S0, (evq_turn q m i Hi'), (expf_turn dw dw' (qpt q) i RD Hn Hi').
    set (c := sl (p i) / sqrt (mass x (p i))). set (k := cis (2 * PI * dot (qpt q) (fr_s F))). set (z := evec_dot_q s x qpt q m (p i)). set (y := exp_factor x dw (qpt q) (p i)).
    rewrite !Cscal_mul. transitivity (Cmul (Cmul (Cconj (site_phase F (qpt q) i)) (site_phase F (qpt q) i)) (Cmul k (Cmul (RtoC c) (Cmul z y)))); [ring|]. rewrite phase_one. ring. }
  unfold sf_mode. cbv zeta. rewrite E. change (et s) with (et e). change (M_dos.n_atoms s) with (M_dos.n_atoms e). do 3 f_equal.
  set (t := sf_term s x sl dw qpt q m). set (k := cis (2 * PI * dot (qpt q) (fr_s F))). rewrite Cconj_mul.
  transitivity (Cmul (Cmul (Cconj k) k) (Cmul t (Cconj t))); [ring|].
  replace (Cmul (Cconj k) k) with Cone; [ring|]. unfold k. rewrite <- cis_opp, <- cis_add, <- cis_0. f_equal. ring.
Qed.
Lemma sf_turn dw dw' : related_opt (turned_dw F) dw dw' -> calculate_structure_factor e x' sl' dw' qpt = calculate_structure_factor s x sl dw qpt.
Proof.
  intros RD. unfold calculate_structure_factor. change (M_dos.n_atoms s) with (M_dos.n_atoms e). change (et s) with (et e).
  destruct dw as [w|], dw' as [w'|]; try contradiction.
  - destruct RD as (A & B & W). rewrite A, B. destruct (Nat.eqb_spec (dw_n w) (M_dos.n_atoms e)) as [N|N]; [|reflexivity].
    assert (K : sf_mode e x' sl' (Some w') qpt = sf_mode s x sl (Some w) qpt).
    { extensionality q. extensionality m. apply sfm_turn; [split; [exact A|split; [exact B|exact W]]|]. intros v Ev. injection Ev as <-. congruence. }
    rewrite K. reflexivity.
  - assert (K : sf_mode e x' sl' None qpt = sf_mode s x sl None qpt).
    { extensionality q. extensionality m. apply sfm_turn; [exact Logic.I|]. discriminate. }
    rewrite K. reflexivity.
Qed.
End Sf.

(** The reciprocal cell turns with the cell. *)
Definition det9 (G : M3) : R := dot (row G 0) (cross (row G 1) (row G 2)).
Lemma in_rows G w : orthogonal G -> w = vadd (vadd (vscal (dot w (row G 0)) (row G 0)) (vscal (dot w (row G 1)) (row G 1))) (vscal (dot w (row G 2)) (row G 2)).
Proof.
  intros O. assert (E : forall a b, (a < 3)%nat -> (b < 3)%nat -> entry G 0 a * entry G 0 b + entry G 1 a * entry G 1 b + entry G 2 a * entry G 2 b = if Nat.eqb a b then 1 else 0).
  { intros a b A B. rewrite <- (proj2 (O a b A B)), three. reflexivity. }
  assert (E00 := E 0%nat 0%nat ltac:(lia) ltac:(lia)). assert (E01 := E 0%nat 1%nat ltac:(lia) ltac:(lia)). assert (E02 := E 0%nat 2%nat ltac:(lia) ltac:(lia)).
  assert (E11 := E 1%nat 1%nat ltac:(lia) ltac:(lia)). assert (E12 := E 1%nat 2%nat ltac:(lia) ltac:(lia)). assert (E22 := E 2%nat 2%nat ltac:(lia) ltac:(lia)).
  destruct G as [[[[g1 g2] g3] [[g4 g5] g6]] [[g7 g8] g9]], w as [[w1 w2] w3]. cbn in *. apply V3_eq.
  - transitivity (w1 * (g1 * g1 + g4 * g4 + g7 * g7) + w2 * (g1 * g2 + g4 * g5 + g7 * g8) + w3 * (g1 * g3 + g4 * g6 + g7 * g9)); [rewrite E00, E01, E02|]; ring.
  - transitivity (w1 * (g1 * g2 + g4 * g5 + g7 * g8) + w2 * (g2 * g2 + g5 * g5 + g8 * g8) + w3 * (g2 * g3 + g5 * g6 + g8 * g9)); [rewrite E01, E11, E12|]; ring.
  - transitivity (w1 * (g1 * g3 + g4 * g6 + g7 * g9) + w2 * (g2 * g3 + g5 * g6 + g8 * g9) + w3 * (g3 * g3 + g6 * g6 + g9 * g9)); [rewrite E02, E12, E22|]; ring.
Qed.
Lemma cross_rows G : orthogonal G -> cross (row G 1) (row G 2) = vscal (det9 G) (row G 0) /\ cross (row G 2) (row G 0) = vscal (det9 G) (row G 1) /\ cross (row G 0) (row G 1) = vscal (det9 G) (row G 2).
Proof.
  intros O. split; [|split]; rewrite (in_rows G _ O) at 1; unfold det9; destruct G as [[[[g1 g2] g3] [[g4 g5] g6]] [[g7 g8] g9]]; cbn; apply V3_eq; ring.
Qed.
Lemma cross_turn G a b : orthogonal G -> cross (vmul a G) (vmul b G) = vscal (det9 G) (vmul (cross a b) G).
Proof.
  intros O. destruct (cross_rows G O) as (A & B & C0).
  transitivity (vadd (vadd (vscal (comp (cross a b) 0) (cross (row G 1) (row G 2))) (vscal (comp (cross a b) 1) (cross (row G 2) (row G 0)))) (vscal (comp (cross a b) 2) (cross (row G 0) (row G 1)))).
  - clear. destruct G as [[[[g1 g2] g3] [[g4 g5] g6]] [[g7 g8] g9]], a as [[a1 a2] a3], b as [[b1 b2] b3]. cbn. apply V3_eq; ring.
  - rewrite A, B, C0. generalize (det9 G). intros k. destruct G as [[[[g1 g2] g3] [[g4 g5] g6]] [[g7 g8] g9]], (cross a b) as [[c1 c2] c3]. cbn. apply V3_eq; ring.
Qed.
Lemma det9_one G : orthogonal G -> det9 G * det9 G = 1.
Proof.
  intros O. destruct (cross_rows G O) as (A & _). pose proof (proj1 (O 0%nat 0%nat ltac:(lia) ltac:(lia))) as N. rewrite three in N. cbn [Nat.eqb] in N.
  assert (D : det9 G = det9 G * (entry G 0 0 * entry G 0 0 + entry G 0 1 * entry G 0 1 + entry G 0 2 * entry G 0 2)) by (rewrite N; ring).
  assert (L : dot (cross (row G 1) (row G 2)) (cross (row G 1) (row G 2)) = 1).
  { pose proof (proj1 (O 1%nat 1%nat ltac:(lia) ltac:(lia))) as N1. pose proof (proj1 (O 2%nat 2%nat ltac:(lia) ltac:(lia))) as N2. pose proof (proj1 (O 1%nat 2%nat ltac:(lia) ltac:(lia))) as N12.
    rewrite three in N1, N2, N12. cbn [Nat.eqb] in *. clear - N1 N2 N12. destruct G as [[[[g1 g2] g3] [[g4 g5] g6]] [[g7 g8] g9]]. cbn in *.
    transitivity ((g4 * g4 + g5 * g5 + g6 * g6) * (g7 * g7 + g8 * g8 + g9 * g9) - (g4 * g7 + g5 * g8 + g6 * g9) * (g4 * g7 + g5 * g8 + g6 * g9)); [ring|]. rewrite N1, N2, N12. ring. }
  rewrite A in L. rewrite <- L. clear - N. generalize (det9 G). intros k. destruct G as [[[[g1 g2] g3] [[g4 g5] g6]] [[g7 g8] g9]]. cbn in *.
  transitivity (k * k * (g1 * g1 + g2 * g2 + g3 * g3)); [rewrite N; ring|ring].
Qed.
Lemma recip_turn m G : orthogonal G -> cell_volume m <> 0 -> reciprocal_cell (turned_rows m G) = turned_rows (reciprocal_cell m) G.
Proof.
  intros O V. pose proof (det9_one G O) as D.
  assert (Rw : row (turned_rows m G) 0 = vmul (row m 0) G /\ row (turned_rows m G) 1 = vmul (row m 1) G /\ row (turned_rows m G) 2 = vmul (row m 2) G) by (destruct m as [[a b] c]; split; [|split]; reflexivity).
  destruct Rw as (R0 & R1 & R2). unfold reciprocal_cell, cell_volume, cell_vectors_to_volume in *. rewrite R0, R1, R2, !(cross_turn G _ _ O).
  assert (E : dot (vmul (row m 0) G) (vscal (det9 G) (vmul (cross (row m 1) (row m 2)) G)) = det9 G * dot (row m 0) (cross (row m 1) (row m 2))).
  { rewrite <- (dot_turn G (row m 0) (cross (row m 1) (row m 2)) O). destruct (vmul (row m 0) G) as [[a b] c], (vmul (cross (row m 1) (row m 2)) G) as [[a' b'] c']. cbn. ring. }
  rewrite E. set (v := dot (row m 0) (cross (row m 1) (row m 2))) in *. assert (N : det9 G <> 0) by (intros Z; rewrite Z in D; lra).
  assert (K : forall w, vscal (2 * PI / (det9 G * v)) (vscal (det9 G) (vmul w G)) = vmul (vscal (2 * PI / v) w) G).
  { intros w. clear - N V. generalize dependent (det9 G). intros k N. destruct G as [[[[g1 g2] g3] [[g4 g5] g6]] [[g7 g8] g9]], w as [[w1 w2] w3]. cbn. apply V3_eq; field; split; assumption. }
  unfold turned_rows. rewrite !K. reflexivity.
Qed.

(** ** The whole matrix *)
Lemma turn_none (m : M3) : turned_rows m no_turn = m.
Proof. destruct m as [[[[a1 a2] a3] [[b1 b2] b3]] [[c1 c2] c3]]. unfold turned_rows, no_turn. cbn. f_equal; [f_equal|]; apply V3_eq; ring. Qed.
Lemma no_turn_sum (f : nat -> nat -> C) a b : (a < 3)%nat -> (b < 3)%nat ->
  Csum (seq 0 3) (fun a' => Csum (seq 0 3) (fun b' => Cscal (entry no_turn a' a * entry no_turn b' b) (f a' b'))) = f a b.
Proof. intros Ha Hb. rewrite !cthree. destruct a as [|[|[|]]]; [| | |lia]; (destruct b as [|[|[|]]]; [| | |lia]); unfold entry, no_turn; cbn [row comp]; apply C_eq; cbn; ring. Qed.
Lemma transported_add F d u D D' E E' : transported F d u D D' -> transported F d u E E' -> transported F d u (fun a b => Cadd (D a b) (E a b)) (fun a b => Cadd (D' a b) (E' a b)).
Proof. intros H K i j a b Hi Hj Ha Hb. rewrite (H i j a b), (K i j a b) by assumption. rewrite !cthree. apply C_eq; cbn [re im Cadd Cmul Cscal]; ring. Qed.
Lemma transported_plain F d u D D' : fr_G F = no_turn -> (forall i, (i < M_dynmat.n_atoms d)%nat -> u i = Cone) ->
  (forall i j a b, (i < M_dynmat.n_atoms d)%nat -> (j < M_dynmat.n_atoms d)%nat -> (a < 3)%nat -> (b < 3)%nat -> D' (3 * i + a)%nat (3 * j + b)%nat = D (3 * fr_p F i + a)%nat (3 * fr_p F j + b)%nat) ->
  transported F d u D D'.
Proof.
  intros G0 U H i j a b Hi Hj Ha Hb. rewrite (H i j a b) by assumption. rewrite G0, (no_turn_sum (fun a' b' => D (3 * fr_p F i + a')%nat (3 * fr_p F j + b')%nat)) by assumption. rewrite !U by assumption.
  apply C_eq; cbn; ring.
Qed.
Lemma whole_turn erfc F d d' mass mass' born born' diel diel' dip param L L' q dir : redescribes F d d' mass mass' -> same_charges F (M_dynmat.n_atoms d) born born' diel diel' ->
  shares_images d L -> shares_images d' L' ->
  transported F d (site_phase F q) (whole_matrix erfc d born diel dip param L q dir) (whole_matrix erfc d' born' diel' dip param L' q dir).
Proof.
  intros HR HB HL HL'. pose proof (fourier_turn F d d' mass mass' HR L L' q HL HL') as HF. unfold whole_matrix.
  destruct born as [bo|], born' as [bo'|]; try contradiction; [|exact HF]. destruct dip; [|exact HF]. destruct HB as (G0 & T0 & -> & B).
  destruct HR as (Rn & _ & En & _ & _ & Ecl & At & _). rewrite G0, turn_none in Ecl.
  assert (U : forall i, (i < M_dynmat.n_atoms d)%nat -> site_phase F q i = Cone).
  { intros i Hi. unfold site_phase. rewrite (T0 i Hi). replace (2 * PI * dot q (zvec (0,0,0)%Z)) with 0 by (destruct q as [[? ?] ?]; cbn; ring). apply cis_0. }
  apply transported_add; [apply transported_add; [exact HF|]|]; apply transported_plain; try assumption; intros i j a b Hi Hj Ha Hb; rewrite Ecl.
  - apply (dipole_order (M_dynmat.n_atoms d) (fr_p F) (fr_p' F) (fr_s F) (f_atom_r d) (f_atom_r d')); try assumption.
    split; [exact Rn|]. split; [reflexivity|]. split; [exact En|]. intros k Hk. destruct (At k Hk) as [_ E]. rewrite E, (T0 k Hk).
    destruct (nth (fr_p F k) (f_atom_r d) vzero) as [[? ?] ?], (fr_s F) as [[? ?] ?]. cbn. apply V3_eq; ring.
  - destruct dir as [v|]; [|reflexivity]. unfold gamma_correction. destruct (is_gamma v); [reflexivity|].
    destruct (L_phmodes.div3 i a Ha) as [-> ->]. destruct (L_phmodes.div3 j b Hb) as [-> ->]. destruct (L_phmodes.div3 (fr_p F i) a Ha) as [-> ->]. destruct (L_phmodes.div3 (fr_p F j) b Hb) as [-> ->].
    rewrite (B i Hi), (B j Hj). reflexivity.
Qed.

(** ** Whole calculations *)
Section Calc.
Variables (erfc : R -> R) (reigh reigh' : real_eigh) (argsort argsort' : list R -> list nat) (chunk chunk' : nat) (ceigh ceigh' : complex_eigh).
Variables (F : frame) (d d' : fcdata) (mass mass' : nat -> R) (born born' : option (nat -> M3)) (diel diel' : M3).
Hypothesis HR : redescribes F d d' mass mass'.
Hypothesis HB : same_charges F (M_dynmat.n_atoms d) born born' diel diel'.
Hypothesis Hh : home_first d. Hypothesis Hh' : home_first d'.
Hypothesis Hc : search_complete d. Hypothesis Hc' : search_complete d'.
Hypothesis Hd : det3 (zrows (f_sc d)) <> 0.
Hypothesis Hf : fc_symmetric d. Hypothesis Hf' : fc_symmetric d'.
Hypothesis He : symmetric3 diel. Hypothesis He' : symmetric3 diel'.
Hypothesis Hs : csolves ceigh. Hypothesis Hs' : csolves ceigh'.
Notation n := (M_dynmat.n_atoms d).
Notation modes0 := (mkModes (fun _ => 0) (fun _ _ => Czero) None).

Lemma modes_copy k m D md md' : (forall j, m_freq md j = m_freq md' j) -> (forall j x, m_evec md j x = m_evec md' j x) -> modes_of k m D md -> modes_of k m D md'.
Proof.
  intros E1 E2 [A B]. assert (X : m_freq md' = m_freq md) by (extensionality j; symmetry; apply E1). assert (Y : m_evec md' = m_evec md) by (extensionality j; extensionality z; symmetry; apply E2).
  unfold modes_of. rewrite X, Y. split; assumption.
Qed.

Lemma two_tables cs cs' junk junk' o r r' : p_asr o = None ->
  result erfc reigh ceigh argsort chunk junk o (after erfc reigh ceigh argsort chunk (new_fc d mass born diel) cs) = Ok r ->
  result erfc reigh' ceigh' argsort' chunk' junk' o (after erfc reigh' ceigh' argsort' chunk' (new_fc d' mass' born' diel') cs') = Ok r' ->
  fst (fst r) = fst (fst r') /\ same_points (table_of n r) (table_of n r') /\
  exists A, table_modes (table_of n r) mass A /\
    forall u, (forall q i, (q < length (fst (fst r)))%nat -> (i < n)%nat -> u q i = site_phase F (if (p_reduce o && is_gamma (nth q (fst (fst r)) vzero))%bool then vzero else nth q (fst (fst r)) vzero) i) ->
    table_modes (seen_table F u (table_of n r')) mass A.
Proof.
  intros Ha H H'. pose proof HR as (Rn & Or & En & Enc & Esc & Ecl & At & Cells).
  assert (Hd' : det3 (zrows (f_sc d')) <> 0) by (rewrite Esc; exact Hd).
  destruct (modes_fourier erfc reigh ceigh argsort chunk d mass born diel Hh Hc Hd Hf He Hs) as (L & HL & K).
  destruct (modes_fourier erfc reigh' ceigh' argsort' chunk' d' mass' born' diel' Hh' Hc' Hd' Hf' He' Hs') as (L' & HL' & K').
  destruct r as [[qpts w] ms], r' as [[qpts' w'] ms'].
  destruct (K cs junk o qpts w ms Ha H) as (Q & Ln & P). destruct (K' cs' junk' o qpts' w' ms' Ha H') as (Q' & Ln' & P').
  assert (EQ : qpts' = qpts) by (rewrite Q, Q'; clear - HB; unfold same_charges in HB; destruct born, born'; try contradiction; reflexivity).
  assert (EW : w' = w).
  { pose (j := fun _ _ _ : nat => 0). rewrite (history _ _ _ _ _ _ _ _ _ _ _ j) in H. rewrite (history _ _ _ _ _ _ _ _ _ _ _ j) in H'.
    assert (Ar : p_asr o <> Some Reciprocal) by congruence.
    destruct (call_solves _ _ _ _ _ _ _ _ _ _ _ Ar H) as (_ & _ & _ & _ & _ & W & _). destruct (call_solves _ _ _ _ _ _ _ _ _ _ _ Ar H') as (_ & _ & _ & _ & _ & W' & _).
    rewrite W, W', EQ. f_equal. clear - HB. unfold same_charges in HB. destruct born, born'; try contradiction; reflexivity. }
  clear Q Q'. subst qpts' w'. cbn [fst].
  split; [reflexivity|]. split; [split; [reflexivity|split; [reflexivity|intros; reflexivity]]|].
  set (qq := fun k => if (p_reduce o && is_gamma (nth k qpts vzero))%bool then vzero else nth k qpts vzero).
  set (dir := fun k => if (p_splitting o && is_gamma (nth k qpts vzero))%bool then Some (S_qpts.approach qpts k) else None).
  exists (fun k => whole_matrix erfc d born diel (p_dipole o) (p_param o) L (qq k) (dir k)).
  assert (I : forall i, (3 * (i / 3) + i mod 3)%nat = i) by (intros i; symmetry; apply Nat.div_mod; lia).
  split.
  - split; [reflexivity|]. cbn [table_of et nq M_dos.n_atoms]. intros k Hk. destruct (P k (nth k qpts vzero) (nth_error_at qpts k vzero Hk)) as (md & M1 & M2).
    eapply modes_copy; [| |exact M2]; [intros j|intros j x]; cbn [modes_at m_freq m_evec table_of et freq evec]; rewrite (nth_error_nth _ _ modes0 M1), ?I; reflexivity.
  - intros u Hu. split; [reflexivity|]. cbn [seen_table table_of et nq M_dos.n_atoms]. intros k Hk. destruct (P' k (nth k qpts vzero) (nth_error_at qpts k vzero Hk)) as (md & M1 & M2).
    rewrite En in M2. fold (qq k) in M2. fold (dir k) in M2.
    assert (U : unit_phases d (site_phase F (qq k))) by (intros i _; apply phase_one).
    pose proof (modes_turn F d d' mass mass' HR (site_phase F (qq k)) _ _ md U (whole_turn erfc F d d' mass mass' born born' diel diel' (p_dipole o) (p_param o) L L' (qq k) (dir k) HR HB HL HL') M2) as M3.
    assert (M4 : modes_of (3 * n) mass (whole_matrix erfc d born diel (p_dipole o) (p_param o) L (qq k) (dir k)) (mkModes (m_freq md) (fun m x => m_evec (modes_at (seen_table F u (table_of n (qpts, w, ms'))) k) m x) None)).
    { destruct M3 as [A B]. assert (X : forall m x, (x < 3 * n)%nat -> m_evec (seen_modes F (site_phase F (qq k)) md) m x = m_evec (modes_at (seen_table F u (table_of n (qpts, w, ms'))) k) m x).
      { intros m x Hx. cbn [seen_modes modes_at m_evec seen_table table_of evec]. unfold seen. rewrite (nth_error_nth _ _ modes0 M1).
        assert (Hx3 : (x / 3 < n)%nat) by (apply Nat.div_lt_upper_bound; lia). destruct (Rn _ Hx3) as (_ & Px & _). rewrite (Hu k (fr_p' F (x / 3)%nat) Hk Px). reflexivity. }
      split.
      - intros m Hm i Hi. specialize (A m Hm i Hi). cbn [m_freq seen_modes] in A |- *. cbn [m_evec]. rewrite <- X by exact Hi. etransitivity; [|exact A].
        apply Csum_ext. intros b Hb. apply in_seq in Hb. rewrite <- X by lia. reflexivity.
      - intros m j Hm Hj. specialize (B m j Hm Hj). cbv beta in B. cbn [m_evec]. etransitivity; [|exact B]. apply Csum_ext. intros i Hi. apply in_seq in Hi. rewrite !X by lia. reflexivity. }
    eapply modes_copy; [| |exact M4]; [intros j|intros j x]; cbn [m_freq m_evec]; [|reflexivity].
    cbn [modes_at m_freq seen_table table_of et freq]. rewrite (nth_error_nth _ _ modes0 M1). reflexivity.
Qed.
End Calc.
