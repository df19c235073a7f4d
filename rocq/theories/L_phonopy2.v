(** Lemmas for C67: files that are misread. *)
From Coq Require Import String Sorted.
From Verif Require Import Base Vec3 M_grid M_cell M_qpts M_dynmat M_dipole M_struct M_phonopy S_dynmat S_struct S_phonopy L_util L_conv L_conv2 L_phonopy.
Open Scope R_scope.

Definition units1 : factors := mkF 1 1 1 1 1.
Definition tol5 : R := 1 / 100000.
(** A file holding everything in the summary, without charges *)
Definition plain (lat : M3) (pts sc : list point) (M : Z3 * Z3 * Z3) (fc : fcarr) : summary := mkSum lat pts sc M None (Some fc) None None None.
Definition read_plain (f : summary) (fc : fcarr) : res result perr := read_interpolation_data 100 tol5 units1 f None "FORCE_CONSTANTS" ([], []) fc None.

Lemma plain_read lat pts sc M fc pidx idx raw cmap rel firsts org :
  idx_in_pcell pts = Ok pidx -> idx_in_pcell sc = Ok idx -> zdet3 M <> 0%Z -> (Z.abs (zdet3 M) < 2 ^ 48)%Z ->
  fa_cols fc = length idx -> Nat.leb (length (pc_to_sc (length idx) idx)) (fa_rows fc) = true ->
  map (fun s => vsub (nth s (map (fun p => vmul (pt_r p) (zrows M)) sc) vzero) (nth (nth s (sc_to_pc idx) 0%nat) (map pt_r pts) vzero)) (seq 0 (length (sc_to_pc idx))) = map zvec raw ->
  conv_tables raw (pc_to_sc (length idx) idx) (sc_to_pc idx) M = Ok (cmap, rel, firsts, org) ->
  exists r, read_plain (plain lat pts sc M fc) fc = Ok r /\ r_origins r = org /\ r_atoms r = map (fun r => vsub r (zvec (vfloor r))) (map pt_r pts) /\ r_sc r = M /\
    forall n i j a b s, (a < 3)%nat -> (b < 3)%nat -> source cmap rel firsts (sc_to_pc idx) (Z.to_nat (Z.abs (zdet3 M))) n i j = Some s ->
      r_fc r n (3 * i + a)%nat (3 * j + b)%nat = fa_val fc (if Nat.eqb (fa_rows fc) (length (sc_to_pc idx)) then nth i (pc_to_sc (length idx) idx) 0%nat else i) s a b.
Proof.
  intros Hp Hi Hd Hb Hc Hr Hraw HT.
  destruct (convert_whole 100 (fa_rows fc) (fa_val fc) (map pt_r pts) (map (fun p => vmul (pt_r p) (zrows M)) sc) (pc_to_sc (length idx) idx) (sc_to_pc idx) M tol5 raw cmap rel firsts org
    ltac:(lia) Hd Hb ltac:(unfold tol5; lra) Hraw HT) as [out [E1 E2]].
  unfold read_plain, read_interpolation_data, plain, the_force_constants, dipole_data, p_to_sc_matrix, sc_atom_r, p_to_sc_matrix.
  cbn [s_lattice s_points s_sc_points s_supercell_matrix s_primitive_matrix s_fc s_nac s_born s_diel]. rewrite Hp, Hi, Hc, Hr, Nat.eqb_refl. cbn [andb negb]. rewrite E1.
  eexists. split; [reflexivity|]. cbn [r_origins r_atoms r_sc r_fc]. split; [reflexivity|]. split; [reflexivity|]. split; [reflexivity|].
  intros n i j a b s Ha Hb' HS. rewrite (E2 n i j a b s Ha Hb' HS). cbn [units1 k_fc]. rewrite Rmult_1_r. destruct (Nat.eqb _ _); reflexivity.
Qed.

Definition count_fc (rows cols : nat) : fcarr := mkFA rows cols (fun _ s _ _ => IZR (Z.of_nat s)).

(** A coordinate written as 1 *)
Definition ptA (x : R) (z : option Z) := mkPt (x, 0, 0) 1 "A" z.
Definition ptB (x : R) (z : option Z) := mkPt (x, 1 / 2, 1 / 2) 1 "B" z.
Definition one_pts (b : R) := [ptA 0 None; ptB b None].
Definition one_sc (b0 : R) := [ptA 0 (Some 1%Z); ptA (1 / 2) (Some 1%Z); ptB b0 (Some 3%Z); ptB (b0 + 1 / 2) (Some 3%Z)].
Definition chain (b b0 : R) : summary := plain identity3 (one_pts b) (one_sc b0) pair_sc (count_fc 2 4).
Definition one_file : summary := chain 1 0.

Ltac small_nat s := destruct s as [|[|[|[|s]]]].

Lemma one_copies b b0 s r : copy_of (chain b b0) s r <-> (s = 0 /\ r = 0 \/ s = 1 /\ r = 0 \/ s = 2 /\ r = 2 \/ s = 3 /\ r = 2)%nat.
Proof.
  split.
  - intros [p [E1 E2]]. small_nat s; cbn in E1; try (injection E1 as <-; cbn [pt_reduced ptA ptB] in E2; assert (E3 : Z.of_nat (S r) = 1%Z \/ Z.of_nat (S r) = 3%Z) by (injection E2; lia); injection E2; lia).
    exfalso. destruct s; discriminate.
  - intros [[-> ->]|[[-> ->]|[[-> ->]|[-> ->]]]]; eexists; split; reflexivity.
Qed.
Lemma one_numbered b b0 : well_numbered (chain b b0).
Proof.
  intros s Hs. cbn in Hs. assert (s = 0 \/ s = 1 \/ s = 2 \/ s = 3)%nat as [->|[->|[->| ->]]] by lia.
  - exists 0%nat. rewrite !one_copies. lia.
  - exists 0%nat. rewrite !one_copies. lia.
  - exists 2%nat. rewrite !one_copies. lia.
  - exists 2%nat. rewrite !one_copies. lia.
Qed.
Lemma one_reps b b0 : representatives (chain b b0) [0;2]%nat.
Proof.
  split; [repeat constructor|]. split; [|reflexivity]. intros r. rewrite one_copies. cbn. lia.
Qed.
Lemma one_lattices b b0 : lattices (chain b b0) identity3 (zrows pair_sc) pair_sc.
Proof.
  unfold lattices, product. cbn [chain plain s_lattice s_supercell_matrix prim_matrix s_primitive_matrix]. repeat split; try (intros [[x y] z]; apply V3_eq; cbn; ring); cbn; lra.
Qed.
Lemma one_separate b b0 : separate (chain b b0) pair_sc (2 * tol5).
Proof.
  intros s s' r m H1 H2 Hne. apply one_copies in H1, H2. destruct m as [[m1 m2] m3].
  assert (K : forall x, x = 1/2 \/ x = -(1/2) -> ~ Rabs ((x - IZR m1) * 2) <= 2 * tol5).
  { intros x Hx Hw. unfold tol5 in Hw. assert (-(1/2) < (x - IZR m1) * 2 < 1/2) by (unfold Rabs in Hw; destruct (Rcase_abs _); lra).
    destruct Hx as [-> | ->]; [assert (0 < m1)%Z by (apply lt_IZR; lra); assert (m1 < 1)%Z by (apply lt_IZR; lra); lia|].
    assert (m1 < 0)%Z by (apply lt_IZR; lra). assert (-1 < m1)%Z by (apply lt_IZR; lra). lia. }
  assert (T : forall u v y z, (u - v = 1/2 \/ u - v = -(1/2)) -> ~ within (2 * tol5) (vmul (vsub (vsub (u, y, z) (v, y, z)) (zvec (m1, m2, m3))) (zrows pair_sc))).
  { intros u v y z Hx Hw. cbn in Hw. destruct Hw as [Hw _]. apply (K (u - v) Hx). match type of Hw with Rabs ?x <= _ => replace x with ((u - v - IZR m1) * 2) in Hw by ring end. exact Hw. }
  unfold sc_r, chain, plain, one_sc, ptA, ptB. cbn [s_sc_points map pt_r].
  assert (C : (s = 0 /\ s' = 1 \/ s = 1 /\ s' = 0 \/ s = 2 /\ s' = 3 \/ s = 3 /\ s' = 2)%nat) by lia.
  destruct C as [[-> ->]|[[-> ->]|[[-> ->]|[-> ->]]]]; cbn [nth]; apply T; lra.
Qed.
Lemma one_read : exists r, read_plain one_file (count_fc 2 4) = Ok r /\ r_origins r = [(0,0,0); (1,0,0)]%Z /\ nth 0 (r_atoms r) vzero = vzero /\ nth 1 (r_atoms r) vzero = (0, 1 / 2, 1 / 2) /\
  r_fc r 0%nat 0%nat 3%nat = 3 /\ r_fc r 1%nat 0%nat 3%nat = 2.
Proof.
  destruct (plain_read identity3 (one_pts 1) (one_sc 0) pair_sc (count_fc 2 4) [0;1]%Z [1;1;3;3]%Z [(0,0,0);(1,0,0);(-1,0,0);(0,0,0)]%Z [0;1;1;0]%nat [[0;1];[1;0]]%nat [0;2]%nat [(0,0,0);(1,0,0)]%Z) as [r [E1 [E2 [E3 [E4 E5]]]]];
    try reflexivity; try (cbn; lia).
  - change (sc_to_pc [1; 1; 3; 3]%Z) with [0;0;1;1]%nat. cbn [length seq map one_sc one_pts nth ptA ptB pt_r]. repeat f_equal; apply V3_eq; cbn; lra.
  - exists r. split; [exact E1|]. split; [exact E2|]. rewrite E3. cbn [map one_pts ptA ptB pt_r nth].
    split; [cbn [vfloor]; replace (Int_part 0) with 0%Z; [apply V3_eq; cbn; lra|]|].
    { symmetry. destruct (base_Int_part 0) as [B1 B2]. assert (-1 < Int_part 0)%Z by (apply lt_IZR; lra). assert (Int_part 0 < 1)%Z by (apply lt_IZR; lra). lia. }
    split.
    { cbn [vfloor]. replace (Int_part 1) with 1%Z by (symmetry; destruct (base_Int_part 1) as [B1 B2]; assert (0 < Int_part 1)%Z by (apply lt_IZR; lra); assert (Int_part 1 < 2)%Z by (apply lt_IZR; lra); lia).
      replace (Int_part (1/2)) with 0%Z by (symmetry; destruct (base_Int_part (1/2)) as [B1 B2]; assert (-1 < Int_part (1/2))%Z by (apply lt_IZR; lra); assert (Int_part (1/2) < 1)%Z by (apply lt_IZR; lra); lia).
      apply V3_eq; cbn; lra. }
    split; [exact (E5 0%nat 0%nat 1%nat 0%nat 0%nat 3%nat ltac:(lia) ltac:(lia) eq_refl)|exact (E5 1%nat 0%nat 1%nat 0%nat 0%nat 2%nat ltac:(lia) ltac:(lia) eq_refl)].
Qed.
Theorem coordinate_one : exists f U L K reps fc r,
  lattices f U L K /\ symmetric_z (s_supercell_matrix f) /\ well_numbered f /\ representatives f reps /\ separate f K (2 * tol5) /\ zdet3 K = 2%Z /\
  s_fc f = Some fc /\ read_plain f fc = Ok r /\ ~ placed f fc 1 L reps tol5 r /\
  (forall p, In p (s_points f) -> let '(x, y, z) := pt_r p in 0 <= x <= 1 /\ 0 <= y < 1 /\ 0 <= z < 1).
Proof.
  destruct one_read as [r [E1 [E2 [E3 [E4 [E5 E6]]]]]].
  exists one_file, identity3, (zrows pair_sc), pair_sc, [0;2]%nat, (count_fc 2 4), r.
  split; [apply one_lattices|]. split; [reflexivity|]. split; [apply one_numbered|]. split; [apply one_reps|]. split; [apply one_separate|]. split; [reflexivity|]. split; [reflexivity|]. split; [exact E1|].
  split; [|intros p [<-|[<-|[]]]; cbn; lra].
  intros P. destruct (P 0%nat 1%nat 3%nat 0%nat 0%nat) as [n [[[m1 m2] m3] [[[e1 e2] e3] [H1 [H2 [H3 H4]]]]]]; try (cbn; lia).
  { apply one_copies. cbn. lia. }
  rewrite E2 in H1, H3. cbn [length] in H1. assert (n = 0%nat) as ->.
  { destruct n as [|[|]]; [reflexivity| |lia]. exfalso. change (3 * 0 + 0)%nat with 0%nat in H4. change (3 * 1 + 0)%nat with 3%nat in H4. rewrite E6 in H4. cbn in H4. lra. }
  rewrite E3, E4 in H3. unfold sc_r, one_file, chain, plain, one_sc, ptA, ptB, vzero in H3. cbn in H3. destruct H2 as [H2 _]. unfold tol5 in H2.
  injection H3 as X _ _. assert (-(1/2) < e1 < 1/2) by (unfold Rabs in H2; destruct (Rcase_abs e1); lra).
  assert (0 < m1)%Z by (apply lt_IZR; lra). assert (m1 < 1)%Z by (apply lt_IZR; lra). lia.
Qed.

(** A file that is read correctly *)
Lemma good_read : exists r, read_plain (chain (1/4) (1/8)) (count_fc 2 4) = Ok r /\ r_origins r = [(0,0,0); (1,0,0)]%Z /\
  r_fc r 0%nat 0%nat 3%nat = 2 /\ r_fc r 1%nat 0%nat 3%nat = 3 /\ r_fc r 1%nat 3%nat 0%nat = 1.
Proof.
  destruct (plain_read identity3 (one_pts (1/4)) (one_sc (1/8)) pair_sc (count_fc 2 4) [0;1]%Z [1;1;3;3]%Z [(0,0,0);(1,0,0);(0,0,0);(1,0,0)]%Z [0;1;0;1]%nat [[0;1];[1;0]]%nat [0;2]%nat [(0,0,0);(1,0,0)]%Z) as [r [E1 [E2 [E3 [E4 E5]]]]];
    try reflexivity; try (cbn; lia).
  - change (sc_to_pc [1; 1; 3; 3]%Z) with [0;0;1;1]%nat. cbn [length seq map one_sc one_pts nth ptA ptB pt_r]. repeat f_equal; apply V3_eq; cbn; lra.
  - exists r. split; [exact E1|]. split; [exact E2|].
    split; [exact (E5 0%nat 0%nat 1%nat 0%nat 0%nat 2%nat ltac:(lia) ltac:(lia) eq_refl)|].
    split; [exact (E5 1%nat 0%nat 1%nat 0%nat 0%nat 3%nat ltac:(lia) ltac:(lia) eq_refl)|].
    exact (E5 1%nat 1%nat 0%nat 0%nat 0%nat 1%nat ltac:(lia) ltac:(lia) eq_refl).
Qed.

(** A supercell matrix that is not symmetric *)
Definition skew_M : Z3 * Z3 * Z3 := ((2,0,0),(2,2,0),(0,0,1))%Z.
Definition skew_K : Z3 * Z3 * Z3 := ((2,2,0),(0,2,0),(0,0,1))%Z.
Definition ptC (x y : R) (z : option Z) := mkPt (x, y, 0) 1 "A" z.
Definition skew_sc := [ptC 0 0 (Some 1%Z); ptC (1/2) 0 (Some 1%Z); ptC 0 (1/2) (Some 1%Z); ptC (1/2) (1/2) (Some 1%Z)].
Definition skew_file : summary := plain identity3 [ptC 0 0 None] skew_sc skew_M (count_fc 1 4).
Lemma skew_copies s r : copy_of skew_file s r <-> (s < 4 /\ r = 0)%nat.
Proof.
  split.
  - intros [p [E1 E2]]. small_nat s; cbn in E1; try (injection E1 as <-; cbn [pt_reduced ptC] in E2; injection E2; lia). exfalso. destruct s; discriminate.
  - intros [H ->]. assert (s = 0 \/ s = 1 \/ s = 2 \/ s = 3)%nat as [->|[->|[->| ->]]] by lia; eexists; split; reflexivity.
Qed.
Lemma skew_lattices : lattices skew_file identity3 (zrows skew_K) skew_K.
Proof.
  unfold lattices, product. cbn [skew_file plain s_lattice s_supercell_matrix prim_matrix s_primitive_matrix]. repeat split; try (intros [[x y] z]; apply V3_eq; cbn; ring); cbn; lra.
Qed.
Lemma even_gap (m : Z) x : x = 1 \/ x = -1 -> ~ Rabs (x - 2 * IZR m) <= 2 * tol5.
Proof.
  unfold tol5. intros Hx Hw. assert (-(1/2) < x - 2 * IZR m < 1/2) by (unfold Rabs in Hw; destruct (Rcase_abs _); lra).
  destruct Hx as [-> | ->]; [assert (0 < m)%Z by (apply lt_IZR; lra); assert (m < 1)%Z by (apply lt_IZR; lra); lia|].
  assert (m < 0)%Z by (apply lt_IZR; lra). assert (-1 < m)%Z by (apply lt_IZR; lra). lia.
Qed.
Lemma skew_separate : separate skew_file skew_K (2 * tol5).
Proof.
  intros s s' r m H1 H2 Hne. apply skew_copies in H1, H2. destruct m as [[m1 m2] m3]. destruct H1 as [H1 _], H2 as [H2 _].
  destruct (sc_r skew_file s) as [[a b] c] eqn:Es. destruct (sc_r skew_file s') as [[a' b'] c'] eqn:Es'. intros [W1 [W2 _]].
  assert (G1 : forall x, (a - a') * 2 = x -> x = 1 \/ x = -1 -> False).
  { intros x E Hx. apply (even_gap m1 x Hx). rewrite <- E.
    match type of W1 with Rabs ?u <= _ => match goal with |- Rabs ?v <= _ => replace v with u by ring end end. exact W1. }
  assert (G2 : forall x, (a + b - a' - b') * 2 = x -> x = 1 \/ x = -1 -> False).
  { intros x E Hx. apply (even_gap (m1 + m2) x Hx). rewrite <- E, plus_IZR.
    match type of W2 with Rabs ?u <= _ => match goal with |- Rabs ?v <= _ => replace v with u by ring end end. exact W2. }
  clear W1 W2. unfold sc_r, skew_file, plain, skew_sc, ptC in Es, Es'. cbn [s_sc_points map pt_r] in Es, Es'.
  assert (s = 0 \/ s = 1 \/ s = 2 \/ s = 3)%nat as [->|[->|[->| ->]]] by lia; (assert (s' = 0 \/ s' = 1 \/ s' = 2 \/ s' = 3)%nat as [->|[->|[->| ->]]] by lia); try lia;
    cbn [nth] in Es, Es'; injection Es as <- <- <-; injection Es' as <- <- <-;
    first [eapply G1; [reflexivity|]; lra | eapply G2; [reflexivity|]; lra].
Qed.
Lemma skew_read : exists r, read_plain skew_file (count_fc 1 4) = Ok r /\ r_origins r = [(0,0,0); (1,0,0); (1,1,0); (2,1,0)]%Z /\ length (r_atoms r) = 1%nat /\
  forall n, (n < 4)%nat -> r_fc r n 0%nat 0%nat = IZR (Z.of_nat n).
Proof.
  destruct (plain_read identity3 [ptC 0 0 None] skew_sc skew_M (count_fc 1 4) [0]%Z [1;1;1;1]%Z [(0,0,0);(1,0,0);(1,1,0);(2,1,0)]%Z [0;1;2;3]%nat
     [[0;1;2;3];[1;0;3;2];[2;3;0;1];[3;2;1;0]]%nat [0]%nat [(0,0,0);(1,0,0);(1,1,0);(2,1,0)]%Z) as [r [E1 [E2 [E3 [E4 E5]]]]];
    try reflexivity; try (cbn; lia).
  - change (sc_to_pc [1; 1; 1; 1]%Z) with [0;0;0;0]%nat. cbn [length seq map skew_sc nth ptC pt_r]. repeat f_equal; apply V3_eq; cbn; lra.
  - exists r. split; [exact E1|]. split; [exact E2|]. rewrite E3. split; [reflexivity|]. intros n Hn.
    assert (n = 0 \/ n = 1 \/ n = 2 \/ n = 3)%nat as [->|[->|[->| ->]]] by lia; match goal with |- r_fc r ?n _ _ = _ => exact (E5 n 0%nat 0%nat 0%nat 0%nat n ltac:(lia) ltac:(lia) eq_refl) end.
Qed.
Theorem skew_supercell : exists f U L K reps fc r,
  lattices f U L K /\ well_numbered f /\ representatives f reps /\ separate f K (2 * tol5) /\ zdet3 K = 4%Z /\ (forall p, In p (s_points f) -> in_unit_cell (pt_r p)) /\
  s_fc f = Some fc /\ read_plain f fc = Ok r /\ ~ placed f fc 1 L reps tol5 r.
Proof.
  destruct skew_read as [r [E1 [E2 [E3 E4]]]].
  exists skew_file, identity3, (zrows skew_K), skew_K, [0]%nat, (count_fc 1 4), r.
  split; [apply skew_lattices|]. split; [intros s Hs; exists 0%nat; rewrite !skew_copies; cbn in Hs; lia|].
  split; [split; [repeat constructor|split; [|reflexivity]]; intros q; rewrite skew_copies; cbn; lia|]. split; [apply skew_separate|]. split; [reflexivity|].
  split; [intros p [<-|[]]; cbn; lra|]. split; [reflexivity|]. split; [exact E1|].
  intros P. destruct (P 0%nat 0%nat 1%nat 0%nat 0%nat) as [n [[[m1 m2] m3] [[[e1 e2] e3] [H1 [H2 [H3 H4]]]]]]; try (cbn; lia).
  { apply skew_copies. cbn. lia. }
  rewrite E2 in H1, H3. cbn [length] in H1. change (3 * 0 + 0)%nat with 0%nat in H4. rewrite E4 in H4 by exact H1.
  assert (n = 1%nat) as ->. { unfold file_value in H4. cbn [fa_val count_fc] in H4. rewrite Rmult_1_r in H4. apply eq_IZR in H4. lia. }
  unfold sc_r, skew_file, plain, skew_sc, ptC in H3. destruct (r_atoms r) as [|[[x y] z] [|]]; cbn in E3; try discriminate. cbn in H3.
  destruct H2 as [_ [H2 _]]. unfold tol5 in H2. injection H3 as _ X _. assert (-(1/2) < e2 < 1/2) by (unfold Rabs in H2; destruct (Rcase_abs e2); lra).
  assert (0 < m1 + m2)%Z by (apply lt_IZR; rewrite plus_IZR; lra). assert (m1 + m2 < 1)%Z by (apply lt_IZR; rewrite plus_IZR; lra). lia.
Qed.

(** No reduced_to: the supercell is the primitive cell *)
Definition same_pts := [ptA 0 None; ptB (1 / 2) None].
Definition unit_M : Z3 * Z3 * Z3 := ((1,0,0),(0,1,0),(0,0,1))%Z.
Theorem no_reduced_to v : let fc := mkFA 2 2 v in let f := plain identity3 same_pts same_pts unit_M fc in
  exists r, read_plain f fc = Ok r /\ r_origins r = [(0,0,0)]%Z /\
  forall j a b, (j < 2)%nat -> (a < 3)%nat -> (b < 3)%nat -> r_fc r 0%nat a (3 * j + b)%nat = v 1%nat j a b /\ r_fc r 0%nat (3 + a)%nat (3 * j + b)%nat = v 0%nat j a b.
Proof.
  intros fc f. 
  destruct (plain_read identity3 same_pts same_pts unit_M fc [0;1]%Z [0;1]%Z [(0,0,0);(0,0,0)]%Z [0;0]%nat [[0]]%nat [0;1]%nat [(0,0,0)]%Z) as [r [E1 [E2 [E3 [E4 E5]]]]];
    try reflexivity; try (cbn; lia).
  - change (sc_to_pc [0; 1]%Z) with [0;1]%nat. cbn [length seq map same_pts nth ptA ptB pt_r]. repeat f_equal; apply V3_eq; cbn; lra.
  - exists r. split; [exact E1|]. split; [exact E2|]. intros j a b Hj Ha Hb.
    assert (j = 0 \/ j = 1)%nat as [->| ->] by lia; split.
    + exact (E5 0%nat 0%nat 0%nat a b 0%nat Ha Hb eq_refl).
    + exact (E5 0%nat 1%nat 0%nat a b 0%nat Ha Hb eq_refl).
    + exact (E5 0%nat 0%nat 1%nat a b 1%nat Ha Hb eq_refl).
    + exact (E5 0%nat 1%nat 1%nat a b 1%nat Ha Hb eq_refl).
Qed.
