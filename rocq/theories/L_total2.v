(** A crystal whose dipole correction at gamma is not zero (C51).  The trace of the pair term
    of two atoms an eighth of a unit cube apart is negative: the home cell alone outweighs the
    whole reciprocal-space sum. *)
From Verif Require Import Base Cpx Vec3 M_grid M_cell M_qpts M_dynmat M_dipole L_util L_dos L_qpts L_dipole L_nac L_cmain L_sample2.
Open Scope R_scope.

(** Sums over subsets *)
Lemma Sum_incl {A} (l m : list A) f : NoDup l -> incl l m -> (forall x, In x m -> 0 <= f x) -> Sum l f <= Sum m f.
Proof.
  revert m. induction l as [|a l IH]; intros m D I P; [rewrite Sum_nil; apply Sum_nonneg; exact P|]. inversion D as [|? ? D1 D2]; subst.
  destruct (in_split a m) as (m1 & m2 & ->); [apply I; left; reflexivity|]. rewrite Sum_app, !Sum_cons.
  assert (Sum l f <= Sum (m1 ++ m2) f).
  { apply IH; [exact D2| |intros x X; apply P; apply in_app_iff in X; apply in_app_iff; destruct X; [left|right; right]; assumption].
    intros x X. pose proof (I x (or_intror X)) as Y. apply in_app_iff in Y. apply in_app_iff. destruct Y as [Y|[Y|Y]]; [left; exact Y|subst x; contradiction|right; exact Y]. }
  rewrite Sum_app in H. lra.
Qed.
Definition zl (n : nat) : list Z := 0%Z :: flat_map (fun i => [Z.of_nat (S i); (- Z.of_nat (S i))%Z]) (seq 0 n).
Lemma in_zl n z : (Z.abs z <= Z.of_nat n)%Z -> In z (zl n).
Proof.
  intros H. destruct (Z.eq_dec z 0) as [->|N]; [left; reflexivity|]. right. apply in_flat_map. exists (Z.to_nat (Z.abs z) - 1)%nat. split; [apply in_seq; lia|]. cbn [In]. lia.
Qed.
Lemma zl_sum x n : 0 <= x <= 1 / 10 -> 0 <= Sum (zl n) (fun z => x ^ Z.abs_nat z) <= 11 / 9.
Proof.
  intros X. unfold zl. rewrite Sum_cons. rewrite Sum_flat_map. cbn [Z.abs_nat pow].
  assert (E : forall i, Sum [Z.of_nat (S i); (- Z.of_nat (S i))%Z] (fun z => x ^ Z.abs_nat z) = 2 * x ^ S i). { intros i. rewrite !Sum_cons, Sum_nil. replace (Z.abs_nat (Z.of_nat (S i))) with (S i) by lia. replace (Z.abs_nat (- Z.of_nat (S i))) with (S i) by lia. ring. }
  rewrite (Sum_ext (seq 0 n) _ (fun i => 2 * x ^ S i)) by (intros; apply E). rewrite Sum_scal. fold (sumn n (fun i => x ^ S i)).
  assert (B : 0 <= sumn n (fun i => x ^ S i) <= (1 - (1 / 10) ^ n) / 9).
  { induction n as [|n IH]; [cbn; lra|]. rewrite sumn_S. assert (0 <= x ^ S n) by (apply pow_le; lra). assert (x ^ S n <= (1 / 10) ^ S n) by (apply pow_incr; lra). cbn [pow] in *. lra. }
  assert (0 <= (1 / 10) ^ n) by (apply pow_le; lra). lra.
Qed.
Definition zcube (n : nat) : list Z3 := list_prod (list_prod (zl n) (zl n)) (zl n).
Definition zweight (x : R) (g : Z3) : R := let '(h, k, l) := g in x ^ Z.abs_nat h * x ^ Z.abs_nat k * x ^ Z.abs_nat l.
Lemma zcube_sum x n : 0 <= x <= 1 / 10 -> Sum (zcube n) (zweight x) <= (11 / 9) ^ 3.
Proof.
  intros X. unfold zcube. rewrite Sum_list_prod. rewrite Sum_list_prod. set (S := Sum (zl n) (fun z => x ^ Z.abs_nat z)).
  assert (E : Sum (zl n) (fun a => Sum (zl n) (fun b => Sum (zl n) (fun c => zweight x (a, b, c)))) = S ^ 3).
  { transitivity (Sum (zl n) (fun a => S ^ 2 * x ^ Z.abs_nat a)); [|rewrite Sum_scal; fold S; ring]. apply Sum_ext. intros a _.
    transitivity (Sum (zl n) (fun b => S * x ^ Z.abs_nat a * x ^ Z.abs_nat b)); [|rewrite Sum_scal; fold S; ring]. apply Sum_ext. intros b _. unfold zweight. rewrite Sum_scal. fold S. ring. }
  rewrite E. apply pow_incr. exact (zl_sum x n X).
Qed.
Lemma shells_sum x N f : 0 <= x <= 1 / 10 -> (forall g, In g (flat_map shell (seq 1 N)) -> f g <= zweight x g) -> Sum (flat_map shell (seq 1 N)) f <= (11 / 9) ^ 3 - 1.
Proof.
  intros X F. assert (IN : forall c, In c (flat_map shell (seq 1 N)) -> (1 <= znorm c <= N)%nat). { intros c. rewrite in_flat_map. intros (k & K & C1). apply in_seq in K. apply in_shell in C1. lia. }
  assert (D : NoDup (flat_map shell (seq 1 N))). { apply NoDup_flat_map; [apply seq_NoDup|intros; apply NoDup_shell|]. intros a b c _ _ H1 H2. apply in_shell in H1, H2. congruence. }
  assert (Q : Sum ((0,0,0)%Z :: flat_map shell (seq 1 N)) (zweight x) <= Sum (zcube N) (zweight x)).
  { apply Sum_incl.
    - constructor; [|exact D]. intros H. apply IN in H. cbn in H. lia.
    - intros [[h k] l] H. assert (K : (znorm (h, k, l) <= N)%nat) by (destruct H as [H|H]; [injection H as <- <- <-; cbn; lia|apply IN in H; lia]). unfold znorm in K. unfold zcube. rewrite !in_prod_iff. split; [split|]; apply in_zl; lia.
    - intros [[h k] l] _. unfold zweight. apply Rmult_le_pos; [apply Rmult_le_pos|]; apply pow_le; lra. }
  rewrite Sum_cons in Q. pose proof (zcube_sum x N X). assert (zweight x (0,0,0)%Z = 1) by (cbn; ring). pose proof (Sum_le (flat_map shell (seq 1 N)) f (zweight x) F). lra.
Qed.
(** The numbers *)
Definition close_atoms : list V3 := [(0, 0, 0); (1/8, 0, 0)].
Notation lam := (upper_lambda unit_cell3 unit_cell3 2 1).
Definition w := Rpower 2 (1 / 3).
Lemma w_bounds : 125 / 100 < w < 126 / 100.
Proof.
  assert (P : 0 < w) by apply exp_pos. assert (E : w ^ 3 = 2). { rewrite <- Rpower_pow by exact P. unfold w. rewrite Rpower_mult. replace (1 / 3 * INR 3) with 1 by (cbn; field). apply Rpower_1. lra. }
  split; apply Rnot_le_lt; intros H.
  - assert (w ^ 3 <= (125 / 100) ^ 3) by (apply pow_incr; lra). lra.
  - assert ((126 / 100) ^ 3 <= w ^ 3) by (apply pow_incr; lra). lra.
Qed.
Lemma Rpower_base_1 y : Rpower 1 y = 1.
Proof. unfold Rpower. rewrite ln_1, Rmult_0_r. apply exp_0. Qed.
Lemma norm_unit i : (i < 3)%nat -> norm (row unit_cell3 i) = 1.
Proof. intros H. destruct i as [|[|[|]]]; [| | |lia]; unfold norm, unit_cell3; cbn; match goal with |- sqrt ?x = 1 => replace x with 1 by ring end; apply sqrt_1. Qed.
Lemma lam_val : lam = sqrt PI * sqrt w.
Proof.
  unfold upper_lambda, np_linalg_det. rewrite !norm_unit by lia. replace (det3 unit_cell3) with 1 by (cbn; ring). replace (1 * 1 * 1) with 1 by ring. rewrite !Rpower_base_1. unfold w. rewrite <- (Rpower_sqrt (Rpower 2 (1 / 3))) by apply exp_pos. rewrite Rpower_mult. replace (1 / 3 * / 2) with (1 / 6) by field. change (INR 2) with 2. field.
Qed.
Lemma lam2_val : lam ^ 2 = PI * w.
Proof. rewrite lam_val. pose proof PI_RGT_0. pose proof w_bounds. transitivity ((sqrt PI * sqrt PI) * (sqrt w * sqrt w)); [ring|]. rewrite !sqrt_sqrt by lra. reflexivity. Qed.
Lemma small_exp : exp (- (PI / w)) <= 1 / 10.
Proof.
  pose proof PI_bounds. pose proof w_bounds. assert (C1 : 2376 / 1000 <= PI / w). { apply (Rmult_le_reg_r w); [lra|]. unfold Rdiv at 2. rewrite Rmult_assoc, Rinv_l by lra. lra. }
  rewrite exp_Ropp. assert (10 <= exp (PI / w)).
  { apply Rle_trans with (exp (2376 / 1000)); [|destruct C1 as [C1| ->]; [left; apply exp_increasing; exact C1|right; reflexivity]].
    assert (E : exp (2376 / 1000) = exp (495 / 10000) ^ 48). { rewrite <- Rpower_pow by apply exp_pos. unfold Rpower. rewrite ln_exp. f_equal. replace (INR 48) with 48 by (rewrite INR_IZR_INZ; reflexivity). field. }
    rewrite E. apply Rle_trans with ((1 + 495 / 10000) ^ 48); [lra|]. apply pow_incr. split; [lra|]. left. apply exp_ineq1. lra. }
  apply (Rmult_le_reg_r (exp (PI / w))); [apply exp_pos|]. rewrite Rinv_l by (apply Rgt_not_eq, exp_pos). lra.
Qed.
(** What the initialisation stores *)
Lemma init_shape erfc cell atom_r born diel dp : let dd := dipole_init erfc cell atom_r born diel dp in
  dd_lambda dd = upper_lambda cell diel (length atom_r) dp /\ (exists N, dd_cells dd = flat_map shell (seq 0 N)) /\
  combine (dd_cells dd) (dd_H dd) = map (fun c => (c, H_row erfc (upper_lambda cell diel (length atom_r) dp ^ 2) cell (inv3 diel) atom_r (znorm c) c)) (dd_cells dd) /\
  exists M, used_g dd vzero = map (g_row (reciprocal_cell cell) atom_r) (flat_map shell (seq 1 M)).
Proof.
  unfold dipole_init. set (lm := upper_lambda _ _ _ _). set (mk := H_row _ _ _ _ _).
  pose proof (real_shells_spec mk (length atom_r) (seq 0 50) 0) as [N [HN [Hc Hh]]].
  destruct (real_shells mk (length atom_r) (seq 0 50) 0) as [cells H]. cbn [fst snd] in Hc, Hh.
  pose proof (recip_shells_spec diel (reciprocal_cell cell) (lm ^ 2) atom_r (seq 1 49) 0 (fun _ _ _ _ => Czero)) as [M [HM [Hg Hacc]]].
  destruct (recip_shells diel (reciprocal_cell cell) (lm ^ 2) atom_r (seq 1 49) 0 (fun _ _ _ _ => Czero)) as [gs sum]. cbn [fst snd] in Hg, Hacc.
  rewrite seq_length in HN, HM. rewrite firstn_seq in Hc by exact HN. rewrite firstn_seq in Hg by exact HM.
  cbv zeta. cbn [dd_lambda dd_cells dd_H dd_gcart dd_gph]. split; [reflexivity|]. split; [exists N; exact Hc|]. split; [rewrite Hh; apply combine_map_r|].
  exists M. unfold used_g. cbn [dd_gcart dd_gph]. rewrite combine_fst_snd, is_gamma_vzero. cbn [tl]. exact Hg.
Qed.
Definition trace3 (f : nat -> R) : R := f 0%nat + f 1%nat + f 2%nat.
Lemma trace_sum {A} (l : list A) f : trace3 (fun a => Sum l (f a)) = Sum l (fun x => trace3 (fun a => f a x)).
Proof. unfold trace3. rewrite <- !Sum_plus. reflexivity. Qed.
Lemma inv_unit : inv3 unit_cell3 = unit_cell3.
Proof. unfold inv3, unit_cell3. cbn [det3]. repeat (match goal with |- (_, _) = (_, _) => f_equal end); field. Qed.
Lemma vmul_unit v : vmul v unit_cell3 = v.
Proof. destruct v as [[x y] z]. apply V3_eq; cbn; ring. Qed.
(** Reciprocal-space part *)
Lemma k_len g : k_len_2 unit_cell3 (lam ^ 2) (vmul (vadd (zvec g) vzero) (reciprocal_cell unit_cell3)) = PI / w * dot (zvec g) (zvec g).
Proof.
  rewrite unit_recip, lam2_val. pose proof PI_RGT_0. pose proof w_bounds. destruct g as [[h k] l]. unfold k_len_2, idx3. rewrite !Sum_cons, !Sum_nil. unfold mget, unit_cell3, vzero. cbn. field. lra.
Qed.
Lemma zsq_ge z : IZR z * IZR z >= INR (Z.abs_nat z).
Proof. rewrite INR_IZR_INZ. rewrite <- mult_IZR. apply Rle_ge, IZR_le. nia. Qed.
Lemma recip_bound g : g <> (0,0,0)%Z -> trace3 (fun a => recip_term unit_cell3 (lam ^ 2) (vmul (vadd (zvec g) vzero) (reciprocal_cell unit_cell3)) a a) = 4 * (PI * w) * exp (- (PI / w * dot (zvec g) (zvec g))) /\ exp (- (PI / w * dot (zvec g) (zvec g))) <= zweight (exp (- (PI / w))) g.
Proof.
  intros N. pose proof PI_RGT_0. pose proof w_bounds. assert (P : 0 < PI / w) by (apply Rdiv_lt_0_compat; lra). split.
  - unfold recip_term, trace3. rewrite !k_len. rewrite unit_recip.
    assert (D : 0 < dot (zvec g) (zvec g)).
    { destruct g as [[h k] l]. cbn. assert (E : (0 < h * h + k * k + l * l)%Z) by (destruct (Z.eq_dec h 0) as [->|]; [destruct (Z.eq_dec k 0) as [->|]; [destruct (Z.eq_dec l 0) as [->|]; [congruence|nia]|nia]|nia]). apply IZR_lt in E. rewrite !plus_IZR, !mult_IZR in E. lra. }
    set (x := exp _). destruct g as [[h k] l]. cbn in D |- *. field. lra.
  - unfold zweight. destruct g as [[h k] l]. rewrite <- !pow_add. rewrite <- Rpower_pow by apply exp_pos. unfold Rpower. rewrite ln_exp. rewrite !plus_INR.
    set (y := _ * - (PI / w)). set (z := - _). assert (z <= y). { unfold y, z. cbn. pose proof (zsq_ge h). pose proof (zsq_ge k). pose proof (zsq_ge l). nra. }
    destruct H1 as [H1| ->]; [left; apply exp_increasing; exact H1|right; reflexivity].
Qed.
(** Real-space part *)
Lemma block_trace erfc c : trace3 (fun a => H_val erfc (lam ^ 2) unit_cell3 unit_cell3 close_atoms (znorm c) c 0 1 a a)
  = 4 * exp (- (lam ^ 2 * ((1/8 + IZR (fst (fst c))) ^ 2 + IZR (snd (fst c)) ^ 2 + IZR (snd c) ^ 2))) / sqrt PI.
Proof.
  pose proof PI_RGT_0. pose proof w_bounds. assert (L : 0 < lam ^ 2) by (rewrite lam2_val; nra). generalize dependent (lam ^ 2). intros l2 L.
  unfold H_val. cbn [Nat.eqb]. rewrite Bool.andb_false_r. unfold trace3, H_block. rewrite !vmul_unit. destruct c as [[h k] l]. unfold close_atoms. cbn [nth fst snd zvec vsub]. cbn [dot comp mget unit_cell3 row].
  set (n := (_ + _) * l2).
  assert (E : n = l2 * ((1 / 8 + IZR h) ^ 2 + IZR k ^ 2 + IZR l ^ 2)) by (unfold n; ring).
  assert (P : 0 < n).
  { rewrite E. apply Rmult_lt_0_compat; [exact L|]. assert (1 / 8 + IZR h <> 0). { intros Q. assert (Y : IZR (1 + 8 * h) = 0) by (rewrite plus_IZR, mult_IZR; lra). apply eq_IZR in Y. lia. } nra. }
  rewrite <- E. set (X := exp (- n)). assert (S1 : 0 < sqrt PI) by (apply sqrt_lt_R0; lra). assert (S2 : 0 < sqrt n) by (apply sqrt_lt_R0; exact P). set (er := erfc (sqrt n)).
  set (f := er / (sqrt n * n)). set (e := 2 * X / (sqrt PI * n)).
  transitivity (3 * f + 3 * e + 2 * n * e - 3 * (f + e)); [|unfold e; field; lra].
  assert (Q : l2 * (3 * f / n + e * (3 / n + 2)) * ((0 - 1 / 8 - IZR h) * (0 - 1 / 8 - IZR h) + (0 - 0 - IZR k) * (0 - 0 - IZR k) + (0 - 0 - IZR l) * (0 - 0 - IZR l)) = 3 * f + 3 * e + 2 * n * e).
  { replace (l2 * (3 * f / n + e * (3 / n + 2)) * ((0 - 1 / 8 - IZR h) * (0 - 1 / 8 - IZR h) + (0 - 0 - IZR k) * (0 - 0 - IZR k) + (0 - 0 - IZR l) * (0 - 0 - IZR l))) with ((3 * f / n + e * (3 / n + 2)) * n) by (unfold n; ring). field. lra. }
  rewrite <- Q. ring.
Qed.
Lemma home_trace erfc : 4 * exp (- (PI * w / 64)) / sqrt PI = trace3 (fun a => H_val erfc (lam ^ 2) unit_cell3 unit_cell3 close_atoms 0 (0,0,0)%Z 0 1 a a).
Proof. pose proof (block_trace erfc (0,0,0)%Z) as T. change (znorm (0,0,0)%Z) with 0%nat in T. rewrite T, lam2_val. cbn [fst snd]. f_equal. f_equal. f_equal. field. Qed.
Theorem close_trace erfc : let dd := dipole_init erfc unit_cell3 close_atoms (fun _ => unit_cell3) unit_cell3 1 in
  trace3 (fun a => re (dipole_correction unit_cell3 close_atoms (fun _ => unit_cell3) unit_cell3 dd vzero a (3 + a)%nat)) < 0.
Proof.
  intros dd. pose proof PI_RGT_0 as PP. pose proof PI_bounds as PB. pose proof w_bounds as WB.
  destruct (init_shape erfc unit_cell3 close_atoms (fun _ => unit_cell3) unit_cell3 1) as (L & (N & CE) & CH & M & UG). fold dd in L, CE, CH, UG. change (length close_atoms) with 2%nat in L.
  pose proof (dipole_init_ok erfc unit_cell3 close_atoms (fun _ => unit_cell3) unit_cell3 1) as OK. fold dd in OK.
  assert (D : forall a, (a < 3)%nat -> re (dipole_correction unit_cell3 close_atoms (fun _ => unit_cell3) unit_cell3 dd vzero a (3 + a)%nat)
     = PI / (lam ^ 2) * Sum (flat_map shell (seq 1 M)) (fun g => recip_term unit_cell3 (lam ^ 2) (vmul (vadd (zvec g) vzero) (reciprocal_cell unit_cell3)) a a * cos (2 * PI * (0 - IZR (fst (fst g)) / 8)))
       - lam ^ 3 * Sum (dd_cells dd) (fun c => H_val erfc (lam ^ 2) unit_cell3 unit_cell3 close_atoms (znorm c) c 0 1 a a)).
  { intros a A. unfold dipole_correction. fold (dip_diff unit_cell3 close_atoms unit_cell3 dd (qnorm vzero)). rewrite qnorm_vzero.
    assert (E : born_contract (fun _ => unit_cell3) (dip_diff unit_cell3 close_atoms unit_cell3 dd vzero) 0 1 a a = dip_diff unit_cell3 close_atoms unit_cell3 dd vzero 0 1 a a).
    { unfold born_contract, idx3. rewrite !Csum_cons, !Csum_nil. destruct a as [|[|[|]]]; [| | |lia]; unfold mget, unit_cell3; cbn [row comp]; apply C_eq; cbn [Cadd Cscal Czero re im]; ring. }
    replace (a / 3)%nat with 0%nat by (destruct a as [|[|[|]]]; [| | |lia]; reflexivity). replace ((3 + a) / 3)%nat with 1%nat by (destruct a as [|[|[|]]]; [| | |lia]; reflexivity).
    replace (a mod 3)%nat with a by (destruct a as [|[|[|]]]; [| | |lia]; reflexivity). replace ((3 + a) mod 3)%nat with a by (destruct a as [|[|[|]]]; [| | |lia]; reflexivity).
    cbn [Nat.eqb]. rewrite E, dip_diff_upper by lia.
    rewrite (recip_closed _ _ _ _ _ _ 0 1 a a OK ltac:(lia) ltac:(cbn; lia) _ UG).
    rewrite (real_closed _ _ _ _ _ _ 0 1 a a OK ltac:(lia) ltac:(cbn; lia) _ CH). cbn [Csub Cscal re]. rewrite L. f_equal.
    - replace (cell_volume unit_cell3 * lam ^ 2) with (lam ^ 2) by (unfold cell_volume, cell_vectors_to_volume; cbn; ring). f_equal. unfold Csum. cbn [re]. apply Sum_ext. intros [[h k] l] _. cbn [Cscal re fst snd]. f_equal. unfold cis. cbn [re]. f_equal. unfold close_atoms. cbn. field.
    - unfold real_factor, np_linalg_det. replace (det3 unit_cell3) with 1 by (cbn; ring). rewrite sqrt_1. unfold Rdiv. rewrite Rinv_1, Rmult_1_r. f_equal. unfold Csum. cbn [re]. apply Sum_ext. intros c _.
      rewrite H_row_val by (cbn; lia). rewrite inv_unit. change (length close_atoms) with 2%nat. cbn [Cscal re]. unfold cis. cbn [re]. replace (2 * PI * dot vzero (zvec c)) with 0 by (destruct c as [[h k] l]; cbn; ring). rewrite cos_0. ring. }
  unfold trace3. rewrite !D by lia.
  set (F := fun a (g : Z3) => recip_term unit_cell3 (lam ^ 2) (vmul (vadd (zvec g) vzero) (reciprocal_cell unit_cell3)) a a * cos (2 * PI * (0 - IZR (fst (fst g)) / 8))).
  set (K := fun a c => H_val erfc (lam ^ 2) unit_cell3 unit_cell3 close_atoms (znorm c) c 0 1 a a).
  set (G := flat_map shell (seq 1 M)).
  assert (TR : Sum G (F 0%nat) + Sum G (F 1%nat) + Sum G (F 2%nat) <= 4 * (PI * w) * ((11 / 9) ^ 3 - 1)).
  { change (trace3 (fun a => Sum G (F a)) <= 4 * (PI * w) * ((11 / 9) ^ 3 - 1)). rewrite trace_sum. pose proof small_exp as SE.
    set (f := fun g : Z3 => trace3 (fun a => F a g) / (4 * (PI * w))).
    assert (Q : Sum G f <= (11 / 9) ^ 3 - 1).
    { apply (shells_sum (exp (- (PI / w)))); [split; [left; apply exp_pos|exact SE]|]. intros g I.
      assert (N0 : g <> (0,0,0)%Z). { intros ->. apply in_flat_map in I. destruct I as (s & S1 & I). apply in_seq in S1. apply in_shell in I. cbn in I. lia. }
      destruct (recip_bound g N0) as [R1 R2]. apply Rle_trans with (exp (- (PI / w * dot (zvec g) (zvec g)))); [|exact R2].
      unfold f, F. set (cs := cos _). assert (CB : cs <= 1) by apply COS_bound.
      assert (E : trace3 (fun a => recip_term unit_cell3 (lam ^ 2) (vmul (vadd (zvec g) vzero) (reciprocal_cell unit_cell3)) a a * cs) = cs * (4 * (PI * w) * exp (- (PI / w * dot (zvec g) (zvec g))))).
      { rewrite <- R1. unfold trace3. ring. }
      rewrite E. pose proof (exp_pos (- (PI / w * dot (zvec g) (zvec g)))). set (X := exp (- (PI / w * dot (zvec g) (zvec g)))) in *. clearbody X cs. replace (cs * (4 * (PI * w) * X) / (4 * (PI * w))) with (cs * X) by (field; lra). nra. }
    assert (E : Sum G (fun x => trace3 (fun a => F a x)) = 4 * (PI * w) * Sum G f). { rewrite <- Sum_scal. apply Sum_ext. intros g _. unfold f. field. lra. }
    rewrite E. apply Rmult_le_compat_l; [nra|exact Q]. }
  assert (HI : In (0,0,0)%Z (dd_cells dd)).
  { assert (NZ : exists a, (a < 3)%nat /\ H_val erfc (lam ^ 2) unit_cell3 unit_cell3 close_atoms 0 (0,0,0)%Z 0 1 a a <> 0).
    { pose proof (home_trace erfc) as T. assert (P : 0 < 4 * exp (- (PI * w / 64)) / sqrt PI). { apply Rdiv_lt_0_compat; [pose proof (exp_pos (- (PI * w / 64))); lra|apply sqrt_lt_R0; lra]. }
      rewrite T in P. unfold trace3 in P. set (h := fun a => H_val erfc (lam ^ 2) unit_cell3 unit_cell3 close_atoms 0 (0,0,0)%Z 0 1 a a) in *. 
      destruct (Req_EM_T (h 0%nat) 0) as [Z0|Z0]; [|exists 0%nat; split; [lia|exact Z0]]. destruct (Req_EM_T (h 1%nat) 0) as [Z1|Z1]; [|exists 1%nat; split; [lia|exact Z1]].
      exists 2%nat. split; [lia|]. intros Z2. change (h 2%nat = 0) in Z2. change (0 < h 0%nat + h 1%nat + h 2%nat) in P. lra. }
    destruct NZ as (a & A & NZ). apply (home_cell_included erfc unit_cell3 close_atoms (fun _ => unit_cell3) unit_cell3 1 0 1 a a); [lia|cbn; lia|exact A|exact A|]. rewrite H_row_val by (cbn; lia). rewrite inv_unit. exact NZ. }
  assert (TK : 4 * exp (- (PI * w / 64)) / sqrt PI <= Sum (dd_cells dd) (K 0%nat) + Sum (dd_cells dd) (K 1%nat) + Sum (dd_cells dd) (K 2%nat)).
  { change (4 * exp (- (PI * w / 64)) / sqrt PI <= trace3 (fun a => Sum (dd_cells dd) (K a))). rewrite trace_sum. rewrite (home_trace erfc).
    assert (PS : forall c, 0 <= trace3 (fun a => K a c)). { intros c. unfold K. rewrite block_trace. left. apply Rdiv_lt_0_compat; [match goal with |- 0 < 4 * exp ?y => pose proof (exp_pos y); lra end|apply sqrt_lt_R0; lra]. }
    change (trace3 (fun a => K a (0,0,0)%Z) <= Sum (dd_cells dd) (fun x => trace3 (fun a => K a x))).
    pose proof (Sum_incl [(0,0,0)%Z] (dd_cells dd) (fun x => trace3 (fun a => K a x))) as SI. rewrite Sum_cons, Sum_nil in SI. rewrite Rplus_0_r in SI. apply SI; [constructor; [intros []|constructor]|intros x [<-|[]]; exact HI|intros; apply PS]. }
  assert (LL : lam ^ 3 * (4 * exp (- (PI * w / 64)) / sqrt PI) = 4 * PI * (w * sqrt w) * exp (- (PI * w / 64))).
  { transitivity (lam ^ 2 * lam * (4 * exp (- (PI * w / 64)) / sqrt PI)); [ring|]. rewrite lam2_val, lam_val. field. apply Rgt_not_eq, sqrt_lt_R0. lra. }
  assert (LP : 0 < lam ^ 3). { rewrite lam_val. apply pow_lt. apply Rmult_lt_0_compat; apply sqrt_lt_R0; lra. }
  assert (E9 : 92 / 100 <= exp (- (PI * w / 64))). { pose proof (exp_ineq1_le (- (PI * w / 64))). nra. }
  assert (SW : 1 <= sqrt w) by (rewrite <- sqrt_1; apply sqrt_le_1_alt; lra).
  set (sf := Sum G (F 0%nat) + Sum G (F 1%nat) + Sum G (F 2%nat)) in *. set (sk := Sum (dd_cells dd) (K 0%nat) + Sum (dd_cells dd) (K 1%nat) + Sum (dd_cells dd) (K 2%nat)) in *.
  assert (A1 : PI / lam ^ 2 * sf <= 4 * PI * ((11 / 9) ^ 3 - 1)).
  { rewrite lam2_val. replace (PI / (PI * w)) with (/ w) by (field; lra). apply (Rmult_le_reg_l w); [lra|]. rewrite <- Rmult_assoc, Rinv_r, Rmult_1_l by lra. nra. }
  assert (A2 : 4 * PI * (115 / 100) <= lam ^ 3 * sk).
  { apply Rle_trans with (lam ^ 3 * (4 * exp (- (PI * w / 64)) / sqrt PI)); [|apply Rmult_le_compat_l; lra]. rewrite LL. rewrite !Rmult_assoc. apply Rmult_le_compat_l; [lra|]. apply Rmult_le_compat_l; [lra|]. assert (125 / 100 <= w * sqrt w) by nra. nra. }
  assert (PI / lam ^ 2 * sf - lam ^ 3 * sk < 0) by nra. 
  change ((PI / lam ^ 2 * Sum G (F 0%nat) - lam ^ 3 * Sum (dd_cells dd) (K 0%nat)) + (PI / lam ^ 2 * Sum G (F 1%nat) - lam ^ 3 * Sum (dd_cells dd) (K 1%nat)) + (PI / lam ^ 2 * Sum G (F 2%nat) - lam ^ 3 * Sum (dd_cells dd) (K 2%nat)) < 0).
  unfold sf, sk in H. lra.
Qed.
