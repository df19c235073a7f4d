(** Lemmas for C51: what from_total_fc_with_dipole subtracts. *)
From Verif Require Import Base Cpx Vec3 M_grid M_cell M_qpts M_dynmat M_dipole S_dynmat S_dipole M_struct M_asr M_total S_total L_util L_cell L_dipole L_nac L_dynmat2 L_near L_conv L_castepbin L_cgrad L_cmain L_total L_total2 L_asr4 L_asr6.
Open Scope R_scope.

Lemma nth_flat_const {A B} (f : A -> list B) w (da : A) (db : B) l k r : (forall x, length (f x) = w) -> (k < length l)%nat -> (r < w)%nat -> nth (k * w + r) (flat_map f l) db = nth r (f (nth k l da)) db.
Proof.
  intros L. revert k. induction l as [|x l IH]; intros k K R1; [cbn in K; lia|]. cbn [flat_map]. destruct k as [|k].
  - rewrite Nat.mul_0_l, Nat.add_0_l. rewrite app_nth1 by (rewrite L; exact R1). reflexivity.
  - rewrite app_nth2 by (rewrite L; cbn; lia). rewrite L. replace (S k * w + r - w)%nat with (k * w + r)%nat by (cbn; lia). cbn [nth]. apply IH; [cbn in K; lia|exact R1].
Qed.
Lemma length_sc_atoms d : length (sc_atom_r d) = (n_cells d * n_atoms d)%nat.
Proof. unfold sc_atom_r. rewrite (length_flat_map_const _ _ (n_atoms d)); [reflexivity|]. intros o _. apply map_length. Qed.
Lemma nth_sc_atoms d c j : (c < n_cells d)%nat -> (j < n_atoms d)%nat ->
  nth (c * n_atoms d + j) (sc_atom_r d) vzero = vmul (vadd (zvec (nth c (f_origins d) (0,0,0)%Z)) (nth j (f_atom_r d) vzero)) (sc_to_u_matrix d).
Proof.
  intros C1 J. unfold sc_atom_r. rewrite (nth_flat_const _ (n_atoms d) (0,0,0)%Z vzero); [|intros; apply map_length|exact C1|exact J].
  rewrite (map_nth_indep _ _ _ vzero vzero) by exact J. reflexivity.
Qed.
Lemma inv3_left m v : det3 m <> 0 -> vmul (vmul v (inv3 m)) m = v.
Proof.
  destruct m as [[[[a1 a2] a3] [[b1 b2] b3]] [[c1 c2] c3]], v as [[x y] z]. intros D. unfold inv3. cbn [det3] in *. set (dt := _ + _) in *.
  assert (E : dt = a1 * (b2 * c3 - b3 * c2) - a2 * (b1 * c3 - b3 * c1) + a3 * (b1 * c2 - b2 * c1)) by (unfold dt; ring). cbn [vmul row vadd vscal]. apply V3_eq; (apply (Rmult_eq_reg_r dt); [|exact D]); field_simplify; try exact D; rewrite E; ring.
Qed.
Lemma sc_vmul d v : vmul v (sc_vecs d) = vmul (vmul v (zrows (f_sc d))) (f_cell d).
Proof. unfold sc_vecs. destruct (zrows (f_sc d)) as [[[[? ?] ?] [[? ?] ?]] [[? ?] ?]]. destruct (f_cell d) as [[[[? ?] ?] [[? ?] ?]] [[? ?] ?]], v as [[? ?] ?]. cbn. apply V3_eq; ring. Qed.
Lemma atoms_placed d : det3 (zrows (f_sc d)) <> 0 -> symmetric3 (zrows (f_sc d)) -> supercell_atoms d (sc_atom_r d).
Proof.
  intros D S. split; [apply length_sc_atoms|]. intros c j C1 J. rewrite (nth_sc_atoms d c j C1 J). rewrite sc_vmul. unfold sc_to_u_matrix. rewrite (inv3_sym _ S). rewrite inv3_left by exact D. reflexivity.
Qed.

(** The correction at gamma is real and symmetric *)
Lemma vopp_vzero : vopp vzero = vzero.
Proof. unfold vopp, vzero. cbn. apply V3_eq; ring. Qed.
Section Gamma.
Variables (erfc : R -> R) (cell : M3) (l : list V3) (born : nat -> M3) (diel : M3).
Hypothesis Hsym : symmetric3 diel.
Variables x y : nat.
Hypothesis Hx : (x < 3 * length l)%nat.
Hypothesis Hy : (y < 3 * length l)%nat.
Lemma gamma_real : im (dipole_gamma erfc cell l born diel x y) = 0.
Proof.
  pose proof (dipole_conj _ _ _ born diel _ vzero x y (dipole_init_ok erfc cell l born diel 1) Hx Hy) as E. rewrite vopp_vzero in E. apply (f_equal im) in E. cbn [Cconj im] in E. unfold dipole_gamma. lra.
Qed.
Lemma gamma_sym : re (dipole_gamma erfc cell l born diel y x) = re (dipole_gamma erfc cell l born diel x y).
Proof.
  unfold dipole_gamma. rewrite (dipole_herm erfc cell l born diel _ _ (dipole_init_ok erfc cell l born diel 1) Hsym vzero x y Hx Hy). reflexivity.
Qed.
End Gamma.
Theorem subtracts erfc d born diel : det3 (zrows (f_sc d)) <> 0 -> symmetric3 (zrows (f_sc d)) -> symmetric3 diel ->
  exists l, supercell_atoms d l /\
    forall c a b, (c < n_cells d)%nat -> (a < 3 * n_atoms d)%nat -> (b < 3 * n_atoms d)%nat ->
      f_fc d c a b = from_total_fc erfc d born diel c a b + re (dipole_gamma erfc (sc_vecs d) l (fun i => born (i mod n_atoms d)%nat) diel a (c * (3 * n_atoms d) + b)) /\
      im (dipole_gamma erfc (sc_vecs d) l (fun i => born (i mod n_atoms d)%nat) diel a (c * (3 * n_atoms d) + b)) = 0.
Proof.
  intros D S SD. exists (sc_atom_r d). split; [exact (atoms_placed d D S)|]. intros c a b C1 A B.
  assert (X : (a < 3 * length (sc_atom_r d))%nat). { rewrite length_sc_atoms. assert (n_atoms d <= n_cells d * n_atoms d)%nat by (apply Nat.le_trans with (1 * n_atoms d)%nat; [lia|apply Nat.mul_le_mono_r; lia]). lia. }
  assert (Y : (c * (3 * n_atoms d) + b < 3 * length (sc_atom_r d))%nat). { rewrite length_sc_atoms. replace (3 * (n_cells d * n_atoms d))%nat with (n_cells d * (3 * n_atoms d))%nat by ring. apply Nat.lt_le_trans with ((c + 1) * (3 * n_atoms d))%nat; [lia|apply Nat.mul_le_mono_r; lia]. }
  split; [|apply gamma_real; assumption].
  rewrite <- (gamma_sym erfc (sc_vecs d) (sc_atom_r d) (fun i => born (i mod n_atoms d)%nat) diel SD _ _ X Y). unfold from_total_fc, sc_dipole, dipole_gamma, sc_born. ring.
Qed.

(** A supercell of one cell: interpolating the result at gamma gives the total force constants back *)
Lemma dipole_born_ext erfc cell l born born' diel x y : (forall i, (i < length l)%nat -> born i = born' i) -> (x < 3 * length l)%nat -> (y < 3 * length l)%nat ->
  dipole_gamma erfc cell l born diel x y = dipole_gamma erfc cell l born' diel x y.
Proof.
  intros E X Y. assert (I : (x / 3 < length l)%nat) by (apply Nat.div_lt_upper_bound; lia). assert (J : (y / 3 < length l)%nat) by (apply Nat.div_lt_upper_bound; lia).
  assert (BC : forall m i j a b, (i < length l)%nat -> (j < length l)%nat -> born_contract born m i j a b = born_contract born' m i j a b).
  { intros m i j a b Hi Hj. unfold born_contract. rewrite (E i Hi), (E j Hj). reflexivity. }
  unfold dipole_gamma, dipole_correction, dipole_init. destruct (real_shells _ _ _ _) as [cs hs]. destruct (recip_shells _ _ _ _ _ _ _) as [gs acc]. cbv zeta.
  set (q0 := dipole_q0 born _ _). set (q0' := dipole_q0 born' _ _). rewrite (BC _ _ _ _ _ I J). destruct (Nat.eqb _ _); [|reflexivity]. cbn [dd_q0]. f_equal.
  unfold q0, q0', dipole_q0. f_equal. f_equal; apply Csum_ext; intros j Hj; apply in_seq in Hj; apply BC; lia.
Qed.
Definition id_sc : Z3 * Z3 * Z3 := ((1,0,0),(0,1,0),(0,0,1))%Z.
Lemma id_vecs d : f_sc d = id_sc -> sc_vecs d = f_cell d.
Proof. intros E. unfold sc_vecs. rewrite E. unfold id_sc. cbn [zrows zvec]. destruct (f_cell d) as [[[[? ?] ?] [[? ?] ?]] [[? ?] ?]]. cbn. repeat (match goal with |- (_, _) = (_, _) => f_equal end); ring. Qed.
Lemma id_atoms d : f_sc d = id_sc -> f_origins d = [(0,0,0)%Z] -> sc_atom_r d = f_atom_r d.
Proof.
  intros E O. unfold sc_atom_r. rewrite O. cbn [flat_map]. rewrite app_nil_r. unfold sc_to_u_matrix. rewrite E.
  replace (transpose (inv3 (zrows id_sc))) with unit_cell3 by (change (zrows id_sc) with unit_cell3; rewrite inv_unit; reflexivity).
  induction (f_atom_r d) as [|r l IH]; [reflexivity|]. cbn [map]. rewrite IH. f_equal. rewrite vmul_unit. destruct r as [[? ?] ?]. cbn. apply V3_eq; ring.
Qed.
Theorem one_cell_back erfc d junk born diel a b : f_sc d = id_sc -> f_origins d = [(0,0,0)%Z] -> symmetric3 diel ->
  search_complete d -> (a < 3 * n_atoms d)%nat -> (b < 3 * n_atoms d)%nat ->
  polar_dyn_mat erfc (with_fc d (from_total_fc erfc d born diel)) junk born diel 1 vzero a b = RtoC (f_fc d 0 a b).
Proof.
  intros E O S OS A B. set (fc' := from_total_fc erfc d born diel). unfold polar_dyn_mat. cbn [with_fc f_cell f_atom_r].
  rewrite (gamma_sum_general (with_fc d fc') junk a b); [|unfold home_first; cbn [with_fc f_origins]; rewrite O; reflexivity|exact OS|exact A|exact B].
  replace (n_cells (with_fc d fc')) with 1%nat by (unfold n_cells; cbn [with_fc f_origins]; rewrite O; reflexivity). unfold sumn. cbn [seq]. rewrite Sum_cons, Sum_nil. cbn [with_fc f_fc]. unfold fc'.
  assert (L : forall x, (x < 3 * n_atoms d)%nat -> (x < 3 * length (f_atom_r d))%nat) by (intros x Hx; exact Hx).
  assert (Q : sc_dipole erfc d born diel (0 * (3 * n_atoms d) + b)%nat a = dipole_gamma erfc (f_cell d) (f_atom_r d) born diel b a).
  { rewrite Nat.mul_0_l, Nat.add_0_l. unfold sc_dipole. rewrite (id_vecs d E), (id_atoms d E O). apply dipole_born_ext; [|apply L; exact B|apply L; exact A]. intros i Hi. unfold sc_born. rewrite Nat.mod_small; [reflexivity|exact Hi]. }
  unfold from_total_fc. rewrite Q. rewrite (gamma_sym erfc (f_cell d) (f_atom_r d) born diel S a b (L _ A) (L _ B)).
  pose proof (gamma_real erfc (f_cell d) (f_atom_r d) born diel a b (L _ A) (L _ B)) as Z. fold (dipole_gamma erfc (f_cell d) (f_atom_r d) born diel a b). apply C_eq; cbn [Cadd RtoC re im]; [ring|rewrite Z; ring].
Qed.

(** Units of the dielectric tensor *)
Lemma mscal_times s m : mscal s m = times s m.
Proof. reflexivity. Qed.
Theorem unit_scale erfc d born mag s c a b : 0 < s -> 0 < det3 mag ->
  f_fc d c a b - from_total_fc erfc d born mag c a b = s * (f_fc d c a b - from_total_fc erfc d born (times s mag) c a b).
Proof.
  intros S D. unfold from_total_fc, sc_dipole. rewrite <- mscal_times.
  rewrite (dipole_scale s erfc (sc_vecs d) (sc_atom_r d) (sc_born d born) mag 1 S D). cbn [Cscal re]. unfold L_total.dd. field. lra.
Qed.
Definition close_pair (fc : nat -> nat -> nat -> R) : fcdata := mkFC unit_cell3 close_atoms id_sc [(0,0,0)%Z] fc.
Lemma close_unit erfc fc s : 0 < s -> s <> 1 -> exists a, (a < 3)%nat /\
  from_total_fc erfc (close_pair fc) (fun _ => unit_cell3) (times (/ s) unit_cell3) 0 a (3 + a) <> from_total_fc erfc (close_pair fc) (fun _ => unit_cell3) unit_cell3 0 a (3 + a).
Proof.
  intros S N. set (d := close_pair fc).
  set (g := fun a => f_fc d 0 a (3 + a)%nat - from_total_fc erfc d (fun _ => unit_cell3) unit_cell3 0 a (3 + a)).
  assert (G : forall a, (a < 3)%nat -> g a = re (dipole_gamma erfc unit_cell3 close_atoms (fun _ => unit_cell3) unit_cell3 a (3 + a))).
  { intros a A. unfold g, from_total_fc. change (n_atoms d) with 2%nat. rewrite Nat.mul_0_l, Nat.add_0_l. unfold sc_dipole. rewrite (id_vecs d eq_refl), (id_atoms d eq_refl eq_refl). change (f_cell d) with unit_cell3. change (f_atom_r d) with close_atoms.
    change (sc_born d (fun _ => unit_cell3)) with (fun _ : nat => unit_cell3). fold (dipole_gamma erfc unit_cell3 close_atoms (fun _ => unit_cell3) unit_cell3 (3 + a) a).
    rewrite (gamma_sym erfc unit_cell3 close_atoms (fun _ => unit_cell3) unit_cell3 eq_refl a (3 + a)) by (cbn; lia). ring. }
  pose proof (close_trace erfc) as T. unfold trace3 in T. fold (dipole_gamma erfc unit_cell3 close_atoms (fun _ => unit_cell3) unit_cell3 0 (3 + 0)) (dipole_gamma erfc unit_cell3 close_atoms (fun _ => unit_cell3) unit_cell3 1 (3 + 1)) (dipole_gamma erfc unit_cell3 close_atoms (fun _ => unit_cell3) unit_cell3 2 (3 + 2)) in T. rewrite <- !G in T by lia.
  assert (NZ : exists a, (a < 3)%nat /\ g a <> 0).
  { destruct (Req_EM_T (g 0%nat) 0) as [Z0|Z0]; [|exists 0%nat; split; [lia|exact Z0]]. destruct (Req_EM_T (g 1%nat) 0) as [Z1|Z1]; [|exists 1%nat; split; [lia|exact Z1]]. exists 2%nat. split; [lia|]. intros Z2. lra. }
  destruct NZ as (a & A & NZ). exists a. split; [exact A|]. intros E. apply NZ.
  assert (DP : 0 < det3 (times (/ s) unit_cell3)). { rewrite <- mscal_times, det_mscal. replace (det3 unit_cell3) with 1 by (cbn; ring). rewrite Rmult_1_r. apply pow_lt, Rinv_0_lt_compat, S. }
  pose proof (unit_scale erfc d (fun _ => unit_cell3) (times (/ s) unit_cell3) s 0 a (3 + a) S DP) as U.
  replace (times s (times (/ s) unit_cell3)) with unit_cell3 in U by (unfold times, unit_cell3, vscal; repeat (match goal with |- (_, _) = (_, _) => f_equal end); field; lra).
  rewrite E in U. change (g a = s * g a) in U. assert ((s - 1) * g a = 0) by lra. apply Rmult_integral in H. destruct H; [lra|assumption].
Qed.

(** A supercell matrix that is not symmetric: atoms on top of one another *)
Definition slanted (fc : nat -> nat -> nat -> R) : fcdata := mkFC unit_cell3 [vzero] ((1,0,0),(1,2,0),(0,0,1))%Z [(0,0,0)%Z; (1,1,0)%Z] fc.
Lemma slanted_inv fc : sc_to_u_matrix (slanted fc) = ((1, - (1/2), 0), (0, 1/2, 0), (0, 0, 1)).
Proof. unfold sc_to_u_matrix, inv3. cbn. repeat (match goal with |- (_, _) = (_, _) => f_equal end); field. Qed.
Lemma slanted_distinct : ~ same_mod_supercell ((1,0,0),(1,2,0),(0,0,1))%Z (0,0,0)%Z (1,1,0)%Z.
Proof. intros [[[x y] z] E]. cbn in E. injection E as E1 E2 E3. lia. Qed.
Theorem slanted_coincide fc : let d := slanted fc in
  det3 (zrows (f_sc d)) <> 0 /\ home_first d /\ ~ same_mod_supercell (f_sc d) (0,0,0)%Z (1,1,0)%Z /\
  sc_atom_r d = [(0,0,0); (1,0,0)] /\ ~ supercell_atoms d (sc_atom_r d).
Proof.
  intros d. split; [cbn; lra|]. split; [reflexivity|]. split; [exact slanted_distinct|].
  assert (E : sc_atom_r d = [(0,0,0); (1,0,0)]).
  { unfold sc_atom_r. unfold d. rewrite slanted_inv. cbn [slanted f_origins f_atom_r flat_map map app]. cbn. repeat f_equal; field. }
  split; [exact E|]. rewrite E. intros [_ H]. specialize (H 1%nat 0%nat ltac:(cbn; lia) ltac:(cbn; lia)). unfold atom_pos, sc_vecs in H. cbn in H. injection H as H1 H2 H3. lra.
Qed.
