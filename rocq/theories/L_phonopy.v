(** Lemmas for C67: indices, matrices and placement. *)
From Coq Require Import String Sorted.
From Verif Require Import Base Vec3 M_grid M_cell M_qpts M_dynmat M_dipole M_struct M_phonopy S_dynmat S_struct S_phonopy L_grid L_cell L_qpts L_omp L_scidx L_util L_conv L_conv2.
Open Scope R_scope.

(** np.unique *)
Lemma zinsert_in z l x : In x (zinsert z l) <-> x = z \/ In x l.
Proof.
  induction l as [|y l IH]; cbn [zinsert]; [cbn; intuition|]. destruct (Z.ltb_spec z y); [cbn; intuition|].
  destruct (Z.eqb_spec z y) as [->|]; [cbn; intuition|]. cbn [In]. rewrite IH. cbn. intuition.
Qed.
Lemma zunique_in l x : In x (zunique l) <-> In x l.
Proof. induction l as [|y l IH]; [reflexivity|]. cbn [zunique fold_right]. rewrite zinsert_in. unfold zunique in IH. rewrite IH. cbn. intuition. Qed.
Lemma zinsert_sorted z l : StronglySorted Z.lt l -> StronglySorted Z.lt (zinsert z l).
Proof.
  induction 1 as [|y l HS IH HF]; cbn [zinsert]; [repeat constructor|]. destruct (Z.ltb_spec z y).
  - constructor; [constructor; assumption|]. constructor; [exact H|]. eapply Forall_impl; [|exact HF]. intros; lia.
  - destruct (Z.eqb_spec z y); [constructor; assumption|]. constructor; [exact IH|]. apply Forall_forall. intros x Hx. apply zinsert_in in Hx.
    destruct Hx as [->|Hx]; [lia|]. rewrite Forall_forall in HF. apply HF. exact Hx.
Qed.
Lemma zunique_sorted l : StronglySorted Z.lt (zunique l).
Proof. induction l; [constructor|]. apply zinsert_sorted. assumption. Qed.
Lemma sorted_unique l : forall l', StronglySorted Z.lt l -> StronglySorted Z.lt l' -> (forall x, In x l <-> In x l') -> l = l'.
Proof.
  induction l as [|x l IH]; intros [|y l'] S1 S2 H; [reflexivity|exfalso; apply (proj2 (H y)); left; reflexivity|exfalso; apply (proj1 (H x)); left; reflexivity|].
  inversion_clear S1 as [|? ? A1 A2]. inversion_clear S2 as [|? ? B1 B2]. rewrite Forall_forall in A2, B2.
  assert (x = y) as ->.
  { destruct (proj1 (H x) (or_introl eq_refl)) as [->|Hx]; [reflexivity|]. destruct (proj2 (H y) (or_introl eq_refl)) as [->|Hy]; [reflexivity|].
    specialize (A2 _ Hy). specialize (B2 _ Hx). lia. }
  f_equal. apply IH; [exact A1|exact B1|]. intros z. split; intros Hz.
  - destruct (proj1 (H z) (or_intror Hz)) as [->|]; [|assumption]. specialize (A2 _ Hz). lia.
  - destruct (proj2 (H z) (or_intror Hz)) as [->|]; [|assumption]. specialize (B2 _ Hz). lia.
Qed.
Lemma position_nth reps j : NoDup reps -> (j < length reps)%nat -> position (Z.of_nat (nth j reps 0%nat)) (map Z.of_nat reps) = j.
Proof.
  revert j. induction reps as [|r reps IH]; intros j HN Hj; [cbn in Hj; lia|]. inversion_clear HN. destruct j; cbn [nth map position].
  - rewrite Z.eqb_refl. reflexivity.
  - destruct (Z.eqb_spec (Z.of_nat (nth j reps 0%nat)) (Z.of_nat r)) as [E|]; [|rewrite IH; [reflexivity|assumption|cbn in Hj; lia]].
    exfalso. apply H. apply Nat2Z.inj in E. rewrite <- E. apply nth_In. cbn in Hj. lia.
Qed.
Lemma strong_nodup l : StronglySorted lt l -> NoDup l.
Proof. induction 1; constructor; [|assumption]. intros Hi. rewrite Forall_forall in H0. specialize (H0 _ Hi). lia. Qed.

(** reduced_to *)
Lemma all_reduced_some l : (forall p, In p l -> pt_reduced p <> None) -> exists z, all_reduced l = Some z /\ length z = length l /\ forall s p, nth_error l s = Some p -> pt_reduced p = Some (nth s z 0%Z).
Proof.
  induction l as [|p l IH]; intros H.
  - exists []. repeat split. intros [|s] p E; discriminate.
  - destruct IH as [z [E1 [E2 E3]]]; [intros q Hq; apply H; right; exact Hq|]. cbn [all_reduced]. destruct (pt_reduced p) as [x|] eqn:Ep; [|exfalso; exact (H p (or_introl eq_refl) Ep)].
    rewrite E1. exists (x :: z). split; [reflexivity|]. split; [cbn; congruence|]. intros [|s] q E; cbn in *; [congruence|]. apply E3. exact E.
Qed.
Section Indices.
Variables (f : summary) (reps : list nat) (idx : list Z).
Hypothesis HW : well_numbered f.
Hypothesis HR : representatives f reps.
Hypothesis HI : idx_in_pcell (s_sc_points f) = Ok idx.
Let n := length (s_sc_points f).

Lemma copy_bound s r : copy_of f s r -> (s < n)%nat.
Proof. intros [p [E _]]. apply nth_error_Some. congruence. Qed.
Lemma copy_fun s r r' : copy_of f s r -> copy_of f s r' -> r = r'.
Proof. intros [p [E1 E2]] [q [E3 E4]]. assert (p = q) by congruence. subst q. assert (Z.of_nat (S r) = Z.of_nat (S r')) by congruence. lia. Qed.
Lemma copies_exist s : (s < n)%nat -> exists r, (r <= s)%nat /\ copy_of f s r /\ In r reps.
Proof. intros Hs. destruct (HW s Hs) as [r [H1 [H2 H3]]]. exists r. split; [exact H1|]. split; [exact H2|]. apply HR. exact H3. Qed.
Lemma indices : length idx = n /\ forall s r, copy_of f s r -> nth s idx 0%Z = Z.of_nat (S r).
Proof.
  assert (A : forall p, In p (s_sc_points f) -> pt_reduced p <> None).
  { intros p Hp. apply In_nth_error in Hp. destruct Hp as [s Hs]. assert (s < n)%nat as L by (apply nth_error_Some; congruence).
    destruct (HW s L) as [r [_ [[q [E1 E2]] _]]]. congruence. }
  destruct (all_reduced_some _ A) as [z [E1 [E2 E3]]]. revert HI. unfold idx_in_pcell.
  destruct (s_sc_points f) as [|p l] eqn:El; [discriminate|]. destruct (pt_reduced p) eqn:Ep; [|exfalso; exact (A p (or_introl eq_refl) Ep)].
  rewrite E1. intros H. assert (z = idx) as -> by congruence. split; [first [exact E2|unfold n; rewrite El; exact E2|unfold n; cbn [length] in *; exact E2]|].
  intros s r [q [F1 F2]]. rewrite El in F1. rewrite (E3 s q F1) in F2. congruence.
Qed.
Lemma unique_reps : zunique (map (fun z => z - 1)%Z idx) = map Z.of_nat reps.
Proof.
  destruct indices as [Ln Hx]. apply sorted_unique; [apply zunique_sorted| |].
  - destruct HR as [S _]. clear -S. induction S as [|r l S IH F]; cbn [map]; constructor; [exact IH|]. apply Forall_forall. intros x Hx. apply in_map_iff in Hx.
    destruct Hx as [y [<- Hy]]. rewrite Forall_forall in F. specialize (F y Hy). lia.
  - intros x. rewrite zunique_in, !in_map_iff. split.
    + intros [z [<- Hz]]. apply (In_nth _ _ 0%Z) in Hz. destruct Hz as [s [Hs <-]]. rewrite Ln in Hs. destruct (copies_exist s Hs) as [r [_ [C1 C2]]].
      exists r. split; [rewrite (Hx s r C1); lia|exact C2].
    + intros [r [<- Hr]]. apply HR in Hr. exists (Z.of_nat (S r)). split; [lia|]. rewrite <- (Hx r r Hr). apply nth_In. rewrite Ln. apply (copy_bound r r Hr).
Qed.
Lemma pc_to_sc_reps : pc_to_sc (length idx) idx = reps.
Proof.
  unfold pc_to_sc. rewrite unique_reps. rewrite map_map. rewrite <- (map_id reps) at 2. apply map_ext. intros r. unfold py_index.
  destruct (Z.ltb_spec (Z.of_nat r) 0); lia.
Qed.
Lemma sc_to_pc_spec : length (sc_to_pc idx) = n /\ forall s j, (j < length reps)%nat -> copy_of f s (nth j reps 0%nat) -> nth s (sc_to_pc idx) 0%nat = j.
Proof.
  destruct indices as [Ln Hx]. unfold sc_to_pc. split; [rewrite !map_length; exact Ln|]. intros s j Hj HC. rewrite unique_reps.
  rewrite (map_nth_indep _ _ s 0%Z) by (rewrite map_length, Ln; exact (copy_bound _ _ HC)).
  rewrite (map_nth_indep _ idx s 0%Z) by (rewrite Ln; exact (copy_bound _ _ HC)). rewrite (Hx _ _ HC).
  replace (Z.of_nat (S (nth j reps 0%nat)) - 1)%Z with (Z.of_nat (nth j reps 0%nat)) by lia. apply position_nth; [apply strong_nodup; apply HR|exact Hj].
Qed.
Lemma copy_index s : (s < n)%nat -> exists j, (j < length reps)%nat /\ copy_of f s (nth j reps 0%nat) /\ (nth j reps 0%nat <= s)%nat /\ nth s (sc_to_pc idx) 0%nat = j.
Proof.
  intros Hs. destruct (copies_exist s Hs) as [r [H1 [H2 H3]]]. apply (In_nth _ _ 0%nat) in H3. destruct H3 as [j [Hj <-]].
  exists j. repeat split; try assumption. apply sc_to_pc_spec; assumption.
Qed.
Lemma rep_self i : (i < length reps)%nat -> copy_of f (nth i reps 0%nat) (nth i reps 0%nat).
Proof. intros Hi. apply HR. apply nth_In. exact Hi. Qed.
Lemma first_copy i : (i < length reps)%nat -> first_where (sc_to_pc idx) i = Some (nth i reps 0%nat).
Proof.
  intros Hi. destruct sc_to_pc_spec as [L H]. pose proof (rep_self i Hi) as HS. pose proof (copy_bound _ _ HS) as HB.
  assert (NE : nth_error (sc_to_pc idx) (nth i reps 0%nat) = Some i) by (rewrite (nth_error_nth' _ 0%nat) by lia; f_equal; apply (H _ _ Hi HS)).
  pose proof (first_where_spec (sc_to_pc idx) i) as F. destruct (first_where (sc_to_pc idx) i) as [k|].
  - destruct F as [F1 F3]. f_equal. assert (F2 : (k < n)%nat) by (rewrite <- L; apply nth_error_Some; congruence).
    destruct (copy_index k F2) as [j [J1 [J2 [J3 J4]]]]. apply (nth_error_nth _ _ 0%nat) in F1.
    assert (j = i) as -> by congruence. destruct (Nat.eq_dec k (nth i reps 0%nat)) as [E|E]; [exact E|]. exfalso.
    refine (F3 (nth i reps 0%nat) _ NE). lia.
  - exfalso. exact (F _ NE).
Qed.
End Indices.

(** Matrices *)
Lemma vmul_mmul v a b : vmul v (mmul a b) = vmul (vmul v a) b.
Proof. destruct v as [[? ?] ?], a as [[[[? ?] ?] [[? ?] ?]] [[? ?] ?]], b as [[[[? ?] ?] [[? ?] ?]] [[? ?] ?]]. apply V3_eq; cbn; ring. Qed.
Lemma vmul_ext a b : (forall v, vmul v a = vmul v b) -> a = b.
Proof.
  intros H. pose proof (H (1,0,0)) as H1. pose proof (H (0,1,0)) as H2. pose proof (H (0,0,1)) as H3. clear H.
  destruct a as [[[[a1 a2] a3] [[b1 b2] b3]] [[c1 c2] c3]], b as [[[[a1' a2'] a3'] [[b1' b2'] b3']] [[c1' c2'] c3']]. cbn in *.
  injection H1 as X1 X2 X3. injection H2 as Y1 Y2 Y3. injection H3 as Z1 Z2 Z3. repeat f_equal; lra.
Qed.
Lemma vmul_inj u v w : det3 u <> 0 -> vmul v u = vmul w u -> v = w.
Proof.
  destruct u as [[[[a1 a2] a3] [[b1 b2] b3]] [[c1 c2] c3]], v as [[v1 v2] v3], w as [[w1 w2] w3]. cbn. intros D H. injection H as X1 X2 X3.
  assert (forall p q, p - q = 0 -> p = q) as Z by (intros; lra).
  apply V3_eq; apply Z; match type of D with ?d <> 0 => apply (Rmult_eq_reg_l d); [|exact D]; rewrite Rmult_0_r end.
  - transitivity ((v1*a1+v2*b1+v3*c1 - (w1*a1+w2*b1+w3*c1)) * (b2*c3-b3*c2) - (v1*a2+v2*b2+v3*c2 - (w1*a2+w2*b2+w3*c2)) * (b1*c3-b3*c1) + (v1*a3+v2*b3+v3*c3 - (w1*a3+w2*b3+w3*c3)) * (b1*c2-b2*c1)); [ring|].
    replace (v1*a1+v2*b1+v3*c1 - (w1*a1+w2*b1+w3*c1)) with 0 by lra. replace (v1*a2+v2*b2+v3*c2 - (w1*a2+w2*b2+w3*c2)) with 0 by lra. replace (v1*a3+v2*b3+v3*c3 - (w1*a3+w2*b3+w3*c3)) with 0 by lra. ring.
  - transitivity (- (v1*a1+v2*b1+v3*c1 - (w1*a1+w2*b1+w3*c1)) * (a2*c3-a3*c2) + (v1*a2+v2*b2+v3*c2 - (w1*a2+w2*b2+w3*c2)) * (a1*c3-a3*c1) - (v1*a3+v2*b3+v3*c3 - (w1*a3+w2*b3+w3*c3)) * (a1*c2-a2*c1)); [ring|].
    replace (v1*a1+v2*b1+v3*c1 - (w1*a1+w2*b1+w3*c1)) with 0 by lra. replace (v1*a2+v2*b2+v3*c2 - (w1*a2+w2*b2+w3*c2)) with 0 by lra. replace (v1*a3+v2*b3+v3*c3 - (w1*a3+w2*b3+w3*c3)) with 0 by lra. ring.
  - transitivity ((v1*a1+v2*b1+v3*c1 - (w1*a1+w2*b1+w3*c1)) * (a2*b3-a3*b2) - (v1*a2+v2*b2+v3*c2 - (w1*a2+w2*b2+w3*c2)) * (a1*b3-a3*b1) + (v1*a3+v2*b3+v3*c3 - (w1*a3+w2*b3+w3*c3)) * (a1*b2-a2*b1)); [ring|].
    replace (v1*a1+v2*b1+v3*c1 - (w1*a1+w2*b1+w3*c1)) with 0 by lra. replace (v1*a2+v2*b2+v3*c2 - (w1*a2+w2*b2+w3*c2)) with 0 by lra. replace (v1*a3+v2*b3+v3*c3 - (w1*a3+w2*b3+w3*c3)) with 0 by lra. ring.
Qed.
Lemma inv_transpose p v : det3 p <> 0 -> vmul (vmul v (transpose p)) (transpose (inv3 p)) = v.
Proof.
  destruct p as [[[[a1 a2] a3] [[b1 b2] b3]] [[c1 c2] c3]], v as [[x y] z]. intros D. unfold inv3. cbn [det3] in *. set (dt := _ + _) in *.
  assert (E : dt = a1 * (b2 * c3 - b3 * c2) - a2 * (b1 * c3 - b3 * c1) + a3 * (b1 * c2 - b2 * c1)) by (unfold dt; ring).
  cbn [vmul row vadd vscal transpose]. apply V3_eq; (apply (Rmult_eq_reg_r dt); [|exact D]); field_simplify; try exact D; rewrite E; ring.
Qed.
Lemma mrint_whole K : mrint (zrows K) = K.
Proof. destruct K as [[[[? ?] ?] [[? ?] ?]] [[? ?] ?]]. cbn [zrows mrint vrint zvec]. rewrite !rint_IZR. reflexivity. Qed.
Lemma zrows_inj K K' : zrows K = zrows K' -> K = K'.
Proof. intros H. rewrite <- (mrint_whole K), H. apply mrint_whole. Qed.
Lemma vmul_identity v : vmul v identity3 = v.
Proof. destruct v as [[? ?] ?]. apply V3_eq; cbn; ring. Qed.

Lemma supercell_matrix_right f U L K : lattices f U L K -> symmetric_z (s_supercell_matrix f) -> p_to_sc_matrix f = K.
Proof.
  intros [G1 [G2 [G3 [G4 G5]]]] S. unfold symmetric_z in S.
  assert (E : forall v, vmul (vmul v (zrows K)) (transpose (prim_matrix f)) = vmul v (zrows (s_supercell_matrix f))).
  { intros v. apply (vmul_inj U); [exact G4|]. rewrite <- G1, <- G3, G2, S. reflexivity. }
  unfold p_to_sc_matrix. unfold prim_matrix in *. destruct (s_primitive_matrix f) as [p|].
  - rewrite <- (mrint_whole K). f_equal. apply vmul_ext. intros v. rewrite vmul_mmul. rewrite <- E. apply inv_transpose. exact G5.
  - apply zrows_inj, vmul_ext. intros v. rewrite <- E. change (transpose identity3) with identity3. rewrite vmul_identity. reflexivity.
Qed.

(** Placement *)
Lemma vfloor_in v : in_unit_cell v -> vsub v (zvec (vfloor v)) = v.
Proof.
  destruct v as [[x y] z]. intros [Hx [Hy Hz]]. cbn [vfloor zvec].
  assert (I : forall t, 0 <= t < 1 -> Int_part t = 0%Z).
  { intros t Ht. destruct (base_Int_part t) as [B1 B2]. assert (-1 < Int_part t)%Z by (apply lt_IZR; lra). assert (Int_part t < 1)%Z by (apply lt_IZR; lra). lia. }
  rewrite !I by assumption. apply V3_eq; lra.
Qed.
Lemma zvec_zmul3 m K : zvec (zmul3 m K) = vmul (zvec m) (zrows K).
Proof. destruct m as [[? ?] ?], K as [[[[? ?] ?] [[? ?] ?]] [[? ?] ?]]. apply V3_eq; cbn [zvec zmul3 zrows vmul row comp]; rewrite ?plus_IZR, ?mult_IZR; try (cbn; ring). Qed.
Lemma zvec_add a b : zvec (zadd3 a b) = vadd (zvec a) (zvec b).
Proof. destruct a as [[? ?] ?], b as [[? ?] ?]. cbn. rewrite !plus_IZR. reflexivity. Qed.
Lemma zvec_sub a b : zvec (zsub3 a b) = vsub (zvec a) (zvec b).
Proof. destruct a as [[? ?] ?], b as [[? ?] ?]. cbn. unfold Z.sub. rewrite !plus_IZR, !opp_IZR. reflexivity. Qed.
Lemma vmul_vsub u v m : vmul (vsub u v) m = vsub (vmul u m) (vmul v m).
Proof. destruct u as [[? ?] ?], v as [[? ?] ?], m as [[[[? ?] ?] [[? ?] ?]] [[? ?] ?]]. apply V3_eq; cbn; ring. Qed.
Lemma vmul_vadd u v m : vmul (vadd u v) m = vadd (vmul u m) (vmul v m).
Proof. destruct u as [[? ?] ?], v as [[? ?] ?], m as [[[[? ?] ?] [[? ?] ?]] [[? ?] ?]]. apply V3_eq; cbn; ring. Qed.
Lemma within_sub t u v : within t u -> within t v -> within (2 * t) (vsub u v).
Proof. destruct u as [[? ?] ?], v as [[? ?] ?]. cbn. unfold Rabs. intros [A [B C]] [D [E F]]. repeat split; repeat (destruct (Rcase_abs _)); lra. Qed.

Section Placement.
Variables (N : nat) (tol : R) (k : factors) (f : summary) (fmt : option string) (name : string) (text : list Z * list (list R)) (h5 : fcarr)
  (born : option (list (list R))) (r : result) (fc : fcarr) (L : M3) (K : Z3 * Z3 * Z3) (reps : list nat).
Hypothesis HN : (0 < N)%nat.
Hypothesis HK : p_to_sc_matrix f = K.
Hypothesis HL : product L (zrows K) (s_lattice f).
Hypothesis Hd : zdet3 K <> 0%Z.
Hypothesis Hb : (Z.abs (zdet3 K) < 2 ^ 48)%Z.
Hypothesis HW : well_numbered f.
Hypothesis HR : representatives f reps.
Hypothesis Hsep : separate f K (2 * tol).
Hypothesis Hfc : the_force_constants f fmt name text h5 = Ok fc.
Hypothesis Hread : read_interpolation_data N tol k f fmt name text h5 born = Ok r.
Let atom_r := map pt_r (s_points f).
Let pos s := vmul (sc_r f s) (zrows K).

Lemma read_parts : exists idx out,
  idx_in_pcell (s_sc_points f) = Ok idx /\
  convert_fc_phases N (fa_rows fc) (fa_val fc) atom_r (sc_atom_r f) reps (sc_to_pc idx) K tol = Ok (out, r_origins r) /\
  r_cell r = mscal (k_len k) (s_lattice f) /\ r_atoms r = map (fun r => vsub r (zvec (vfloor r))) atom_r /\ r_types r = map pt_symbol (s_points f) /\
  r_masses r = map (fun p => pt_mass p * k_mass k) (s_points f) /\ r_fc r = (fun n a b => out n a b * k_fc k) /\ r_sc r = K /\
  fa_cols fc = length (s_sc_points f) /\ (length reps <= fa_rows fc)%nat.
Proof.
  revert Hread. unfold read_interpolation_data. destruct (idx_in_pcell (s_points f)); [|discriminate]. destruct (idx_in_pcell (s_sc_points f)) as [idx|] eqn:Ei; [|discriminate].
  rewrite Hfc. destruct (dipole_data f born) as [[[nac diel] bo]|]; [|discriminate]. fold atom_r. rewrite (pc_to_sc_reps f reps idx HW HR Ei), HK.
  destruct (Nat.eqb_spec (fa_cols fc) (length idx)) as [Ec|]; [|discriminate]. destruct (Nat.leb_spec (length reps) (fa_rows fc)); [|discriminate]. cbn [andb negb].
  destruct (convert_fc_phases _ _ _ _ _ _ _ _ _) as [[out org]|] eqn:E; [|discriminate]. intros Hr. injection Hr as <-.
  exists idx, out. cbn [r_origins r_cell r_atoms r_types r_masses r_fc r_sc]. destruct (indices f idx HW Ei) as [Ln _]. repeat split; try assumption; try reflexivity. congruence.
Qed.

Lemma sc_atom_at s : (s < length (s_sc_points f))%nat -> nth s (sc_atom_r f) vzero = pos s.
Proof.
  intros Hs. unfold sc_atom_r, pos, sc_r. rewrite HK. rewrite <- (map_map pt_r (fun v => vmul v (zrows K))).
  rewrite (map_nth_indep _ _ s vzero) by (rewrite map_length; exact Hs). reflexivity.
Qed.

Theorem placement : (forall p, In p (s_points f) -> in_unit_cell (pt_r p)) -> placed f fc (k_fc k) L reps tol r /\
  length (r_origins r) = Z.to_nat (Z.abs (zdet3 K)) /\
  (forall n n' (m : Z3), (n < length (r_origins r))%nat -> (n' < length (r_origins r))%nat ->
     nth n' (r_origins r) (0,0,0)%Z = zadd3 (nth n (r_origins r) (0,0,0)%Z) (zmul3 m K) -> n = n').
Proof.
  intros Hin. destruct read_parts as [idx [out [Ei [EC [_ [EA [_ [_ [EF [ES [Hcols Hrows]]]]]]]]]]].
  destruct (sc_to_pc_spec f reps idx HW HR Ei) as [Lsc Hsc]. destruct HR as [Hsort [Hself Hlen]].
  set (cell := cell_of atom_r (sc_atom_r f) (sc_to_pc idx)).
  assert (W : forall s j, (j < length reps)%nat -> copy_of f s (nth j reps 0%nat) -> within tol (vsub (vsub (pos s) (nth j atom_r vzero)) (zvec (cell s)))).
  { intros s j Hj HC. pose proof (copy_bound f s _ HC) as Hs. pose proof (converted_whole _ _ _ _ _ _ _ _ _ _ _ EC s ltac:(lia)) as T.
    cbv beta in T. rewrite (Hsc s j Hj HC), (sc_atom_at s Hs) in T. fold cell in T. exact T. }
  assert (HD : distinct_copies K atom_r (sc_atom_r f) (sc_to_pc idx)).
  { intros s s' Hs Hs' Hj [m HS]. fold cell in HS. rewrite Lsc in Hs, Hs'. destruct (Nat.eq_dec s s') as [|Hne]; [assumption|]. exfalso.
    destruct (copy_index f reps idx HW HR Ei s Hs) as [j [J1 [J2 [_ J4]]]]. destruct (copy_index f reps idx HW HR Ei s' Hs') as [j' [J1' [J2' [_ J4']]]].
    assert (j' = j) as -> by congruence. apply (Hsep s' s _ m J2' J2); [congruence|].
    pose proof (within_sub tol _ _ (W s' j J1 J2') (W s j J1 J2)) as T. rewrite HS, zvec_add, zvec_zmul3 in T.
    rewrite !vmul_vsub. fold (pos s) (pos s'). revert T. generalize (pos s), (pos s'), (vmul (zvec m) (zrows K)), (zvec (cell s)), (nth j atom_r vzero). clear.
    intros a b c d e T. match goal with |- within _ ?y => match type of T with within _ ?x => replace y with x; [exact T|] end end.
    destruct a as [[? ?] ?], b as [[? ?] ?], c as [[? ?] ?], d as [[? ?] ?], e as [[? ?] ?]. apply V3_eq; ring. }
  assert (Hcp : forall i, (i < length reps)%nat -> (nth i reps 0 < length (sc_to_pc idx))%nat).
  { intros i Hi. rewrite Lsc. exact (copy_bound f _ _ (rep_self f reps HR i Hi)). }
  split; [|split].
  - intros i j s a b Hi Hj Ha Hb' HC. rewrite <- Hlen in Hi, Hj. pose proof (copy_bound f s _ HC) as Hs.
    destruct (convert_fc_phases_spec N (fa_rows fc) (fa_val fc) atom_r (sc_atom_r f) reps (sc_to_pc idx) K tol HN Hd Hb HD Hcp out (r_origins r) EC
      (fun i Hi => first_copy f reps idx HW HR Ei i Hi) i s a b Hi ltac:(rewrite Lsc; exact Hs) Ha Hb') as [n [N1 [[m N2] N3]]].
    fold cell in N2. rewrite (Hsc s j Hj HC) in N3. rewrite Lsc in N3.
    exists n, m, (vsub (vsub (vsub (pos s) (nth j atom_r vzero)) (zvec (cell s))) (vsub (vsub (pos (nth i reps 0%nat)) (nth i atom_r vzero)) (zvec (cell (nth i reps 0%nat))))).
    split; [exact N1|]. split; [apply within_sub; [apply W; assumption|apply W; [exact Hi|apply (rep_self f reps HR i Hi)]]|]. split.
    + assert (A : forall i, (i < length reps)%nat -> nth i (r_atoms r) vzero = nth i atom_r vzero).
      { intros q Hq. rewrite EA. rewrite (map_nth_indep _ atom_r q vzero) by (unfold atom_r; rewrite map_length, <- Hlen; exact Hq).
        apply vfloor_in. unfold atom_r. rewrite (map_nth_indep pt_r _ q (mkPt vzero 0 EmptyString None)) by (rewrite <- Hlen; exact Hq). apply Hin, nth_In. rewrite <- Hlen. exact Hq. }
      rewrite !A by assumption. rewrite !HL, <- vmul_vadd. f_equal. rewrite vmul_vsub. fold (pos s) (pos (nth i reps 0%nat)).
      pose proof (f_equal zvec N2) as N2'. rewrite zvec_sub, zvec_add, zvec_zmul3 in N2'. 
      revert N2'. generalize (pos s), (pos (nth i reps 0%nat)), (zvec (nth n (r_origins r) (0,0,0)%Z)), (zvec (cell s)), (zvec (cell (nth i reps 0%nat))), (vmul (zvec m) (zrows K)), (nth i atom_r vzero), (nth j atom_r vzero). clear.
      intros a b c d e p q r E. destruct a as [[? ?] ?], b as [[? ?] ?], c as [[? ?] ?], d as [[? ?] ?], e as [[? ?] ?], p as [[? ?] ?], q as [[? ?] ?], r as [[? ?] ?].
      cbn [vsub vadd] in *. injection E as E1 E2 E3. apply V3_eq; lra.
    + rewrite EF. rewrite N3. unfold file_value. destruct (Nat.eqb (fa_rows fc) _); reflexivity.
  - apply (converted_count _ _ _ _ _ _ _ _ _ _ _ EC).
  - intros n n' m Hn Hn' HS. destruct reps as [|r0 rs] eqn:Er.
    + exfalso. destruct (converted_count _ _ _ _ _ _ _ _ _ _ _ EC) as [C1 C2]. cbn [length] in C2. rewrite Nat.mul_0_r in C2.
      assert (first_where (sc_to_pc idx) 0 = None) as F by (destruct (sc_to_pc idx); [reflexivity|discriminate]).
      destruct (sc_to_pc idx) eqn:E0; [|discriminate]. revert Ei. unfold idx_in_pcell. destruct (s_sc_points f); [discriminate|]. cbn in Lsc. discriminate.
    + refine (converted_distinct _ _ _ _ _ _ _ _ _ _ _ EC n n' (Hcp 0%nat ltac:(cbn; lia)) HD Hn Hn' _). exists m. exact HS.
Qed.
End Placement.
