(** The matrix at gamma gives no net force (C90): Fourier sum, dipole part and non-analytic part. *)
From Verif Require Import Base Cpx Vec3 M_grid M_cell M_qpts M_dynmat M_dipole M_calc S_dynmat S_dipole S_asr S_calc S_acoustic L_util L_qpts L_dipole L_nac L_dynmat2 L_near L_acoustic.
Open Scope R_scope.

Lemma qnorm_zero : qnorm vzero = vzero.
Proof.
  assert (E : IZR (rint 0) = 0).
  { pose proof (rint_dist 0) as H. assert (A : -1 < IZR (rint 0) < 1) by (unfold Rabs in H; destruct (Rcase_abs (0 - IZR (rint 0))); lra). destruct A as [A B]. apply lt_IZR in A. apply lt_IZR in B. replace (rint 0) with 0%Z by lia. reflexivity. }
  unfold qnorm, vzero. rewrite E. apply V3_eq; ring.
Qed.
Lemma gamma_zero : is_gamma vzero = true.
Proof. exact (int_gamma 0 0 0). Qed.

Lemma mod_at k x : (x < 3)%nat -> ((3 * k + x) mod 3 = x)%nat.
Proof. intros X. rewrite Nat.add_comm, Nat.mul_comm, Nat.mod_add by lia. apply Nat.mod_small, X. Qed.

Section Dip.
Variable erfc : R -> R.
Variable cell : M3.
Variable atom_r : list V3.
Variable born : nat -> M3.
Variable diel : M3.
Variable dp : R.
Notation n := (length atom_r).
Notation dd := (dipole_init erfc cell atom_r born diel dp).
Notation diff0 := (dip_diff cell atom_r diel dd vzero).

Lemma dipole_q0_ext m m' i a b : (forall j a b, (j < n)%nat -> m i j a b = m' i j a b) -> dipole_q0 born n m i a b = dipole_q0 born n m' i a b.
Proof.
  intros H. unfold dipole_q0. f_equal. f_equal; apply Csum_ext; intros j J; apply in_seq in J; unfold born_contract; apply Csum_ext; intros a' _; apply Csum_ext; intros b' _; rewrite H by lia; reflexivity.
Qed.
Lemma q0_diff i a b : (i < n)%nat -> dd_q0 dd i a b = dipole_q0 born n diff0 i a b.
Proof.
  intros Hi. unfold dip_diff, recip_dipole, real_dipole, used_g. rewrite gamma_zero. unfold dipole_init. set (lam := upper_lambda _ _ _ _). set (mk := H_row _ _ _ _ _).
  pose proof (real_shells_spec mk n (seq 0 50) 0) as (N & _ & _ & Hh).
  destruct (real_shells mk n (seq 0 50) 0) as [cells H]. cbn [fst snd] in Hh.
  pose proof (recip_shells_spec diel (reciprocal_cell cell) (lam ^ 2) atom_r (seq 1 49) 0 (fun _ _ _ _ => Czero)) as (M & _ & Hg & Hacc).
  destruct (recip_shells diel (reciprocal_cell cell) (lam ^ 2) atom_r (seq 1 49) 0 (fun _ _ _ _ => Czero)) as [gs sum]. cbn [fst snd] in Hg, Hacc.
  cbn [dd_gcart dd_gph dd_cells dd_H dd_q0 dd_lambda]. set (G := flat_map shell _) in *.
  rewrite combine_fst_snd. cbn [tl].
  assert (T : forall k a b, RtoC (Sum H (fun h => h k a b)) = Csum (combine cells H) (fun ch => Cscal (snd ch k a b) (cis (2 * PI * dot vzero (zvec (fst ch)))))).
  { intros k a' b'. rewrite Hh, combine_map_r, Csum_map. cbn [fst snd]. rewrite Sum_map.
    rewrite (Csum_ext _ _ (fun c => RtoC (mk (znorm c) c k a' b'))).
    - apply C_eq; [reflexivity|]. cbn [im RtoC Csum]. symmetry. apply Sum_zero.
    - intros [[x y] z] _. replace (2 * PI * dot vzero (zvec (x, y, z))) with 0 by (cbn; ring). rewrite cis_0. apply C_eq; cbn; ring. }
  assert (E2 : forall i j a b, triu_fill Czero n (fun k a b => RtoC (Sum H (fun h => h k a b))) i j a b
     = triu_fill Czero n (fun k a b => Csum (combine cells H) (fun ch => Cscal (snd ch k a b) (cis (2 * PI * dot vzero (zvec (fst ch)))))) i j a b).
  { intros i' j' a' b'. unfold triu_fill. destruct (pair_index i' j' (triu n)); [apply T|reflexivity]. }
  assert (E1 : forall i j a b, (i <= j)%nat -> (j < n)%nat -> sum i j a b = Csum gs (fun g =>
       Cscal (recip_term diel (lam ^ 2) (vadd (fst g) (vmul vzero (reciprocal_cell cell))) a b)
             (Cdiv (Cmul (nth i (snd g) Czero) (cis (2 * PI * dot vzero (nth i atom_r vzero)))) (Cmul (nth j (snd g) Czero) (cis (2 * PI * dot vzero (nth j atom_r vzero))))))).
  { intros i' j' a' b' Hij Hj. rewrite Hacc, Hg. unfold recip_q0_tmp. destruct (Nat.ltb_spec j' i'); [lia|].
    assert (Z0 : forall v, 2 * PI * dot vzero v = 0) by (intros [[x y] z]; cbn; ring). rewrite !Z0, cis_0.
    assert (V0 : forall v : V3, vadd v (vmul vzero (reciprocal_cell cell)) = v). { intros [[x y] z]. destruct (reciprocal_cell cell) as [[[[? ?] ?] [[? ?] ?]] [[? ?] ?]]. cbn. apply V3_eq; ring. }
    transitivity (Csum (map (g_row (reciprocal_cell cell) atom_r) G) (fun g => Cscal (recip_term diel (lam ^ 2) (fst g) a' b') (Cdiv (nth i' (snd g) Czero) (nth j' (snd g) Czero)))); [ring|].
    apply Csum_ext. intros g _. rewrite V0. f_equal. f_equal; ring. }
  apply dipole_q0_ext. intros j a' b' Hj. unfold fill_lower, add_lower. destruct (Nat.ltb_spec j i) as [L|L].
  - assert (LR : Nat.ltb i j = false) by (apply Nat.ltb_ge; lia). rewrite LR. rewrite (E1 j i a' b') by lia. rewrite (E2 j i a' b'), <- (E2 i j a' b').
    assert (LZ : triu_fill Czero n (fun k a b => RtoC (Sum H (fun h => h k a b))) i j a' b' = Czero).
    { apply triu_fill_lower. exact L. }
    rewrite LZ. apply C_eq; cbn [re im Cadd Csub Cconj Cscal Czero]; ring.
  - rewrite (E1 i j a' b') by lia. rewrite (E2 i j a' b'). apply C_eq; cbn [re im Cadd Csub Cconj Cscal Czero]; ring.
Qed.

Definition net (i a b : nat) : C := Csum (seq 0 n) (fun j => born_contract born diff0 i j a b).
Lemma dip_rows i a b : (i < n)%nat -> (a < 3)%nat -> (b < 3)%nat ->
  Csum (seq 0 n) (fun k => dipole_correction cell atom_r born diel dd vzero (3 * i + a) (3 * k + b)) = Cscal (1/2) (Csub (net i a b) (net i b a)).
Proof.
  intros Hi Ha Hb. 
  transitivity (Csum (seq 0 n) (fun k => Csub (born_contract born diff0 i k a b) (if Nat.eqb i k then dd_q0 dd i a b else Czero))).
  - apply Csum_ext. intros k _. unfold dipole_correction. rewrite qnorm_zero. cbv zeta. rewrite !div_at by assumption. rewrite !mod_at by assumption.
    fold diff0. destruct (Nat.eqb i k); [reflexivity|ring].
  - transitivity (Csub (net i a b) (Csum (seq 0 n) (fun k => if Nat.eqb i k then dd_q0 dd i a b else Czero))).
    + unfold net. apply C_eq; cbn [re im Csub Csum]; apply Sum_minus.
    + rewrite (L_spectral.Csum_delta n (fun _ => dd_q0 dd i a b) i Hi), q0_diff by exact Hi. unfold dipole_q0. fold (net i a b). fold (net i b a). apply C_eq; cbn [re im Cscal Cadd Csub]; field.
Qed.
Lemma dip_no_force : balanced n (dipole_correction cell atom_r born diel dd vzero) -> no_net_force n (dipole_correction cell atom_r born diel dd vzero).
Proof.
  intros B x b Hx Hb. assert (Hi : (x / 3 < n)%nat) by (apply Nat.div_lt_upper_bound; lia). assert (Ha : (x mod 3 < 3)%nat) by (apply Nat.mod_upper_bound; lia).
  pose proof (Nat.div_mod x 3 ltac:(lia)) as E. set (i := (x / 3)%nat) in *. set (a := (x mod 3)%nat) in *. rewrite E.
  specialize (B i a b Hi Ha Hb). rewrite !dip_rows in B by assumption. rewrite dip_rows by assumption. apply C_eq.
  - apply (f_equal re) in B. cbn [re im Cscal Cadd Csub Czero] in *. lra.
  - apply (f_equal im) in B. cbn [re im Cscal Cadd Csub Czero] in *. lra.
Qed.
End Dip.

Lemma nac_no_force cell born diel dir n : neutral n born -> no_net_force n (gamma_correction cell born diel dir).
Proof.
  intros N a x _ X. unfold gamma_correction. destruct (is_gamma dir); [apply Csum_zero; intros; reflexivity|]. cbv zeta.
  set (q := vmul dir (reciprocal_cell cell)). set (F := 4 * PI / _). set (s := Sum idx3 _).
  transitivity (RtoC (s * Sum idx3 (fun b => comp q b * sumn n (fun k => mget (born k) x b)) * F)).
  - apply C_eq; [|cbn [RtoC im]; rewrite L_spectral.im_Csum; apply Sum_zero]. rewrite L_spectral.re_Csum. cbn [RtoC re].
    rewrite (Sum_ext _ _ (fun k => s * Sum idx3 (fun b => mget (born k) x b * comp q b) * F)) by (intros k _; rewrite (div_at k x X), (mod_at k x X); reflexivity).
    rewrite Sum_scal_r, Sum_scal. f_equal. f_equal. rewrite Sum_exchange. apply Sum_ext. intros b _. unfold sumn. rewrite Sum_scal_r. ring.
  - rewrite (Sum_ext _ _ (fun _ => 0)); [rewrite Sum_zero; apply C_eq; cbn; ring|]. intros b B. rewrite N; [ring|exact X|]. cbn in B. lia.
Qed.

Lemma shared_gamma d L a b : shares_images d L -> (a < 3 * n_atoms d)%nat -> (b < 3 * n_atoms d)%nat ->
  fourier_sum d L vzero a b = RtoC (sumn (n_cells d) (fun nc => f_fc d nc a b)).
Proof.
  intros HL Ha Hb. unfold fourier_sum. transitivity (Csum (seq 0 (n_cells d)) (fun nc => RtoC (f_fc d nc a b))); [|apply C_eq; simpl; [reflexivity|apply Sum_zero]].
  apply Csum_ext. intros nc Hnc. apply in_seq in Hnc. destruct (HL nc (a / 3)%nat (b / 3)%nat) as (Ne & _); [lia|apply div3_lt; exact Ha|apply div3_lt; exact Hb|].
  set (l := L nc (a / 3)%nat (b / 3)%nat) in *. assert (0 < INR (length l)) by (apply lt_0_INR; destruct l; [congruence|cbn; lia]).
  rewrite (Csum_ext _ _ (fun _ => Cscal (f_fc d nc a b / INR (length l)) Cone)).
  - rewrite Csum_const. apply C_eq; cbn -[INR length]; [field; lra|ring].
  - intros [[x y] z] _. f_equal. rewrite <- cis_0. f_equal. cbn. ring.
Qed.
Lemma fourier_no_force d L : shares_images d L -> sum_rule d -> no_net_force (n_atoms d) (fourier_sum d L vzero).
Proof.
  intros HL HS a x A X. rewrite (Csum_ext _ _ (fun k => RtoC (sumn (n_cells d) (fun nc => f_fc d nc a (3 * k + x)%nat)))) by (intros k K; apply in_seq in K; apply shared_gamma; [exact HL|exact A|lia]).
  apply C_eq; [|rewrite L_spectral.im_Csum; apply Sum_zero]. rewrite L_spectral.re_Csum. cbn [RtoC re Czero]. unfold sumn. rewrite Sum_exchange. exact (HS a x A X).
Qed.
Lemma whole_no_force erfc d born diel dipole param L dir : shares_images d L -> sum_rule d ->
  match born with
  | Some bo => dipole = true -> balanced (n_atoms d) (dipole_correction (f_cell d) (f_atom_r d) bo diel (dipole_init erfc (f_cell d) (f_atom_r d) bo diel param) vzero)
                 /\ match dir with Some _ => neutral (n_atoms d) bo | None => True end
  | None => True
  end -> no_net_force (n_atoms d) (whole_matrix erfc d born diel dipole param L vzero dir).
Proof.
  intros HL HS HB. pose proof (fourier_no_force d L HL HS) as F. unfold whole_matrix. destruct born as [bo|]; [|exact F]. destruct dipole; [|exact F].
  destruct (HB eq_refl) as [B N]. pose proof (dip_no_force erfc (f_cell d) (f_atom_r d) bo diel param B) as G.
  intros a x A X. specialize (F a x A X). specialize (G a x A X).
  assert (Q : Csum (seq 0 (n_atoms d)) (fun k => match dir with Some v => gamma_correction (f_cell d) bo diel v a (3 * k + x)%nat | None => Czero end) = Czero).
  { destruct dir as [v|]; [exact (nac_no_force (f_cell d) bo diel v (n_atoms d) N a x A X)|apply Csum_zero; intros; reflexivity]. }
  rewrite !Csum_plus, F, Q. fold (n_atoms d) in G. rewrite G. ring.
Qed.
