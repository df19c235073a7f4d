From Coq Require Import String.
From Verif Require Import Base Cpx Vec3 M_grid M_qpts M_dynmat M_dipole M_struct M_asr M_calc M_brille S_brille S_asr S_dynmat S_calc L_qpts L_calc7.
Open Scope R_scope.

Lemma py_int_bounds x : 0 <= x -> py_int x <= x < py_int x + 1.
Proof.
  intros H. unfold py_int. destruct (Rltb_spec x 0) as [L|L]; [lra|]. destruct (base_Int_part x) as [A B]. lra.
Qed.
Lemma div_ok x y : y <> 0 -> div x y = Ok (x / y).
Proof. intros H. unfold div. destruct (Reqb_spec y 0); [contradiction|reflexivity]. Qed.

(** The number of points asked for *)
Lemma args_npts t n vol : 0 < n -> 0 < vol -> exists kw, grid_args t n None None vol = Ok kw /\ asked_points vol kw n.
Proof.
  intros Hn Hv. destruct t; cbn [grid_args]; rewrite ?div_ok by lra; eexists; (split; [reflexivity|]); cbn [asked_points].
  - field. lra.
  - split; [field; lra|lra].
  - lra.
Qed.
Lemma args_density t n d vol : 0 < d -> 0 < vol -> exists kw, grid_args t n (Some d) None vol = Ok kw /\ asked_points vol kw (d * vol).
Proof.
  intros Hd Hv. assert (P : 0 <= d * vol) by (apply Rlt_le, Rmult_lt_0_compat; assumption).
  destruct t; cbn [grid_args]; rewrite ?div_ok by lra; eexists; (split; [reflexivity|]); cbn [asked_points].
  - field. lra.
  - split; [field; lra|exact (py_int_bounds _ P)].
  - exact (py_int_bounds _ P).
Qed.
Lemma asked_unique vol kw n m : asked_points vol kw n -> asked_points vol kw m -> Rabs (n - m) < 1.
Proof.
  destruct kw as [|[s [v|b]] [|[s' [v'|b']] [|? ?]]]; cbn; try tauto; intros H1 H2; unfold Rabs; destruct (Rcase_abs _); lra.
Qed.

Section Br.
Context {Z : Type}.
Variables (zone : M3 -> list V3 -> list nat -> Z) (volume : Z -> R) (points : gkind -> Z -> kwargs -> res (list V3) brerr).
Variables (erfc : R -> R) (reigh : real_eigh) (ceigh : complex_eigh) (argsort : list R -> list nat) (chunk : nat).
Notation make := (from_force_constants zone volume points erfc reigh ceigh argsort chunk).
Notation the_result := (result erfc reigh ceigh argsort chunk).

Lemma spglib_scaled u v cell : u <> 0 -> exists a1 a2 a3, spglib_cell u cell = (a1, a2, a3) /\ spglib_cell v cell = (vscal (v / u) a1, vscal (v / u) a2, vscal (v / u) a3).
Proof.
  intros Hu. destruct cell as [[a b] c]. cbn [spglib_cell]. exists (vscal u a), (vscal u b), (vscal u c). split; [reflexivity|].
  assert (X : forall w, vscal v w = vscal (v / u) (vscal u w)). { intros [[x y] z]. cbn. f_equal; [f_equal|]; field; exact Hu. }
  rewrite <- !X. reflexivity.
Qed.
Lemma volume_units u v cell r t : volume_scales zone volume -> 0 < u -> 0 < v ->
  volume (zone (spglib_cell v cell) r t) = volume (zone (spglib_cell u cell) r t) * (u / v) ^ 3.
Proof.
  intros S Hu Hv. destruct (spglib_scaled u v cell) as (a1 & a2 & a3 & E1 & E2); [lra|]. rewrite E1, E2, S; [field; split; lra|].
  apply Rdiv_lt_0_compat; assumption.
Qed.

(** Inversion *)
Lemma make_inv junk u types x gt n dn kw ikw g d' x' : make junk u types x gt n dn kw ikw = Ok (g, d', x') ->
  exists t args, grid_kind gt = Ok t /\ let z := zone (spglib_cell u (f_cell (o_d x))) (f_atom_r (o_d x)) types in
    grid_args t n dn kw (volume z) = Ok args /\ points t z args = Ok (g_rlu g) /\
    let o := with_kwargs (g_rlu g) (forced (given ikw no_kwargs)) in
    p_grads o = false /\ d' = option_map (fun _ => forced (given ikw no_kwargs)) ikw /\
    exists qs w ms, the_result junk o x = Ok (qs, w, ms) /\ g = filled (g_rlu g) ms.
Proof.
  unfold from_force_constants. destruct (grid_kind gt) as [t|] eqn:E1; [|discriminate]. cbv zeta.
  destruct (grid_args _ _ _ _ _) as [args|] eqn:E2; [|discriminate].
  destruct (points _ _ _) as [rlu|] eqn:E3; [|discriminate].
  destruct (snd (snd (call _ _ _ _ _ _ _ _))) as [[[qs w] ms]|] eqn:E4; [|discriminate].
  destruct (p_grads _) eqn:E5; [discriminate|]. intros X. inversion X; subst g d' x'. clear X.
  exists t, args. split; [reflexivity|]. split; [exact E2|]. split; [exact E3|]. split; [first [exact E5|reflexivity]|]. split; [reflexivity|].
  exists qs, w, ms. split; [exact E4|reflexivity].
Qed.

Lemma mapE_length {A B E} (f : A -> res B E) l r : mapE f l = Ok r -> length r = length l.
Proof.
  revert r. induction l as [|a l IH]; intros r H; cbn in H; [inversion H; reflexivity|].
  destruct (f a); [|discriminate]. destruct (mapE f l); [|discriminate]. inversion H. cbn. rewrite (IH _ eq_refl). reflexivity.
Qed.
Lemma forced_qpts x q d : the_qpts x (with_kwargs q (forced d)) = q.
Proof. unfold the_qpts. cbn. rewrite Bool.andb_false_r. reflexivity. Qed.
Lemma filled_vectors rlu ms j m md : nth_error ms j = Some md ->
  g_values (filled rlu ms) j m 0%nat = m_freq md m /\ forall a x, (x < 3)%nat -> g_vectors (filled rlu ms) j m (3 * a + x) = m_evec md m (3 * a + x)%nat.
Proof.
  intros E. unfold filled. cbn [g_values g_vectors]. rewrite (nth_error_nth _ _ _ E). split; [reflexivity|]. intros a x Hx.
  assert (D : ((3 * a + x) / 3 = a)%nat) by (rewrite Nat.mul_comm, Nat.div_add_l, (Nat.div_small x 3) by lia; lia).
  assert (M : ((3 * a + x) mod 3 = x)%nat) by (rewrite Nat.mul_comm, Nat.add_comm, Nat.mod_add, Nat.mod_small by lia; reflexivity).
  rewrite D, M. reflexivity.
Qed.
Lemma result_shape junk o x qs w ms : the_result junk o x = Ok (qs, w, ms) -> qs = the_qpts x o /\ List.length ms = List.length qs.
Proof.
  unfold result, call. destruct (negb (weights_ok o)); [discriminate|]. destruct (the_q_dirs x o) as [dirs|]; [|discriminate].
  destruct (asr_of _ _ _ _ _) as [[[kept fc] warn]|]; [|discriminate]. cbv zeta. cbn [fst snd].
  match goal with |- context [calculate ?c ?dl ?r ?s ?q] => destruct (calculate_correct _ c dl r s q) as (out & E & Len & _) end.
  rewrite E. destruct (mapE _ out) as [l|] eqn:M; [|discriminate]. intros X. inversion X; subst. split; [reflexivity|]. rewrite (mapE_length _ _ _ M). exact Len.
Qed.

Lemma grid_points interpolate k cpus junk u types x gt n dn kw ikw g d' x' :
  exact_at_points interpolate -> make junk u types x gt n dn kw ikw = Ok (g, d', x') -> NoDup (g_rlu g) ->
  exists w ms, the_result junk (with_kwargs (g_rlu g) (forced (given ikw no_kwargs))) x = Ok (g_rlu g, w, ms) /\ List.length ms = List.length (g_rlu g) /\
  forall qpts ik i j q, nth_error qpts i = Some q -> nth_error (g_rlu g) j = Some q -> exists md, nth_error ms j = Some md /\
    let r := interpolated interpolate k cpus g qpts ik in b_qpts r = qpts /\
    (forall m, b_freq r i m = m_freq md m * k) /\ (forall m a c, (c < 3)%nat -> b_evec r i m a c = m_evec md m (3 * a + c)%nat).
Proof.
  intros HE HM HN. destruct (make_inv _ _ _ _ _ _ _ _ _ _ _ _ HM) as (t & args & E1 & E2 & E3 & E4 & E5 & qs & w & ms & E6 & E7).
  destruct (result_shape _ _ _ _ _ _ E6) as [S1 S2]. rewrite forced_qpts in S1. subst qs.
  exists w, ms. split; [exact E6|]. split; [exact S2|]. intros qpts ik i j q Hi Hj.
  destruct (nth_error ms j) as [md|] eqn:Em; [|apply nth_error_None in Em; assert (j < List.length (g_rlu g))%nat by (apply nth_error_Some; congruence); lia].
  exists md. split; [reflexivity|]. unfold interpolated. cbv zeta.
  match goal with |- context [interpolate g qpts ?a] => set (kk := a) end.
  destruct (HE g qpts kk i j q HN Hi Hj) as [V W]. destruct (interpolate g qpts kk) as [vals vecs] eqn:EI. cbn [fst snd] in V, W. cbn [b_qpts b_freq b_evec].
  split; [reflexivity|]. rewrite E7 in V, W. split.
  - intros m. rewrite V. rewrite (proj1 (filled_vectors (g_rlu g) ms j m md Em)). reflexivity.
  - intros m a c Hc. rewrite W. exact (proj2 (filled_vectors (g_rlu g) ms j m md Em) a c Hc).
Qed.

(** insert_gamma and reduce_qpts do not matter *)
Lemma ignored junk u types x gt n dn kw a s di pa sp i i' r r' gr :
  let out ikw := match make junk u types x gt n dn kw (Some ikw) with Ok (g, _, x') => Ok (g, x') | Err e => Err e end in
  out (mkI a s di pa sp i r gr) = out (mkI a s di pa sp i' r' gr).
Proof. reflexivity. Qed.
Lemma unknown_type junk u types x gt n dn kw ikw : gt <> "trellis"%string -> gt <> "mesh"%string -> gt <> "nest"%string -> make junk u types x gt n dn kw ikw = Err BadGridType.
Proof. intros A B D. unfold from_force_constants, grid_kind. rewrite !(proj2 (String.eqb_neq _ _)) by assumption. reflexivity. Qed.
Lemma gradients_raise junk u types x gt n dn kw d r : i_grads d = Some true -> make junk u types x gt n dn kw (Some d) <> Ok r.
Proof.
  intros E H. destruct r as [[g d'] x']. destruct (make_inv _ _ _ _ _ _ _ _ _ _ _ _ H) as (t & args & _ & _ & _ & X & _). cbn in X. rewrite E in X. discriminate.
Qed.
Lemma dict_changed junk u types x gt n dn kw d g d' x' : make junk u types x gt n dn kw (Some d) = Ok (g, d', x') ->
  exists e, d' = Some e /\ i_insert e = Some false /\ i_reduce e = Some false /\
  (i_weights e, i_asr e, i_dipole e, i_param e, i_splitting e, i_grads e) = (i_weights d, i_asr d, i_dipole d, i_param d, i_splitting d, i_grads d).
Proof.
  intros H. destruct (make_inv _ _ _ _ _ _ _ _ _ _ _ _ H) as (t & args & _ & _ & _ & _ & X & _). cbn in X. exists (forced d). split; [exact X|]. repeat split.
Qed.
(** The number of points *)
Lemma npts_asked junk u types x gt n ikw g d' x' : 0 < n -> 0 < volume (zone (spglib_cell u (f_cell (o_d x))) (f_atom_r (o_d x)) types) ->
  make junk u types x gt n None None ikw = Ok (g, d', x') ->
  exists t kw, grid_kind gt = Ok t /\ points t (zone (spglib_cell u (f_cell (o_d x))) (f_atom_r (o_d x)) types) kw = Ok (g_rlu g) /\
    asked_points (volume (zone (spglib_cell u (f_cell (o_d x))) (f_atom_r (o_d x)) types)) kw n.
Proof.
  intros Hn Hv H. destruct (make_inv _ _ _ _ _ _ _ _ _ _ _ _ H) as (t & args & E1 & E2 & E3 & _). exists t, args. split; [exact E1|]. split; [exact E3|].
  destruct (args_npts t n _ Hn Hv) as (kw & K1 & K2). rewrite K1 in E2. inversion E2; subst. exact K2.
Qed.
Lemma density_asked junk u ua types x gt n dn ikw g d' x' : volume_scales zone volume -> 0 < u -> 0 < ua -> 0 < dn ->
  0 < volume (zone (spglib_cell ua (f_cell (o_d x))) (f_atom_r (o_d x)) types) ->
  make junk u types x gt n (Some dn) None ikw = Ok (g, d', x') ->
  exists t kw, grid_kind gt = Ok t /\ points t (zone (spglib_cell u (f_cell (o_d x))) (f_atom_r (o_d x)) types) kw = Ok (g_rlu g) /\
    asked_points (volume (zone (spglib_cell u (f_cell (o_d x))) (f_atom_r (o_d x)) types)) kw
      (dn * volume (zone (spglib_cell ua (f_cell (o_d x))) (f_atom_r (o_d x)) types) * (ua / u) ^ 3).
Proof.
  intros HS Hu Ha Hd Hv H. destruct (make_inv _ _ _ _ _ _ _ _ _ _ _ _ H) as (t & args & E1 & E2 & E3 & _). exists t, args. split; [exact E1|]. split; [exact E3|].
  pose proof (volume_units ua u (f_cell (o_d x)) (f_atom_r (o_d x)) types HS Ha Hu) as V.
  assert (P : 0 < volume (zone (spglib_cell u (f_cell (o_d x))) (f_atom_r (o_d x)) types)).
  { rewrite V. apply Rmult_lt_0_compat; [exact Hv|]. apply pow_lt, Rdiv_lt_0_compat; assumption. }
  destruct (args_density t n dn _ Hd P) as (kw & K1 & K2). rewrite K1 in E2. inversion E2; subst kw. rewrite Rmult_assoc, <- V. exact K2.
Qed.
End Br.
