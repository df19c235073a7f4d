(** Whole calculations: the modes returned are those of the interpolated matrix (C65). *)
From Coq Require Import FunctionalExtensionality.
From Verif Require Import Base Cpx Vec3 M_grid M_cell M_qpts M_dynmat M_dipole M_struct M_asr M_calc
  S_qpts S_dynmat S_dipole S_asr S_calc L_qpts L_dynmat2 L_dipole L_nac L_dos2 L_calc.
Open Scope R_scope.

Lemma rint_zero z : -1/2 <= z <= 1/2 -> rint z = 0%Z.
Proof.
  intros H. unfold rint. pose proof (base_Int_part z) as [B1 B2]. cbv zeta. set (f := Int_part z) in *.
  assert (F : (-1 <= f <= 0)%Z).
  { split.
    - assert (-2 < IZR f) as K by lra. apply lt_IZR in K. lia.
    - assert (IZR f < 1) as K by lra. apply lt_IZR in K. lia. }
  assert (f = 0 \/ f = -1)%Z as [E|E] by lia; rewrite E in *; clear E;
    destruct (Rlt_dec _ _); [reflexivity| |lra|];
    destruct (Rlt_dec _ _); try reflexivity; lra.
Qed.
Lemma qnorm_idem q : qnorm (qnorm q) = qnorm q.
Proof.
  destruct q as [[x y] z]. unfold qnorm.
  assert (K : forall x, rint (x - IZR (rint x)) = 0%Z).
  { intros u. apply rint_zero. pose proof (rint_dist u) as H. apply Rabs_bound in H. lra. }
  rewrite !K. apply V3_eq; ring.
Qed.
Lemma qnorm_lattice q : exists G : Z3, q = vadd (qnorm q) (zvec G).
Proof. destruct q as [[x y] z]. exists (rint x, rint y, rint z). cbn. apply V3_eq; ring. Qed.
Lemma interp_qnorm d junk q a b : interp_dyn_mat d junk (qnorm q) a b = interp_dyn_mat d junk q a b.
Proof. destruct (qnorm_lattice q) as [G E]. rewrite E at 2. symmetry. apply interp_periodic. Qed.
Lemma dipole_qnorm cell atom_r born diel dd q x y : dipole_correction cell atom_r born diel dd (qnorm q) x y = dipole_correction cell atom_r born diel dd q x y.
Proof. unfold dipole_correction. now rewrite qnorm_idem. Qed.

(** The Hermitian matrix given to the solver is the matrix itself. *)
Lemma solve_modes ceigh n3 mass D G md : csolves ceigh ->
  (forall a b, (a < n3)%nat -> (b < n3)%nat -> D b a = Cconj (D a b)) ->
  solve ceigh n3 mass D G = Some md -> modes_of n3 mass D md.
Proof.
  intros S H E. unfold solve in E.
  destruct (ceigh n3 (herm_upper (mass_weight mass D))) as [[ev v]|] eqn:Es; [|discriminate].
  injection E as <-.
  assert (Hh : hermitian (herm_upper (mass_weight mass D))).
  { intros i j. unfold herm_upper. destruct (Nat.ltb_spec i j), (Nat.ltb_spec j i); try lia.
    - reflexivity.
    - apply C_eq; cbn; ring.
    - assert (i = j) as -> by lia. apply C_eq; cbn; ring. }
  destruct (S _ _ _ _ Hh Es) as [E1 E2]. split; [|exact E2].
  intros m Hm i Hi. cbn [m_freq m_evec]. specialize (E1 m Hm i Hi).
  replace (freq_of_eval (ev m) * Rabs (freq_of_eval (ev m))) with (ev m).
  - rewrite <- E1. apply Csum_ext. intros j Hj. apply in_seq in Hj. f_equal.
    rewrite herm_upper_id.
    + unfold mass_weight. now rewrite Rmult_comm.
    + intros x y Hxy. unfold mass_weight.
      rewrite (H x y) by (destruct Hxy as [[-> ->]|[-> ->]]; lia). rewrite (Rmult_comm (mass (x / 3)%nat)). apply C_eq; cbn; ring.
  - unfold freq_of_eval. destruct (Rlt_dec (ev m) 0) as [L|L].
    + rewrite Rabs_mult, (Rabs_pos_eq (sqrt _)) by apply sqrt_pos. rewrite (Rabs_left (-1)) by lra.
      replace (sqrt (Rabs (ev m)) * -1 * (sqrt (Rabs (ev m)) * - -1)) with (- (sqrt (Rabs (ev m)) * sqrt (Rabs (ev m)))) by ring.
      rewrite sqrt_sqrt by apply Rabs_pos. rewrite Rabs_left by exact L. ring.
    + rewrite (Rabs_pos_eq (sqrt _)) by apply sqrt_pos. rewrite sqrt_sqrt by apply Rabs_pos. symmetry. apply Rabs_pos_eq. lra.
Qed.

(** The matrix of one q-point as used without ASR: short-range part, dipole part, correction
    for the direction of approach. *)
Definition parts (short : nat -> nat -> C) (dip : option (nat -> nat -> C)) (nac : option (nat -> nat -> C)) (a b : nat) : C :=
  Cadd (Cadd (short a b) (match dip with Some f => f a b | None => Czero end)) (match nac with Some f => f a b | None => Czero end).

Section C.
Variable erfc : R -> R.
Variable reigh : real_eigh.
Variable ceigh : complex_eigh.
Variable argsort : list R -> list nat.
Variable chunk : nat.
Notation result := (result erfc reigh ceigh argsort chunk).
Notation after := (after erfc reigh ceigh argsort chunk).

Variables (d : fcdata) (mass : nat -> R) (born : option (nat -> M3)) (diel : M3).
Notation n3 := (3 * n_atoms d)%nat.
Notation obj := (new_fc d mass born diel).
Definition dip_part (o : options) (q : V3) : option (nat -> nat -> C) :=
  match born with
  | Some bo => if p_dipole o then Some (dipole_correction (f_cell d) (f_atom_r d) bo diel (dipole_init erfc (f_cell d) (f_atom_r d) bo diel (p_param o)) q) else None
  | None => None
  end.
Definition nac_part (o : options) (dir : option V3) : option (nat -> nat -> C) :=
  match born, dir with
  | Some bo, Some v => if p_dipole o then Some (gamma_correction (f_cell d) bo diel v) else None
  | _, _ => None
  end.
Lemma dip_full junk o q dir a b : (dir <> None -> p_dipole o = true) ->
  full_dyn_mat d (sc_images d 2) (fc_img_weighted (sc_images d 2) junk (f_fc d))
    (match born, dipole_of erfc obj o with
     | Some bo, Some (_, dat) => if p_dipole o then Some (bo, diel, dat) else None
     | _, _ => None
     end) None born diel q dir a b
  = parts (interp_dyn_mat d junk q) (dip_part o q) (nac_part o dir) a b.
Proof.
  intros Hd. unfold full_dyn_mat, parts, dip_part, nac_part, dipole_of, new_fc. cbn.
  change (dyn_mat d 2 (sc_images d 2) (fc_img_weighted (sc_images d 2) junk (f_fc d)) q a b) with (interp_dyn_mat d junk q a b).
  destruct born as [bo|]; destruct (p_dipole o) eqn:Ep; destruct dir as [v|]; try (now specialize (Hd ltac:(discriminate))); apply C_eq; cbn; ring.
Qed.
Hypothesis Hh : home_first d.
Hypothesis Hs : search_complete d.
Hypothesis Hf : fc_symmetric d.
Hypothesis He : symmetric3 diel.
Lemma parts_herm junk o q dir a b : (a < n3)%nat -> (b < n3)%nat ->
  parts (interp_dyn_mat d junk q) (dip_part o q) (nac_part o dir) b a = Cconj (parts (interp_dyn_mat d junk q) (dip_part o q) (nac_part o dir) a b).
Proof.
  intros Ha Hb. unfold parts. rewrite !Cconj_add. f_equal; [f_equal|].
  - now apply interp_hermitian.
  - unfold dip_part. destruct born as [bo|]; [destruct (p_dipole o)|]; try (apply C_eq; cbn; ring).
    eapply dipole_herm; [apply dipole_init_ok|exact He|exact Ha|exact Hb].
  - unfold nac_part. destruct born as [bo|]; [destruct dir as [v|]; [destruct (p_dipole o)|]|]; try (apply C_eq; cbn; ring).
    rewrite gamma_correction_sym. unfold gamma_correction. destruct (is_gamma v); apply C_eq; cbn; ring.
Qed.
Lemma parts_canon junk o q dir : is_gamma q = false ->
  parts (interp_dyn_mat d junk (canon q)) (dip_part o (canon q)) (nac_part o dir) = parts (interp_dyn_mat d junk q) (dip_part o q) (nac_part o dir).
Proof.
  intros G. unfold canon. rewrite G. extensionality a. extensionality b. unfold parts. rewrite interp_qnorm. f_equal. f_equal.
  unfold dip_part. destruct born as [bo|]; [destruct (p_dipole o)|]; [|reflexivity|reflexivity]. apply dipole_qnorm.
Qed.

Hypothesis Hsol : csolves ceigh.
Lemma fresh_modes junk o qpts w ms : p_asr o = None -> result junk o obj = Ok (qpts, w, ms) ->
  qpts = the_qpts obj o /\ length ms = length qpts /\
  forall k q, nth_error qpts k = Some q -> exists md, nth_error ms k = Some md /\
    modes_of n3 mass (parts (interp_dyn_mat d junk (if (p_reduce o && is_gamma q)%bool then vzero else q))
                            (dip_part o (if (p_reduce o && is_gamma q)%bool then vzero else q))
                            (nac_part o (if (use_splitting obj o && is_gamma q)%bool then Some (approach qpts k) else None))) md.
Proof.
  intros Ha H. unfold M_calc.result, M_calc.call in H.
  destruct (weights_ok o); cbn [negb snd] in H; [|discriminate].
  destruct (the_q_dirs obj o); [|discriminate].
  unfold asr_of in H. rewrite Ha in H. cbn [snd] in H.
  match type of H with match calculate ?f _ _ _ _ with _ => _ end = _ => set (calc := f) in H end.
  destruct (calculate_correct _ calc None (p_reduce o) (use_splitting obj o) (the_qpts obj o)) as (out & E & Ln & P).
  rewrite E in H.
  destruct (mapE _ out) as [ms'|] eqn:Em; [|discriminate].
  assert (Q : qpts = the_qpts obj o /\ ms = ms') by (split; congruence). destruct Q as [Eq Ems]. subst ms'.
  clear H. split; [exact Eq|]. apply mapE_inv in Em. destruct Em as [Lm Pm]. split; [congruence|].
  intros k q Hk. rewrite <- Eq in P. specialize (P k q Hk).
  assert (Hlt : (k < length out)%nat) by (apply nth_error_Some; congruence).
  pose (md0 := mkModes (fun _ => 0) (fun _ _ => Czero) None).
  specialize (Pm k None md0 Hlt). apply (nth_error_nth _ _ None) in P. rewrite P in Pm.
  exists (nth k ms md0). split; [apply nth_error_nth'; lia|].
  set (dir := if (use_splitting obj o && is_gamma q)%bool then _ else _) in *.
  destruct (calc _ dir) as [md|] eqn:Ec; [|discriminate]. assert (md = nth k ms md0) as <- by congruence.
  unfold calc in Ec. cbn [o_d o_mass o_born o_diel new_fc images_of o_images] in Ec.
  assert (Hd : dir <> None -> p_dipole o = true).
  { unfold dir, use_splitting, use_dipole, new_fc. cbn. destruct born; [destruct (p_dipole o)|]; cbn; congruence. }
  match type of Ec with solve _ _ _ ?M _ = _ =>
    assert (EM : M = parts (interp_dyn_mat d junk (if p_reduce o then canon q else q)) (dip_part o (if p_reduce o then canon q else q)) (nac_part o dir)) end.
  { extensionality u. extensionality v. apply dip_full. exact Hd. }
  rewrite EM in Ec. apply solve_modes in Ec; [|exact Hsol|intros u v; apply parts_herm].
  destruct (p_reduce o); cbn [andb]; [|exact Ec].
  destruct (is_gamma q) eqn:Eg.
  - unfold canon in Ec. rewrite Eg in Ec. exact Ec.
  - rewrite (parts_canon junk o q dir Eg) in Ec. exact Ec.
Qed.
Lemma later_modes cs junk o qpts w ms : p_asr o = None -> result junk o (after obj cs) = Ok (qpts, w, ms) ->
  qpts = the_qpts obj o /\ length ms = length qpts /\
  forall k q, nth_error qpts k = Some q -> exists md, nth_error ms k = Some md /\
    modes_of n3 mass (parts (interp_dyn_mat d junk (if (p_reduce o && is_gamma q)%bool then vzero else q))
                            (dip_part o (if (p_reduce o && is_gamma q)%bool then vzero else q))
                            (nac_part o (if (use_splitting obj o && is_gamma q)%bool then Some (approach qpts k) else None))) md.
Proof. intros Ha H. rewrite (history _ _ _ _ _ _ _ _ _ _ _ junk) in H. now apply (fresh_modes junk o qpts w ms). Qed.
End C.

(** Errors *)
Lemma q_dirs_ok x o : exists l, the_q_dirs x o = Ok l.
Proof.
  unfold the_q_dirs. pose proof (calculate_correct _ (fun _ _ => tt) tt (p_reduce o) (use_splitting x o) (the_qpts x o)) as (out & E & _).
  unfold calculate in E. destruct (reduce_qpts _ _ _) as [rq qi]. destruct (use_splitting x o); [|now exists []].
  destruct (mapE _ _) as [l|]; [now exists l|discriminate].
Qed.
Lemma mapE_err {A B E} (f : A -> res B E) l e : mapE f l = Err e -> exists a, In a l /\ f a = Err e.
Proof.
  induction l as [|a l IH]; intros H; cbn in H; [discriminate|]. destruct (f a) as [b|e'] eqn:Ef.
  - destruct (mapE f l); [discriminate|]. destruct (IH H) as (x & Hx & Ex). exists x. split; [now right|exact Ex].
  - exists a. split; [now left|congruence].
Qed.
Lemma only_errors erfc reigh ceigh argsort chunk junk o x e : result erfc reigh ceigh argsort chunk junk o x = Err e ->
  (e = BadWeights /\ exists w, p_weights o = Some w /\ match w with WFloat l => length l | WInt l => length l end <> length (p_qpts o)) \/
  (exists s, e = AsrError s /\ p_asr o = Some Realspace /\ supercell_relative_idx chunk (f_origins (o_d x)) (f_sc (o_d x)) = Err s) \/
  (e = NotConverged /\ exists M, ceigh (3 * n_atoms (o_d x))%nat M = None).
Proof.
  intros H. unfold M_calc.result, M_calc.call in H. destruct (weights_ok o) eqn:Ew; cbn [negb snd] in H.
  2:{ left. split; [congruence|]. unfold weights_ok in Ew. destruct (p_weights o) as [[w|w]|]; try discriminate; eexists; (split; [reflexivity|]); now apply Nat.eqb_neq. }
  destruct (q_dirs_ok x o) as [l El]. rewrite El in H.
  destruct (asr_of reigh argsort chunk x o) as [[[k fc] w]|s] eqn:Ea; cbn [snd] in H.
  - right. right. match type of H with match calculate ?f _ _ _ _ with _ => _ end = _ => set (calc := f) in H end.
    destruct (calculate_correct _ calc None (p_reduce o) (use_splitting x o) (the_qpts x o)) as (out & E & Ln & P). rewrite E in H.
    destruct (mapE _ out) as [ms'|e'] eqn:Em; [discriminate|]. assert (e' = e) as -> by congruence.
    apply mapE_err in Em. destruct Em as ([md|] & Hin & Er); [discriminate|]. split; [congruence|].
    apply In_nth_error in Hin. destruct Hin as [i Hi]. assert (Hlt : (i < length (the_qpts x o))%nat) by (rewrite <- Ln; apply nth_error_Some; congruence).
    destruct (nth_error (the_qpts x o) i) as [q|] eqn:Eq; [|apply nth_error_None in Eq; lia].
    specialize (P i q Eq). rewrite Hi in P. injection P as P. unfold calc, solve in P.
    match type of P with None = match ceigh _ ?M with _ => _ end => exists M; destruct (ceigh _ M) as [[ev v]|]; [discriminate|reflexivity] end.
  - right. left. exists s. split; [congruence|]. unfold asr_of in Ea. destruct (p_asr o) as [[|]|]; try discriminate.
    destruct (o_asr x); [discriminate|]. split; [reflexivity|]. unfold enforce_realspace_asr in Ea.
    destruct (supercell_relative_idx chunk (f_origins (o_d x)) (f_sc (o_d x))) as [t|]; [|congruence].
    cbv zeta in Ea. destruct (reigh _ _) as [[ev v]|]; [|discriminate]. destruct (find_acoustic_modes _ _ _); discriminate.
Qed.
