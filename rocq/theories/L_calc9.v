(** Whole calculations with the acoustic sum rule (C65, C15). *)
From Coq Require Import FunctionalExtensionality.
From Verif Require Import Base Cpx Vec3 M_grid M_cell M_qpts M_dynmat M_dipole M_struct M_asr M_calc
  S_qpts S_dynmat S_dipole S_asr S_calc L_util L_qpts L_dynmat2 L_near L_dipole L_nac L_dos2 L_calc L_calc2 L_calc7.
Open Scope R_scope.

Section C.
Variable erfc : R -> R.
Variable reigh : real_eigh.
Variable ceigh : complex_eigh.
Variable argsort : list R -> list nat.
Variable chunk : nat.
Variables (d : fcdata) (mass : nat -> R) (born : option (nat -> M3)) (diel : M3).
Notation obj := (new_fc d mass born diel).
Notation n3 := (3 * n_atoms d)%nat.
Notation result := (result erfc reigh ceigh argsort chunk).
Notation after := (after erfc reigh ceigh argsort chunk).

Lemma realspace_fresh junk o w fc' : p_asr o = Some Realspace -> enforce_realspace_asr reigh argsort chunk d = Ok (w, fc') ->
  result junk o obj = result junk (without_asr o) (new_fc (with_fc d fc') mass born diel).
Proof.
  intros Ha He. unfold M_calc.result, M_calc.call. change (weights_ok (without_asr o)) with (weights_ok o). destruct (weights_ok o); [|reflexivity]. cbn [negb].
  change (the_q_dirs (new_fc (with_fc d fc') mass born diel) (without_asr o)) with (the_q_dirs obj o). destruct (the_q_dirs obj o); [|reflexivity].
  unfold asr_of. rewrite Ha. cbn [o_asr new_fc o_d p_asr without_asr]. rewrite He. reflexivity.
Qed.
Lemma realspace_same cs junk junk' o w fc' : p_asr o = Some Realspace -> enforce_realspace_asr reigh argsort chunk d = Ok (w, fc') ->
  result junk o (after obj cs) = result junk' (without_asr o) (new_fc (with_fc d fc') mass born diel).
Proof. intros Ha He. rewrite (history _ _ _ _ _ _ _ _ _ _ _ junk'). exact (realspace_fresh junk' o w fc' Ha He). Qed.

Hypothesis Hh : home_first d.
Hypothesis Hc : search_complete d.
Hypothesis Hd : det3 (zrows (f_sc d)) <> 0.
Hypothesis He : symmetric3 diel.
Hypothesis Hs : csolves ceigh.

Lemma realspace_modes w fc' : enforce_realspace_asr reigh argsort chunk d = Ok (w, fc') -> fc_symmetric (with_fc d fc') ->
  exists L, shares_images d L /\
  forall cs junk o qpts wt ms, p_asr o = Some Realspace -> result junk o (after obj cs) = Ok (qpts, wt, ms) ->
    qpts = the_qpts obj o /\ length ms = length qpts /\
    forall k q, nth_error qpts k = Some q -> exists md, nth_error ms k = Some md /\
      modes_of n3 mass
        (whole_matrix erfc (with_fc d fc') born diel (p_dipole o) (p_param o) L (if (p_reduce o && is_gamma q)%bool then vzero else q)
           (if (p_splitting o && is_gamma q)%bool then Some (approach qpts k) else None)) md.
Proof.
  intros En Hf. destruct (modes_fourier erfc reigh ceigh argsort chunk (with_fc d fc') mass born diel Hh Hc Hd Hf He Hs) as (L & HL & H). exists L. split; [exact HL|].
  intros cs junk o qpts wt ms Ha R. rewrite (realspace_same cs junk junk o w fc' Ha En) in R. exact (H [] junk (without_asr o) qpts wt ms eq_refl R).
Qed.

Hypothesis Hf : fc_symmetric d.
Lemma full_rec t fcw dip rec q dir a b : full_dyn_mat d t fcw dip rec born diel q dir a b
  = Cadd (full_dyn_mat d t fcw dip None born diel q dir a b) (match rec with None => Czero | Some r => r a b end).
Proof. unfold full_dyn_mat. destruct dip as [[[bo di] dd]|], rec, dir, born; apply C_eq; cbn; ring. Qed.
Lemma full_gamma t fcw dip a b : full_dyn_mat d t fcw dip None None diel vzero None a b = full_dyn_mat d t fcw dip None born diel vzero None a b.
Proof. reflexivity. Qed.

Lemma reciprocal_modes : exists L, shares_images d L /\
  forall cs junk o qpts wt ms, p_asr o = Some Reciprocal -> result junk o (after obj cs) = Ok (qpts, wt, ms) ->
    qpts = the_qpts obj o /\ length ms = length qpts /\
    exists G, (forall a b, (a < n3)%nat -> (b < n3)%nat -> G a b = whole_matrix erfc d born diel (p_dipole o) (p_param o) L vzero None a b) /\
    forall corr, match enforce_reciprocal_asr ceigh argsort n3 G with None => forall a b, corr a b = Czero | Some r => corr = r end ->
    (forall a b, (a < n3)%nat -> (b < n3)%nat -> corr b a = Cconj (corr a b)) ->
    forall k q, nth_error qpts k = Some q -> exists md, nth_error ms k = Some md /\
      modes_of n3 mass
        (fun a b => Cadd (whole_matrix erfc d born diel (p_dipole o) (p_param o) L (if (p_reduce o && is_gamma q)%bool then vzero else q)
           (if (p_splitting o && is_gamma q)%bool then Some (approach qpts k) else None) a b) (corr a b)) md.
Proof.
  destruct (fourier_shared d (fun _ _ _ => 0) Hh Hc Hd) as (L & HL & HF). exists L. split; [exact HL|].
  intros cs junk0 o qpts wt ms Ha H. rewrite (history _ _ _ _ _ _ _ _ _ _ _ (fun _ _ _ => 0)) in H. set (junk := fun _ _ _ : nat => 0) in *.
  unfold M_calc.result, M_calc.call in H.
  destruct (weights_ok o); cbn [negb snd] in H; [|discriminate].
  destruct (the_q_dirs obj o) as [qd|]; [|discriminate].
  unfold asr_of in H. rewrite Ha in H. cbn [snd] in H.
  set (g := full_dyn_mat _ _ _ _ None None _ vzero None) in H.
  match type of H with match calculate ?f _ _ _ _ with _ => _ end = _ => set (calc := f) in H end.
  destruct (calculate_correct _ calc None (p_reduce o) (use_splitting obj o) (the_qpts obj o)) as (out & E & Ln & P).
  rewrite E in H.
  destruct (mapE _ out) as [ms'|] eqn:Em; [|discriminate].
  assert (Q : qpts = the_qpts obj o /\ ms = ms') by (split; congruence). destruct Q as [Eq Ems]. subst ms'.
  clear H. split; [exact Eq|]. apply mapE_inv in Em. destruct Em as [Lm Pm]. split; [congruence|].
  assert (WM : forall q dir a b, (a < n3)%nat -> (b < n3)%nat -> (dir <> None -> p_dipole o = true) ->
     parts (interp_dyn_mat d junk q) (dip_part erfc d born diel o q) (nac_part d born diel o dir) a b = whole_matrix erfc d born diel (p_dipole o) (p_param o) L q dir a b).
  { intros q dir a b A B Hdir. unfold parts, dip_part, nac_part, whole_matrix. rewrite HF by assumption. destruct born as [bo|]; [destruct (p_dipole o)|]; destruct dir; apply C_eq; cbn; ring. }
  exists g. split.
  { intros a b A B. rewrite <- (WM vzero None a b A B ltac:(congruence)). unfold g. rewrite full_gamma. apply dip_full. congruence. }
  intros corr Hcorr Hh2 k q Hk. rewrite <- Eq in P. specialize (P k q Hk).
  assert (Hlt : (k < length out)%nat) by (apply nth_error_Some; congruence).
  pose (md0 := mkModes (fun _ => 0) (fun _ _ => Czero) None).
  specialize (Pm k None md0 Hlt). apply (nth_error_nth _ _ None) in P. rewrite P in Pm.
  exists (nth k ms md0). split; [apply nth_error_nth'; lia|].
  set (dir := if (use_splitting obj o && is_gamma q)%bool then _ else _) in *.
  destruct (calc _ dir) as [md|] eqn:Ec; [|discriminate]. assert (md = nth k ms md0) as <- by congruence.
  unfold calc in Ec. cbn [o_d o_mass o_born o_diel new_fc images_of o_images] in Ec.
  assert (Hdir : dir <> None -> p_dipole o = true).
  { unfold dir, use_splitting, use_dipole, new_fc. cbn. destruct born; [destruct (p_dipole o)|]; cbn; congruence. }
  set (q' := if p_reduce o then canon q else q) in *.
  match type of Ec with solve _ _ _ ?M _ = _ =>
    assert (EM : M = fun a b => Cadd (parts (interp_dyn_mat d junk q') (dip_part erfc d born diel o q') (nac_part d born diel o dir) a b) (corr a b)) end.
  { extensionality u. extensionality v. rewrite full_rec. f_equal; [apply dip_full; exact Hdir|].
    change (o_d obj) with d in *. destruct (enforce_reciprocal_asr ceigh argsort n3 g) as [r|]; [rewrite Hcorr; reflexivity|symmetry; apply Hcorr]. }
  rewrite EM in Ec. apply solve_modes in Ec; [|exact Hs|intros u v U V; cbv beta; rewrite Cconj_add, (Hh2 u v U V); f_equal; apply parts_herm; assumption].
  eapply modes_ext; [|exact Ec]. intros a b A B. cbv beta. f_equal.
  assert (Eq' : parts (interp_dyn_mat d junk q') (dip_part erfc d born diel o q') (nac_part d born diel o dir) a b
    = parts (interp_dyn_mat d junk (if (p_reduce o && is_gamma q)%bool then vzero else q)) (dip_part erfc d born diel o (if (p_reduce o && is_gamma q)%bool then vzero else q)) (nac_part d born diel o dir) a b).
  { unfold q'. destruct (p_reduce o); cbn [andb]; [|reflexivity]. destruct (is_gamma q) eqn:Eg.
    - unfold canon. rewrite Eg. reflexivity.
    - rewrite (parts_canon erfc d born diel junk o q dir Eg). reflexivity. }
  rewrite Eq'. rewrite WM by assumption. unfold whole_matrix. unfold dir, use_splitting, use_dipole. cbn [o_born new_fc].
  destruct born as [bo|]; [destruct (p_dipole o)|]; reflexivity.
Qed.
End C.
