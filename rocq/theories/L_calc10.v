(** A calculation with asr='reciprocal' on a chain of springs (example for C65). *)
From Verif Require Import Base Cpx Vec3 M_grid M_cell M_qpts M_dynmat M_dipole M_struct M_asr M_calc
  S_qpts S_dynmat S_dipole S_asr S_calc L_util L_qpts L_dynmat2 L_nac L_conv L_chain L_calc2 L_calc4 L_calc6.
Open Scope R_scope.

Lemma cdiag_correction argsort n G corr : enforce_reciprocal_asr cdiag argsort n G = Some corr ->
  exists f, forall a b, corr a b = if Nat.eqb a b then RtoC (f a) else Czero.
Proof.
  unfold enforce_reciprocal_asr, cdiag. destruct (offdiag _ _ _); [|discriminate]. destruct (find_acoustic_modes _ _ _) as [ac|]; [|discriminate].
  cbv zeta. intros [= <-]. set (l := combine _ _). set (ev := fun m => re (herm_upper G m m)).
  exists (fun a => re (fold_left (fun x p => Cadd x (Copp (Cscal (5 / 10 ^ 15 * INR (fst p) + ev (snd p)) (Cmul (if Nat.eqb a (snd p) then Cone else Czero) (if Nat.eqb a (snd p) then Cone else Czero))))) l Czero)).
  intros a b.
  assert (F : forall l acc, fold_left (fun x p => Cadd x (Copp (Cscal (5 / 10 ^ 15 * INR (fst p) + ev (snd p)) (Cmul (if Nat.eqb a (snd p) then Cone else Czero) (if Nat.eqb b (snd p) then Cone else Czero))))) l acc
    = if Nat.eqb a b then mkC (re (fold_left (fun x p => Cadd x (Copp (Cscal (5 / 10 ^ 15 * INR (fst p) + ev (snd p)) (Cmul (if Nat.eqb a (snd p) then Cone else Czero) (if Nat.eqb a (snd p) then Cone else Czero))))) l acc)) (im acc) else acc).
  { clear l. intros l. induction l as [|p l IH]; intros acc; cbn [fold_left].
    - destruct (Nat.eqb a b); [destruct acc; reflexivity|reflexivity].
    - rewrite IH. destruct (Nat.eqb_spec a b) as [<-|N].
      + f_equal. destruct (Nat.eqb a (snd p)); cbn; ring.
      + destruct (Nat.eqb_spec a (snd p)) as [->|]; [destruct (Nat.eqb_spec b (snd p)); [congruence|]|]; apply C_eq; cbn; ring. }
  rewrite F. reflexivity.
Qed.
Notation at_gamma_reciprocal := (at_gamma (Some Reciprocal) false).
Lemma chain_reciprocal erfc reigh argsort chunk k0 k1 junk : exists r,
  result erfc reigh cdiag argsort chunk junk at_gamma_reciprocal (new_fc (chain k0 k1) (fun _ => 1) None unit_cell3) = Ok r.
Proof.
  set (x := new_fc _ _ _ _). unfold result, call. change (weights_ok at_gamma_reciprocal) with true. cbn [negb].
  destruct (q_dirs_ok x at_gamma_reciprocal) as [l El]. rewrite El.
  change (use_splitting x at_gamma_reciprocal) with false. change (the_qpts x at_gamma_reciprocal) with [vzero]. change (the_weights x at_gamma_reciprocal) with (@None weights_t). unfold asr_of. cbn [at_gamma p_asr snd p_grads p_dipole p_reduce].
  match goal with |- context [calculate ?f _ _ _ _] => set (calc := f) end.
  destruct (calculate_correct _ calc None false false [vzero]) as (out & E & Ln & P). rewrite E.
  destruct out as [|r [|? ?]]; try discriminate. specialize (P 0%nat vzero eq_refl). cbn in P. injection P as ->.
  cbn [mapE]. assert (exists md, calc vzero None = Some md) as (md & ->); [|eexists; reflexivity].
  unfold calc. cbn [x o_d o_mass o_born o_diel new_fc]. change (3 * n_atoms (chain k0 k1))%nat with 3%nat.
  match goal with |- context [enforce_reciprocal_asr ?u ?v ?w ?G] => destruct (enforce_reciprocal_asr u v w G) as [corr|] eqn:Ec end.
  - destruct (cdiag_correction _ _ _ _ Ec) as (f & Hf).
    match goal with |- context [solve cdiag _ _ ?D _] => destruct (cdiag_solve D (fun a => k0 + k1 * cos (2 * PI * comp vzero 0) + f a)) as (md & Em & _) end; [|exists md; exact Em].
    intros a b A B. unfold full_dyn_mat. change (dyn_mat _ 2 _ _ vzero a b) with (interp_dyn_mat (chain k0 k1) junk vzero a b). rewrite chain_dyn by assumption. rewrite Hf. destruct (Nat.eqb a b); apply C_eq; cbn; ring.
  - match goal with |- context [solve cdiag _ _ ?D _] => destruct (cdiag_solve D (fun a => k0 + k1 * cos (2 * PI * comp vzero 0))) as (md & Em & _) end; [|exists md; exact Em].
    intros a b A B. unfold full_dyn_mat. change (dyn_mat _ 2 _ _ vzero a b) with (interp_dyn_mat (chain k0 k1) junk vzero a b). now apply chain_dyn.
Qed.
