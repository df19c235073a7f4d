(** euphonic-dos and euphonic-powder-map with --asr=realspace (C96, C99). *)
From Coq Require Import FunctionalExtensionality String.
From Verif Require Import Base Cpx Vec3 M_path M_broad M_dos M_bins M_coll M_fixed M_clidos M_sample M_sf M_sphere M_powder M_weight M_grid M_cell M_qpts M_dynmat M_dipole M_struct M_asr M_calc M_doscalc M_powcalc
  S_calc L_calc9 L_doscalc L_powcalc.
Open Scope R_scope.

Section A.
Variables (erfc : R -> R) (reigh : real_eigh) (ceigh : complex_eigh) (argsort : list R -> list nat) (chunk : nat).
Variables (d : fcdata) (mass : nat -> R) (born : option (nat -> M3)) (diel : M3).
Variables (warned : bool) (fc' : nat -> nat -> nat -> R).
Hypothesis He : enforce_realspace_asr reigh argsort chunk d = Ok (warned, fc').
Notation obj := (new_fc d mass born diel).
Notation obj' := (new_fc (with_fc d fc') mass born diel).

Lemma dos_realspace coeffs cs cs' junk junk' k wmin room src a param :
  dos_from_fc erfc reigh ceigh argsort chunk coeffs junk k wmin room src a (Some Realspace) param (after erfc reigh ceigh argsort chunk obj cs)
  = dos_from_fc erfc reigh ceigh argsort chunk coeffs junk' k wmin room src a None param (after erfc reigh ceigh argsort chunk obj' cs').
Proof.
  rewrite (L_doscalc.run_history erfc reigh ceigh argsort chunk coeffs d mass born diel cs junk junk'), (L_doscalc.run_history erfc reigh ceigh argsort chunk coeffs (with_fc d fc') mass born diel cs' junk' junk').
  unfold dos_from_fc. destruct (resolve a) as [u|]; [|reflexivity]. change (f_cell (o_d obj')) with (f_cell (o_d obj)).
  destruct (grid_spec _ _ _) as [g|]; [|reflexivity]. destruct (grid_points g) as [qs|]; [|reflexivity].
  rewrite (realspace_fresh erfc reigh ceigh argsort chunk d mass born diel junk' (grid_options qs (Some Realspace) param (a_adaptive a)) warned fc' eq_refl He). reflexivity.
Qed.

Lemma modes_realspace junk before junk' before' param qs :
  run_modes erfc reigh ceigh argsort chunk junk before (Some Realspace) param obj qs = run_modes erfc reigh ceigh argsort chunk junk' before' None param obj' qs.
Proof.
  unfold run_modes. rewrite (realspace_same erfc reigh ceigh argsort chunk d mass born diel (before qs) (junk qs) (junk' qs) (grid_options qs (Some Realspace) param false) warned fc' eq_refl He).
  symmetry. apply (L_calc.history erfc reigh ceigh argsort chunk (with_fc d fc') mass born diel).
Qed.
Lemma powder_realspace junk before junk' before' param solve ops dw_chunk kB fmin wmin k c src sl rnd rnd2 always coeffs hm room a w :
  powder_from_fc erfc reigh ceigh argsort chunk junk before (Some Realspace) param solve ops dw_chunk kB fmin wmin k c src sl rnd rnd2 always coeffs hm room a w obj
  = powder_from_fc erfc reigh ceigh argsort chunk junk' before' None param solve ops dw_chunk kB fmin wmin k c src sl rnd rnd2 always coeffs hm room a w obj'.
Proof.
  unfold powder_from_fc. destruct (pdos_clash w); [reflexivity|]. destruct (Reqb _ 0); [reflexivity|].
  rewrite (modes_realspace junk before junk' before' param [x_point]). destruct (run_modes _ _ _ _ _ _ _ None _ _ _) as [[[qs wt] ms]|e]; [|reflexivity].
  change (M_dynmat.n_atoms (o_d obj')) with (M_dynmat.n_atoms (o_d obj)). destruct (x_freqs _ _ _) as [|f0 fs]; [reflexivity|].
  replace (run_calc erfc reigh ceigh argsort chunk junk before (Some Realspace) param obj) with (run_calc erfc reigh ceigh argsort chunk junk' before' None param obj'); [reflexivity|].
  extensionality ps. unfold run_calc. rewrite (modes_realspace junk before junk' before' param ps). reflexivity.
Qed.
End A.
