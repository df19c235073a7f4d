(** Lines for a chain of atoms (C101). *)
From Coq Require Import String.
From Verif Require L_bands3 L_bands4.
From Verif Require Import Base Cpx Vec3 M_path M_dos M_bins M_grid M_cell M_qpts M_dynmat M_dipole M_struct M_asr M_calc M_doscalc M_reorder M_bands M_style M_dosmain M_bandmain
  S_qpts S_dynmat S_dipole S_asr S_calc S_unique S_intmap S_bands S_dosmain S_bandmain L_util L_grid L_nac L_qpts L_dos L_path2 L_plot2 L_chain L_calc L_calc2 L_calc4 L_calc7 L_unique3 L_brconv3 L_doscalc L_doscalc2 L_bandmain.
From Verif Require M_parser S_manual.
From Verif Require Import L_mainline.
Import M_parser (val(..)).
Open Scope R_scope.
Open Scope string_scope.
Import S_manual.

Definition floats (s : string) : option R := if String.eqb s "0.5" then Some (1 / 2) else None.
Definition thz_line : list string := ["chain.json"; "--q-spacing"; "0.5"; "-u"; "THz"; "--length-unit"; "nm"; "--e-min"; "0.5"].
Section Any.
Variables (erfc : R -> R) (reigh : real_eigh) (argsort : list R -> list nat) (chunk : nat).
Variables (ceigh : complex_eigh) (k0 k1 : R).
Notation obj := (new_fc (chain k0 k1) one_mass None unit_cell3).
Hypothesis good : forall D G x, (forall a b, (a < 3)%nat -> (b < 3)%nat -> D a b = if Nat.eqb a b then RtoC (k0 + k1 * cos x) else Czero) ->
  exists md, solve ceigh 3 one_mass D G = Some md /\ forall m, (m < 3)%nat -> 0 < m_freq md m.
Notation opts qs param := (mkOpts qs None None true param true false false false).
Lemma chain_path junk qs param : exists qpts w ms, result erfc reigh ceigh argsort chunk junk (opts qs param) obj = Ok (qpts, w, ms).
Proof.
  unfold result, call. change (weights_ok (opts qs param)) with true. cbn [negb].
  destruct (q_dirs_ok obj (opts qs param)) as [l ->]. unfold M_calc.asr_of. change (p_asr (opts qs param)) with (@None asr_kind). cbn [snd].
  replace (the_qpts obj (opts qs param)) with qs by reflexivity.
  match goal with |- context [calculate ?f _ _ _ _] => set (calc := f) end.
  destruct (calculate_correct _ calc None false (use_splitting obj (opts qs param)) qs) as (out & C1 & C2 & C3). change (p_reduce (opts qs param)) with false. rewrite C1.
  destruct (mapE_total (fun r => match r with Some m => @Ok modes M_calc.cerr m | None => Err NotConverged end) out) as (ms & Em).
  - intros r I. destruct (In_nth_error _ _ I) as (j & Ej). assert (Hj : (j < List.length out)%nat) by (apply nth_error_Some; congruence).
    destruct (nth_error qs j) as [q|] eqn:Eq; [|apply nth_error_None in Eq; lia]. specialize (C3 j q Eq). rewrite Ej in C3. injection C3 as ->. cbv iota.
    unfold calc. cbn [o_d o_mass o_born o_diel new_fc p_grads]. change (3 * M_dynmat.n_atoms (chain k0 k1))%nat with 3%nat.
    match goal with |- exists x, match solve _ _ _ ?D ?G with _ => _ end = _ => destruct (good D G (2 * PI * comp q 0)) as (md & E1 & _) end.
    + intros a b Ha Hb. unfold full_dyn_mat. change (dyn_mat _ 2 _ _ q a b) with (interp_dyn_mat (chain k0 k1) junk q a b). rewrite chain_dyn by assumption. reflexivity.
    + rewrite E1. eexists. reflexivity.
  - rewrite Em. do 3 eexists. reflexivity.
Qed.
Lemma chain_main hartree angstrom pretty seekpath junk found tol kx inch sheets rc uc types ns line u k lu l file : labelled_path seekpath ->
  M_parser.tool_args (fun _ => None) floats M_parser.Dispersion line = Ok ns -> (forall o, In o not_plain_bands -> ~ In o line) ->
  ns "filename" = Some (VStr file) -> ns "energy_unit" = Some (VStr u) -> hartree u = Some k -> ns "length_unit" = Some (VStr lu) -> angstrom lu = Some l ->
  exists r, band_main (fun _ => None) floats (fun _ _ => @Ok _ unit (DForce uc types obj)) hartree angstrom pretty seekpath erfc reigh ceigh argsort chunk junk found tol kx inch sheets rc line = Ok r.
Proof.
  intros Hp T N Nf Nu Hu Nl Ha.
  assert (Nr : ns "reorder" = Some (VBool false)) by (row_of T N ["--reorder"] "reorder" YesNo (VBool false)).
  assert (Na : ns "asr" = Some VNone) by (row_of T N ["--asr"] "asr" (Optional (OneOf ["reciprocal"; "realspace"])) VNone).
  destruct (main_settings (fun _ => None) floats (fun _ _ => @Ok _ unit (DForce uc types obj)) hartree angstrom pretty seekpath erfc reigh ceigh argsort chunk junk found tol kx inch sheets rc line ns file false u k _ T Nf Nr eq_refl Nu Hu)
    as (a & p & lim & (A1 & A2 & A3 & A4 & A5 & A6) & _ & _ & ->).
  assert (X1 : da_reorder a = false) by congruence. assert (X2 : angstrom (da_unit a) = Some l) by (assert (da_unit a = lu) by congruence; congruence).
  assert (X4 : da_asr a = None) by (destruct A4 as [[_ Y]|[[Y _]|[Y _]]]; [exact Y|congruence|congruence]).
  set (b := seekpath (cell_in uc (f_cell (o_d obj))) (f_atom_r (o_d obj)) types (da_spacing a / l)).
  destruct (chain_path junk (doubled (bp_k b) (bp_labels b)) (da_param a)) as (qpts & w & ms & R).
  destruct (L_bands4.bands_result seekpath erfc reigh ceigh argsort chunk junk angstrom found tol k kx a uc types obj l qpts w ms X1 Hp X2) as (s & segs & D & _); [rewrite X4; exact R|].
  rewrite D. eexists. reflexivity.
Qed.
End Any.
