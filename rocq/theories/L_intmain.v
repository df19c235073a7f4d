(** Lemmas for C102. *)
From Coq Require Import String Sorted Permutation FunctionalExtensionality.
From Verif Require L_bands2 L_unique3 L_brille L_bands3 L_doscalc L_calc L_powmain.
From Verif Require Import Base Cpx Vec3 M_grid M_cell M_qpts M_dynmat M_dipole M_struct M_asr M_calc M_path M_dos M_reorder M_bins M_bands M_intmap M_style M_dosmain M_powmain M_intmain
  S_qpts S_path S_dynmat S_dipole S_asr S_calc S_bins S_reorder S_intmap S_bands S_unique S_dosmain S_powmain S_intmain.
From Verif Require M_parser S_parser S_manual L_parser3 L_manual L_dosmain.
From Verif Require Import L_mainline.
Import M_parser (val(..), namespace).
Import L_dosmain (readable, r_str, r_one, r_num, r_int, r_bool, r_opt, r_some, r_any, r_pair, r_triple, all_read, back, b_str, b_num, b_int, b_bool, b_opt, b_list, b_pair, b_triple, read_back, read_of).
Open Scope R_scope.
Open Scope string_scope.
Import S_manual.

Section Line2.
Variables (int_of : string -> option Z) (float_of : string -> option R).
Notation tool_args := (M_parser.tool_args int_of float_of M_parser.IntensityMap).
Lemma plot_read line ns : tool_args line = Ok ns -> exists p, int_plot_settings ns = Some p.
Proof.
  intros H. unfold int_plot_settings.
  setting M_parser.IntensityMap H as_bool "no_base_style" YesNo r_bool.
  setting M_parser.IntensityMap H (as_opt (as_list as_str)) "style" (Optional (OneOrMore Text)) (r_opt _ _ (r_some _ _ r_str)).
  setting M_parser.IntensityMap H (as_opt as_str) "cmap" (Optional Text) (r_opt _ _ r_str).
  setting M_parser.IntensityMap H (as_opt as_num) "fontsize" (Optional Number) (r_opt _ _ r_num).
  setting M_parser.IntensityMap H (as_opt as_str) "font" (Optional Text) (r_opt _ _ r_str).
  setting M_parser.IntensityMap H (as_opt (as_pair as_num)) "figsize" (Optional (Exactly 2 Number)) (r_opt _ _ (r_pair _ _ r_num)).
  setting M_parser.IntensityMap H as_str "figsize_unit" Text r_str.
  setting M_parser.IntensityMap H as_str "title" Text r_str.
  setting M_parser.IntensityMap H (as_opt as_str) "xlabel" (Optional Text) (r_opt _ _ r_str).
  setting M_parser.IntensityMap H (as_opt as_str) "ylabel" (Optional Text) (r_opt _ _ r_str).
  setting M_parser.IntensityMap H (as_opt as_str) "save_json" (Optional Text) (r_opt _ _ r_str).
  setting M_parser.IntensityMap H (as_opt as_str) "save_to" (Optional Text) (r_opt _ _ r_str).
  eexists. reflexivity.
Qed.
Lemma settings_read line ns : tool_args line = Ok ns -> exists s, int_settings ns = Some s.
Proof.
  intros H. unfold int_settings. destruct (file_read _ _ _ line ns H) as [f Ef]. unfold read at 1. rewrite Ef. cbn [as_str].
  setting M_parser.IntensityMap H as_str "weighting" (OneOf ["dos"; "coherent"]) (r_one ["dos"; "coherent"]).
  setting M_parser.IntensityMap H (as_opt as_num) "temperature" (Optional Number) (r_opt _ _ r_num).
  setting M_parser.IntensityMap H as_str "length_unit" Text r_str.
  setting M_parser.IntensityMap H as_num "q_spacing" Number r_num.
  destruct (asr_kinds _ _ M_parser.IntensityMap line ns eq_refl ltac:(one_kind) H) as (a & k & E6 & E7). rewrite E6, E7. clear E6 E7.
  setting M_parser.IntensityMap H as_num "dipole_parameter" Number r_num.
  setting M_parser.IntensityMap H as_str "energy_unit" Text r_str.
  setting M_parser.IntensityMap H as_int "ebins" Whole r_int.
  setting M_parser.IntensityMap H (as_opt as_num) "e_min" (Optional Number) (r_opt _ _ r_num).
  setting M_parser.IntensityMap H (as_opt as_num) "e_max" (Optional Number) (r_opt _ _ r_num).
  setting M_parser.IntensityMap H (as_opt (as_triple as_int)) "grid" (Optional (Exactly 3 Whole)) (r_opt _ _ (r_triple _ _ r_int)).
  setting M_parser.IntensityMap H as_num "grid_spacing" Number r_num.
  setting M_parser.IntensityMap H (as_opt (as_one as_num)) "q_broadening" (Optional (Exactly 1 Number)) (r_opt _ _ (r_1 _ _ r_num)).
  setting M_parser.IntensityMap H (as_opt (as_list as_num)) "energy_broadening" (Optional (OneOrMore Number)) (r_opt _ _ (r_some _ _ r_num)).
  setting M_parser.IntensityMap H (as_opt as_str) "shape" (Optional (OneOf ["gauss"; "lorentz"])) (r_opt _ _ (r_one ["gauss"; "lorentz"])).
  setting M_parser.IntensityMap H (as_opt as_num) "scale" (Optional Number) (r_opt _ _ r_num).
  setting M_parser.IntensityMap H as_num "btol" Number r_num.
  setting M_parser.IntensityMap H (as_opt as_num) "vmin" (Optional Number) (r_opt _ _ r_num).
  setting M_parser.IntensityMap H (as_opt as_num) "vmax" (Optional Number) (r_opt _ _ r_num).
  destruct (plot_read line ns H) as [p Ep]. rewrite Ep. eexists. reflexivity.
Qed.
Lemma widths_given line ns : tool_args line = Ok ns -> ns "energy_broadening" <> Some (VList []).
Proof.
  intros H E. destruct (find_row int_of float_of M_parser.IntensityMap "energy_broadening" (Optional (OneOrMore Number)) eq_refl ltac:(one_kind) line ns H) as (v & Ev & I).
  rewrite E in Ev. assert (v = VList []) by congruence. subst v. destruct I as [I|(l & I & N & _)]; [discriminate|]. injection I as <-. apply N. reflexivity.
Qed.
End Line2.
Lemma plot_says ns p : int_plot_settings ns = Some p -> says_int_plot ns p.
Proof.
  intros S. unfold int_plot_settings in S. parts S. assert (X : p = ltac:(match type of S with Some ?t = _ => exact t end)) by congruence. clear S. rewrite X. clear X p.
  unfold says_int_plot. cbn [a_no_base a_style a_cmap a_fontsize a_font a_linewidth a_figsize a_unit a_title a_xlabel a_ylabel a_save_json a_save_to a_no_widgets].
  repeat (split; [first [put|reflexivity]|]). reflexivity.
Qed.
Lemma settings_says ns s : ns "energy_broadening" <> Some (VList []) -> int_settings ns = Some s ->
  ns "filename" = Some (VStr (is_file s)) /\ ns "weighting" = Some (VStr (is_weighting s)) /\ ns "temperature" = Some (maybe VFloat (is_temperature s)) /\
  ns "length_unit" = Some (VStr (is_lunit s)) /\ ns "q_spacing" = Some (VFloat (is_spacing s)) /\ says_asr ns (is_asr s) /\ ns "dipole_parameter" = Some (VFloat (is_param s)) /\
  ns "energy_unit" = Some (VStr (is_eunit s)) /\ ns "ebins" = Some (VInt (is_ebins s)) /\ (forall l, says_dw_grid ns l (fst (is_grid s), snd (is_grid s) / l)) /\
  (forall y n, is_ebins s = Z.of_nat n -> says_intensity ns y (is_map s y n)) /\ says_limits ns (is_limits s) /\ says_int_plot ns (is_plot s).
Proof.
  intros Nb S. unfold int_settings in S. parts S. assert (X : s = ltac:(match type of S with Some ?t = _ => exact t end)) by congruence. clear S. rewrite X. clear X s.
  cbn [is_file is_weighting is_temperature is_lunit is_spacing is_asr is_param is_eunit is_ebins is_grid is_map is_limits is_plot fst snd].
  do 5 (split; [put|]). split; [eapply asr_says; eassumption|]. do 3 (split; [put|]).
  split; [intros ll; split; cbn [fst snd]; [put|eexists; split; [put|reflexivity]]|]. split.
  { intros y n En. unfold says_intensity. cbn [ia_weighting ia_temperature ia_ebins ia_emin ia_emax ia_qb ia_eb ia_shape ia_scale ia_btol].
    do 2 (split; [put|]). split; [rewrite <- En; put|]. do 2 (split; [put|]). split.
    { match goal with Rs : read ns _ "q_broadening" = Some ?x |- _ => pose proof (read_back _ _ ns _ x (b_opt _ _ (L_powmain.b_one _ _ b_num)) Rs) as Y; destruct x as [ww|]; cbn [option_map maybe] in *; [|exact Y] end.
      exists ww. split; [exact Y|reflexivity]. }
    split.
    { match goal with Rs : read ns _ "energy_broadening" = Some ?x |- _ => pose proof (read_back _ _ ns _ x (b_opt _ _ (b_list _ _ b_num)) Rs) as Y; destruct x as [[|ww rr]|]; cbn [maybe] in *; [|exact Y|exact Y] end.
      exfalso. apply Nb. exact Y. }
    split.
    { match goal with Rs : read ns _ "shape" = Some ?x |- _ => pose proof (read_back _ _ ns _ x (b_opt _ _ b_str) Rs) as Y; destruct x; [left; exact Y|right; split; [exact Y|reflexivity]] end. }
    split; put. }
  split; [split; cbn [fst snd]; put|]. apply plot_says. assumption.
Qed.

(** ** The map of a path *)
Section Tool.
Variable seekpath : M3 -> list V3 -> list nat -> R -> bpath.
Variables (erfc : R -> R) (reigh : real_eigh) (argsort : list R -> list nat) (chunk : nat).
Variables (found : list V3 -> ticks) (kx : R) (coherent : ddata -> option asr_kind -> R -> option (Z * Z * Z) * R -> list V3 -> etable -> option R -> list R -> option (list (list R))).
Notation path ceigh junk := (int_path seekpath erfc reigh ceigh argsort chunk junk found kx coherent).
Definition without_coherent (p : pdata) : pdata := mkPd (pd_x p) (pd_t p) (pd_ticks p) (fun _ _ => None).
Definition plain_data (d : idata) : idata := match d with IForce l p => IForce l (without_coherent p) | IModes p => IModes (without_coherent p) | IFreqs p => IFreqs (without_coherent p) end.
Lemma dos_only coeffs k room wmin a d : ia_weighting a = "dos" -> intensity_tool coeffs k room wmin a d = intensity_tool coeffs k room wmin a (plain_data d).
Proof.
  intros W. unfold intensity_tool, refused, i_map, is_coherent. rewrite W. cbn [String.eqb Ascii.eqb Bool.eqb negb]. destruct d; reflexivity.
Qed.
Lemma force_path ceigh junk asr param dist grid u types x p : path ceigh junk asr param dist grid (DForce u types x) = Ok p ->
  let b := seekpath (cell_in u (f_cell (o_d x))) (f_atom_r (o_d x)) types dist in
  exists w ms, result erfc reigh ceigh argsort chunk junk (band_options b asr param) x = Ok (bp_k b, w, ms) /\ length ms = length (bp_k b) /\ w = repeat (1 / INR (length (bp_k b))) (length (bp_k b)) /\
  p = IForce (bp_labels b) (mkPd (calc_abscissa (reciprocal_cell (f_cell (o_d x))) kx (bp_k b)) (et (mode_table 1 (M_dynmat.n_atoms (o_d x)) w ms)) (found (bp_k b))
        (coherent (DForce u types x) asr param grid (bp_k b) (mode_table 1 (M_dynmat.n_atoms (o_d x)) w ms))).
Proof.
  intros H b. unfold int_path in H. cbv zeta in H. unfold bands_from_force_constants in H. change (band_path seekpath u types x dist false) with b in H.
  destruct (result erfc reigh ceigh argsort chunk junk (band_options b asr param) x) as [[[qpts w] ms]|] eqn:R; [|discriminate].
  destruct (L_brille.result_shape erfc reigh ceigh argsort chunk _ _ _ _ _ _ R) as [Eq Lm].
  assert (Eqp : qpts = bp_k b) by (rewrite Eq; unfold the_qpts; cbn [band_options p_insert p_qpts]; rewrite Bool.andb_false_r; reflexivity).
  rewrite Eqp in *. exists w, ms. split; [reflexivity|]. split; [exact Lm|]. split; [|injection H as <-; reflexivity].
  clear - R. unfold result, call in R. destruct (weights_ok _); cbn [negb] in R; [|discriminate]. destruct (the_q_dirs _ _); [|discriminate]. destruct (M_calc.asr_of _ _ _ _ _) as [[[? ?] ?]|]; [|discriminate].
  cbv zeta in R. cbn [snd] in R. match type of R with match ?c with _ => _ end = _ => destruct c as [out|]; [|discriminate] end.
  destruct (mapE _ _) as [ms'|]; [|discriminate]. assert (Q : bp_k b = the_qpts x (band_options b asr param)) by congruence.
  assert (w = final_weights (length (the_qpts x (band_options b asr param))) (the_weights x (band_options b asr param))) by congruence.
  rewrite H, <- Q. unfold the_weights. cbn [band_options p_insert p_weights]. rewrite Bool.andb_false_r. reflexivity.
Qed.
Lemma even_rows n k ms m : m = length ms -> (0 < m)%nat -> let t := et (mode_table k n (repeat (1 / INR m) m) ms) in forall q, (q < nq t)%nat -> wt t q <> 0.
Proof.
  intros E P t q Hq. unfold t in *. cbn [mode_table et nq wt] in *. rewrite (@nth_indep _ _ q 0 (1 / INR m)) by (rewrite repeat_length; lia). rewrite nth_repeat.
  assert (0 < INR m) by (apply lt_0_INR; exact P). apply Rgt_not_eq. unfold Rdiv. rewrite Rmult_1_l. apply Rinv_0_lt_compat. assumption.
Qed.
End Tool.
