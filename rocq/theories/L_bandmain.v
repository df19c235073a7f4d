(** Lemmas for C101, and for C84 with --asr realspace and other eigensolvers. *)
From Coq Require Import String Sorted Permutation FunctionalExtensionality.
From Verif Require L_bands2 L_unique3 L_brille L_bands3 L_bands4 L_doscalc L_calc.
From Verif Require Import Base Cpx Vec3 M_grid M_cell M_qpts M_dynmat M_dipole M_struct M_asr M_calc M_path M_dos M_reorder M_bins M_bands M_style M_dosmain M_bandmain
  S_qpts S_path S_dynmat S_dipole S_asr S_calc S_bins S_reorder S_intmap S_bands S_unique S_dosmain S_bandmain L_calc9.
From Verif Require M_parser S_parser S_manual L_parser3 L_manual L_dosmain.
From Verif Require Import L_mainline.
Import M_parser (val(..), namespace).
Import L_dosmain (readable, r_str, r_one, r_num, r_int, r_bool, r_opt, r_some, r_any, r_pair, r_triple, all_read, back, b_str, b_num, b_int, b_bool, b_opt, b_list, b_pair, b_triple, read_back, read_of).
Open Scope R_scope.
Open Scope string_scope.
Import S_manual.

(** ** The bands *)
Definition no_asr (a : dargs) : dargs := mkDA (da_reorder a) (da_unit a) (da_spacing a) None (da_param a) (da_btol a).
Section Bands.
Variable seekpath : M3 -> list V3 -> list nat -> R -> bpath.
Variables (erfc : R -> R) (reigh : real_eigh) (argsort : list R -> list nat) (chunk : nat).
Variables (lookup : string -> option R) (found : list V3 -> ticks) (tol k kx : R) (a : dargs) (u : R) (types : list nat).
Variables (d : fcdata) (mass : nat -> R) (born : option (nat -> M3)) (diel : M3).
Notation tool ceigh junk a x := (dispersion_tool seekpath erfc reigh ceigh argsort chunk junk lookup found tol k kx a (DForce u types x)).
Lemma band_history ceigh junk junk' cs : tool ceigh junk a (after erfc reigh ceigh argsort chunk (new_fc d mass born diel) cs) = tool ceigh junk' a (new_fc d mass born diel).
Proof.
  unfold dispersion_tool, bands_from_force_constants, band_path. rewrite (L_doscalc.after_d erfc reigh argsort chunk ceigh d mass born diel cs). cbn [new_fc o_d].
  destruct (q_distance _ _ _) as [dist|]; [|reflexivity]. rewrite (L_calc.history erfc reigh ceigh argsort chunk d mass born diel cs junk junk'). reflexivity.
Qed.
Lemma bands_realspace ceigh junk junk' w fc' : da_asr a = Some Realspace -> enforce_realspace_asr reigh argsort chunk d = Ok (w, fc') ->
  tool ceigh junk a (new_fc d mass born diel) = tool ceigh junk' (no_asr a) (new_fc (with_fc d fc') mass born diel).
Proof.
  intros Ha En. unfold dispersion_tool. cbn [no_asr da_unit da_spacing]. destruct (q_distance _ _ _) as [dist|]; [|reflexivity].
  unfold bands_from_force_constants. change (band_path seekpath u types (new_fc (with_fc d fc') mass born diel) dist true) with (band_path seekpath u types (new_fc d mass born diel) dist true).
  cbn [no_asr da_asr da_param]. set (b := band_path _ _ _ _ _ _). rewrite Ha.
  pose proof (realspace_same erfc reigh ceigh argsort chunk d mass born diel [] junk junk' (band_options b (Some Realspace) (da_param a)) w fc' eq_refl En) as X. cbn [after fold_left] in X.
  change (without_asr (band_options b (Some Realspace) (da_param a))) with (band_options b None (da_param a)) in X. rewrite X. reflexivity.
Qed.
Lemma bands_solvers ceigh ceigh' junk junk' r r' : csolves ceigh -> csolves ceigh' -> csorts ceigh -> csorts ceigh' -> da_asr a <> Some Reciprocal -> da_reorder a = false ->
  tool ceigh junk a (new_fc d mass born diel) = Ok r -> tool ceigh' junk' a (new_fc d mass born diel) = Ok r' -> r = r'.
Proof.
  intros C C' O O' Na Nr H H'. unfold dispersion_tool in H, H'. destruct (q_distance _ _ _) as [dist|]; [|discriminate].
  unfold bands_from_force_constants in H, H'. set (b := band_path seekpath u types (new_fc d mass born diel) dist true) in *. cbn [new_fc o_d] in H, H'. fold (new_fc d mass born diel) in H, H'.
  destruct (result erfc reigh ceigh argsort chunk junk (band_options b (da_asr a) (da_param a)) (new_fc d mass born diel)) as [[[qpts w] ms]|] eqn:R1; [|discriminate].
  destruct (result erfc reigh ceigh' argsort chunk junk' (band_options b (da_asr a) (da_param a)) (new_fc d mass born diel)) as [[[qpts' w'] ms']|] eqn:R2; [|discriminate].
  destruct (L_unique3.two_calculations erfc reigh argsort chunk ceigh ceigh' d mass born diel [] [] junk junk' (band_options b (da_asr a) (da_param a)) _ _ C C' Na R1 R2) as (Q & _ & _ & F).
  cbn [fst] in Q. subst qpts'. specialize (F O O').
  destruct (L_brille.result_shape erfc reigh ceigh argsort chunk _ _ _ _ _ _ R1) as [_ L1]. destruct (L_brille.result_shape erfc reigh ceigh' argsort chunk _ _ _ _ _ _ R2) as [_ L2].
  assert (X : dispersion found kx (f_cell d) qpts (et (mode_table k (M_dynmat.n_atoms d) w ms)) = dispersion found kx (f_cell d) qpts (et (mode_table k (M_dynmat.n_atoms d) w' ms'))).
  { unfold dispersion, mode_table. cbn [et nq nm freq]. rewrite L1, L2. f_equal. apply map_ext_in. intros q Iq. apply map_ext_in. intros m Im. apply in_seq in Iq. apply in_seq in Im.
    f_equal. exact (F q m ltac:(cbn [fst]; lia) ltac:(lia)). }
  unfold draw in H, H'. rewrite Nr in H, H'. rewrite X in H. cbv zeta in H, H'. congruence.
Qed.
End Bands.

(** ** The settings *)
Section Line2.
Variables (int_of : string -> option Z) (float_of : string -> option R).
Notation tool_args := (M_parser.tool_args int_of float_of M_parser.Dispersion).
Lemma plot_read line ns : tool_args line = Ok ns -> exists p, plot_settings ns = Some p.
Proof.
  intros H. unfold plot_settings.
  setting M_parser.Dispersion H as_bool "no_base_style" YesNo r_bool.
  setting M_parser.Dispersion H (as_opt (as_list as_str)) "style" (Optional (OneOrMore Text)) (r_opt _ _ (r_some _ _ r_str)).
  setting M_parser.Dispersion H (as_opt as_num) "fontsize" (Optional Number) (r_opt _ _ r_num).
  setting M_parser.Dispersion H (as_opt as_str) "font" (Optional Text) (r_opt _ _ r_str).
  setting M_parser.Dispersion H (as_opt as_num) "linewidth" (Optional Number) (r_opt _ _ r_num).
  setting M_parser.Dispersion H (as_opt (as_pair as_num)) "figsize" (Optional (Exactly 2 Number)) (r_opt _ _ (r_pair _ _ r_num)).
  setting M_parser.Dispersion H as_str "figsize_unit" Text r_str.
  setting M_parser.Dispersion H as_str "title" Text r_str.
  setting M_parser.Dispersion H (as_opt as_str) "xlabel" (Optional Text) (r_opt _ _ r_str).
  setting M_parser.Dispersion H (as_opt as_str) "ylabel" (Optional Text) (r_opt _ _ r_str).
  setting M_parser.Dispersion H (as_opt as_str) "save_json" (Optional Text) (r_opt _ _ r_str).
  setting M_parser.Dispersion H (as_opt as_str) "save_to" (Optional Text) (r_opt _ _ r_str).
  eexists. reflexivity.
Qed.
Lemma settings_read line ns : tool_args line = Ok ns -> exists s, band_settings ns = Some s.
Proof.
  intros H. unfold band_settings. destruct (file_read _ _ _ line ns H) as [f Ef]. unfold read at 1. rewrite Ef. cbn [as_str].
  setting M_parser.Dispersion H as_bool "reorder" YesNo r_bool.
  setting M_parser.Dispersion H as_str "length_unit" Text r_str.
  setting M_parser.Dispersion H as_num "q_spacing" Number r_num.
  destruct (asr_kinds _ _ M_parser.Dispersion line ns eq_refl ltac:(one_kind) H) as (a & k & E6 & E7). rewrite E6, E7. clear E6 E7.
  setting M_parser.Dispersion H as_num "dipole_parameter" Number r_num.
  setting M_parser.Dispersion H as_num "btol" Number r_num.
  setting M_parser.Dispersion H as_str "energy_unit" Text r_str.
  setting M_parser.Dispersion H (as_opt as_num) "e_min" (Optional Number) (r_opt _ _ r_num).
  setting M_parser.Dispersion H (as_opt as_num) "e_max" (Optional Number) (r_opt _ _ r_num).
  destruct (plot_read line ns H) as [p Ep]. rewrite Ep. eexists. reflexivity.
Qed.
End Line2.
Lemma settings_says ns s : band_settings ns = Some s ->
  ns "filename" = Some (VStr (bs_file s)) /\ says_bands ns (bs_args s) /\ ns "energy_unit" = Some (VStr (bs_eunit s)) /\ says_range ns (bs_limits s) /\ says_plot ns (bs_plot s).
Proof.
  intros S. unfold band_settings in S. parts S. assert (X : s = ltac:(match type of S with Some ?t = _ => exact t end)) by congruence. clear S. rewrite X. clear X s.
  cbn [bs_file bs_args bs_eunit bs_limits bs_plot]. split; [put|]. split.
  { unfold says_bands. cbn [da_reorder da_unit da_spacing da_asr da_param da_btol]. do 3 (split; [put|]). split; [eapply asr_says; eassumption|]. split; put. }
  split; [put|]. split; [split; cbn [fst snd]; put|]. apply L_dosmain.plot_says. assumption.
Qed.

(** ** The program *)
Lemma same_bands ns a a' : says_bands ns a -> says_bands ns a' -> a = a'.
Proof.
  destruct a as [r u s k p b], a' as [r' u' s' k' p' b']. unfold says_bands. cbn [da_reorder da_unit da_spacing da_asr da_param da_btol].
  intros (A1 & A2 & A3 & A4 & A5 & A6) (B1 & B2 & B3 & B4 & B5 & B6). pose proof (asr_one ns k k' A4 B4). subst k'. f_equal; congruence.
Qed.
Section Main.
Variables (int_of : string -> option Z) (float_of : string -> option R).
Context {E : Type}. Variable load : string -> bool -> res ddata E.
Variables (hartree angstrom : string -> option R) (pretty : string -> string).
Variable seekpath : M3 -> list V3 -> list nat -> R -> bpath.
Variables (erfc : R -> R) (reigh : real_eigh) (ceigh : complex_eigh) (argsort : list R -> list nat) (chunk : nat) (junk : nat -> nat -> nat -> R).
Variables (found : list V3 -> ticks) (tol kx : R).
Variables (inch : string -> option R) (sheets : string -> option sheet) (rc : string -> value).
Notation tool_args := (M_parser.tool_args int_of float_of M_parser.Dispersion).
Notation main := (band_main int_of float_of load hartree angstrom pretty seekpath erfc reigh ceigh argsort chunk junk found tol kx inch sheets rc).
Notation run := (dispersion_tool seekpath erfc reigh ceigh argsort chunk junk angstrom found tol).
Lemma main_typed line : main line <> Err BAttributeErr.
Proof.
  unfold band_main. destruct (tool_args line) as [ns|e] eqn:T; [|discriminate]. destruct (settings_read int_of float_of line ns T) as [s ->].
  unfold band_data. destruct (load _ _); [|discriminate]. destruct (hartree _); [|discriminate]. destruct (dispersion_tool _ _ _ _ _ _ _ _ _ _ _ _ _ _); discriminate.
Qed.
Lemma main_refused line e : tool_args line = Err e -> main line = Err (BLineErr e).
Proof. intros T. unfold band_main. rewrite T. reflexivity. Qed.
Lemma main_not_loaded line ns file re e : tool_args line = Ok ns -> ns "filename" = Some (VStr file) -> ns "reorder" = Some (VBool re) -> load file (negb re) = Err e -> main line = Err (BLoadErr e).
Proof.
  intros T Nf Nr Hl. destruct (settings_read int_of float_of line ns T) as [s S]. destruct (settings_says _ _ S) as (S1 & (S2 & _) & _). assert (Ef : bs_file s = file) by congruence. assert (Er : da_reorder (bs_args s) = re) by congruence.
  unfold band_main. rewrite T, S. unfold band_data. rewrite Ef, Er, Hl. reflexivity.
Qed.
Lemma main_settings line ns file re u k d : tool_args line = Ok ns ->
  ns "filename" = Some (VStr file) -> ns "reorder" = Some (VBool re) -> load file (negb re) = Ok d -> ns "energy_unit" = Some (VStr u) -> hartree u = Some k ->
  exists a p lim, says_bands ns a /\ says_plot ns p /\ says_range ns lim /\
  main line = match run k kx a d with Err e => Err (BRunErr e) | Ok (s, segs) => Ok (s, segs, lim, finish inch sheets rc Dispersion p "" (pretty u)) end.
Proof.
  intros T Nf Nr Hl Nu Hu. destruct (settings_read int_of float_of line ns T) as [s S]. destruct (settings_says _ _ S) as (S1 & S2 & S3 & S4 & S5).
  assert (Ef : bs_file s = file) by congruence. assert (Eu : bs_eunit s = u) by congruence. assert (Er : da_reorder (bs_args s) = re) by (destruct S2 as [S2 _]; congruence).
  exists (bs_args s), (bs_plot s), (bs_limits s). split; [exact S2|]. split; [exact S5|]. split; [exact S4|].
  unfold band_main. rewrite T, S. unfold band_data. rewrite Ef, Er, Hl, Eu, Hu. destruct (run k kx (bs_args s) d) as [[? ?]|]; reflexivity.
Qed.
Lemma main_no_unit line ns file re u d : tool_args line = Ok ns ->
  ns "filename" = Some (VStr file) -> ns "reorder" = Some (VBool re) -> load file (negb re) = Ok d -> ns "energy_unit" = Some (VStr u) -> hartree u = None -> main line = Err (BUnitErr u).
Proof.
  intros T Nf Nr Hl Nu Hu. destruct (settings_read int_of float_of line ns T) as [s S]. destruct (settings_says _ _ S) as (S1 & S2 & S3 & S4 & S5).
  assert (Ef : bs_file s = file) by congruence. assert (Eu : bs_eunit s = u) by congruence. assert (Er : da_reorder (bs_args s) = re) by (destruct S2 as [S2 _]; congruence).
  unfold band_main. rewrite T, S. unfold band_data. rewrite Ef, Er, Hl, Eu, Hu. reflexivity.
Qed.
Lemma main_refuses line ns file u k : tool_args line = Ok ns -> ns "filename" = Some (VStr file) -> ns "energy_unit" = Some (VStr u) -> hartree u = Some k ->
  (forall cell qpts t, ns "reorder" = Some (VBool true) -> load file false = Ok (DFreqs cell qpts t) -> main line = Err (BRunErr NoEigenvectors)) /\
  (forall re uc types x lu, ns "reorder" = Some (VBool re) -> load file (negb re) = Ok (DForce uc types x) -> ns "length_unit" = Some (VStr lu) -> angstrom lu = None -> main line = Err (BRunErr BadLengthUnit)).
Proof.
  intros T Nf Nu Hu. split.
  - intros cell qpts t Nr Hl. destruct (main_settings line ns file true u k _ T Nf Nr Hl Nu Hu) as (a & p & lim & (A1 & _) & _ & _ & ->). assert (R : da_reorder a = true) by congruence. cbn [dispersion_tool]. rewrite R. reflexivity.
  - intros re uc types x lu Nr Hl Nl Hn. destruct (main_settings line ns file re u k _ T Nf Nr Hl Nu Hu) as (a & p & lim & (_ & A2 & _) & _ & _ & ->). assert (R : da_unit a = lu) by congruence.
    cbn [dispersion_tool]. unfold q_distance. rewrite R, Hn. reflexivity.
Qed.
Lemma main_order l bef file after bef' after' ovs : M_parser.get_parser M_parser.Dispersion = Ok (true, l) ->
  Forall2 (S_parser.stands_for int_of float_of l) (bef ++ after) ovs -> S_parser.word l file -> S_parser.compatible ovs -> NoDup (map (fun ov => M_parser.o_dest (fst ov)) ovs) ->
  Permutation (bef ++ after) (bef' ++ after') ->
  (forall b u, bef = (b ++ [u])%list -> forall o, In o l -> In (S_parser.u_name u) (M_parser.o_names o) -> S_parser.has_enough o (S_parser.u_words u)) ->
  (forall b u, bef' = (b ++ [u])%list -> forall o, In o l -> In (S_parser.u_name u) (M_parser.o_names o) -> S_parser.has_enough o (S_parser.u_words u)) ->
  main (S_parser.written bef ++ file :: S_parser.written after) = main (S_parser.written bef' ++ file :: S_parser.written after').
Proof.
  intros P F W C Nd Pm B B'. unfold band_main. exact (same_settings int_of float_of M_parser.Dispersion (fun x => match x with Err e => Err (BLineErr e) | Ok ns => _ end) l bef file after bef' after' ovs P F W C Nd Pm B B').
Qed.
(** An accepted line whose bands were made *)
Lemma main_ok line s segs lim fig : main line = Ok (s, segs, lim, fig) -> exists ns file re u k d a p, tool_args line = Ok ns /\
  ns "filename" = Some (VStr file) /\ ns "reorder" = Some (VBool re) /\ load file (negb re) = Ok d /\ ns "energy_unit" = Some (VStr u) /\ hartree u = Some k /\
  says_bands ns a /\ says_plot ns p /\ says_range ns lim /\ run k kx a d = Ok (s, segs) /\ fig = finish inch sheets rc Dispersion p "" (pretty u).
Proof.
  intros H. pose proof H as H0. unfold band_main in H. destruct (tool_args line) as [ns|e] eqn:T; [|discriminate]. destruct (settings_read int_of float_of line ns T) as [st S]. rewrite S in H.
  destruct (settings_says _ _ S) as (S1 & S2 & S3 & S4 & S5). unfold band_data in H.
  destruct (load _ _) as [d|] eqn:Hl; [|discriminate]. destruct (hartree _) as [k|] eqn:Hu; [|discriminate]. destruct (run k kx (bs_args st) d) as [[s1 segs1]|] eqn:D; [|discriminate].
  exists ns, (bs_file st), (da_reorder (bs_args st)), (bs_eunit st), k, d, (bs_args st), (bs_plot st).
  assert (s1 = s) by congruence. assert (segs1 = segs) by congruence. assert (lim = bs_limits st) by congruence. assert (fig = finish inch sheets rc Dispersion (bs_plot st) "" (pretty (bs_eunit st))) by congruence. subst s1 segs1 lim fig.
  split; [reflexivity|]. split; [exact S1|]. split; [exact (proj1 S2)|]. split; [exact Hl|]. split; [exact S3|]. split; [exact Hu|]. split; [exact S2|]. split; [exact S5|]. split; [exact S4|]. split; [exact D|reflexivity].
Qed.

Lemma main_bands d mass born diel : home_first d -> search_complete d -> det3 (zrows (f_sc d)) <> 0 -> fc_symmetric d -> symmetric3 diel -> csolves ceigh -> labelled_path seekpath ->
  exists L, shares_images d L /\
  forall line ns file uc types u k lu param sp s segs lim fig,
  tool_args line = Ok ns -> (forall o, In o not_plain_bands -> ~ In o line) ->
  ns "filename" = Some (VStr file) -> load file true = Ok (DForce uc types (new_fc d mass born diel)) ->
  ns "energy_unit" = Some (VStr u) -> hartree u = Some k -> ns "length_unit" = Some (VStr lu) ->
  ns "dipole_parameter" = Some (VFloat param) -> ns "q_spacing" = Some (VFloat sp) ->
  main line = Ok (s, segs, lim, fig) ->
  exists l, angstrom lu = Some l /\
  let b := seekpath (cell_in uc (f_cell d)) (f_atom_r d) types (sp / l) in
  let qpts := doubled (bp_k b) (bp_labels b) in
  along_path (reciprocal_cell (f_cell d)) kx qpts (xs s) /\ length (ys s) = length qpts /\
  (forall i q, nth_error qpts i = Some q -> exists md, nth_error (ys s) i = Some (map (fun m => m_freq md m * k) (seq 0 (3 * M_dynmat.n_atoms d))) /\
     modes_of (3 * M_dynmat.n_atoms d) mass (whole_matrix erfc d born diel true param L q (if is_gamma q then Some (approach qpts i) else None)) md) /\
  ((exists t, (t < length (bp_labels b))%nat /\ nth t (bp_labels b) ""%string <> ""%string) ->
   exists ts, xticks s = Some ts /\ forall z name, In (z, name) ts <-> exists t, (t < length (bp_labels b))%nat /\ nth t (bp_labels b) ""%string <> ""%string /\
     name = written (nth t (bp_labels b) ""%string) /\ (z = Z.of_nat (shifted (bp_labels b) t) \/ (interior_gamma_label (bp_labels b) t = true /\ z = Z.of_nat (S (shifted (bp_labels b) t))))) /\
  exists idx, StronglySorted lt idx /\ (forall i, In i idx <-> exists t, starts_region (bp_labels b) t /\ i = shifted (bp_labels b) t) /\ cut_at s idx segs.
Proof.
  intros Hh Hc Hd Hf He Hs Hp. destruct (L_bands2.bands_drawn seekpath erfc reigh ceigh argsort chunk d mass born diel Hh Hc Hd Hf He Hs) as (L & HL & B). exists L. split; [exact HL|].
  intros line ns file uc types u k lu param sp s segs lim fig T N Nf Hl Nu Hu Nl Np Ns H.
  assert (Nr : ns "reorder" = Some (VBool false)) by (row_of T N ["--reorder"] "reorder" YesNo (VBool false)).
  assert (Na : ns "asr" = Some VNone) by (row_of T N ["--asr"] "asr" (Optional (OneOf ["reciprocal"; "realspace"])) VNone).
  destruct (main_ok line s segs lim fig H) as (ns1 & file1 & re1 & u1 & k1 & d1 & a & p & T1 & F1 & R1 & L1 & U1 & K1 & SA & _ & _ & D & _).
  assert (ns1 = ns) by congruence. subst ns1. assert (file1 = file) by congruence. assert (re1 = false) by congruence. subst file1 re1. cbn [negb] in L1.
  assert (d1 = DForce uc types (new_fc d mass born diel)) by congruence. assert (u1 = u) by congruence. subst d1 u1. assert (k1 = k) by congruence. subst k1.
  destruct SA as (A1 & A2 & A3 & A4 & A5 & A6).
  assert (X1 : da_reorder a = false) by congruence. assert (X2 : da_unit a = lu) by congruence. assert (X3 : da_spacing a = sp) by congruence. assert (X5 : da_param a = param) by congruence.
  assert (X4 : da_asr a = None) by (destruct A4 as [[_ Y]|[[Y _]|[Y _]]]; [exact Y|congruence|congruence]).
  specialize (B junk angstrom found tol k kx a uc types s segs X1 X4 Hp D). rewrite X2, X3, X5 in B. exact B.
Qed.
End Main.
