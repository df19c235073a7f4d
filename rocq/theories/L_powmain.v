(** Lemmas for C100. *)
From Coq Require Import String Permutation FunctionalExtensionality.
From Verif Require Import Base Cpx Vec3 M_path M_broad M_dos M_bins M_coll M_fixed M_style M_clidos M_sample M_sf M_sphere M_powder M_weight M_grid M_cell M_qpts M_dynmat M_dipole M_struct M_asr M_calc M_doscalc M_powcalc M_dosmain M_powmain
  S_broad S_dos S_sample S_powder S_sphere S_qpts S_dynmat S_dipole S_asr S_calc S_unique S_doscalc S_powcalc S_dosmain S_powmain.
From Verif Require M_parser S_parser S_manual L_parser L_parser3 L_manual L_dosmain L_powder L_powcalc L_cell.
Import M_parser (val(..), namespace).
Import L_dosmain (readable, r_str, r_one, r_num, r_int, r_bool, r_opt, r_some, r_any, r_pair, r_triple, all_read, back, b_str, b_num, b_int, b_bool, b_opt, b_list, b_pair, b_triple, read_back, read_of).
Open Scope R_scope.
Open Scope string_scope.
Import S_manual.

(** ** Every accepted line gives arguments *)
Lemma r_1 {A} (f : val -> option A) k : readable f k -> readable (as_one f) (Exactly 1 k).
Proof. intros H v (l & -> & L & F). destruct (all_read f k l H F) as (r & E & Lr). unfold as_one, as_list. rewrite E. destruct r as [|a [|? ?]]; cbn in Lr; try lia. eexists. reflexivity. Qed.
Section Line.
Variables (int_of : string -> option Z) (float_of : string -> option R).
Notation tool_args := (M_parser.tool_args int_of float_of M_parser.PowderMap).
Lemma find_row d k : existsb (fun r => String.eqb (r_setting r) d) (manual M_parser.PowderMap) = true ->
  (forall r, In r (manual M_parser.PowderMap) -> r_setting r = d -> r_kind r = k) -> forall line ns, tool_args line = Ok ns -> exists v, ns d = Some v /\ is_of v k.
Proof.
  intros X K line ns H. apply existsb_exists in X. destruct X as (r & I & E). apply String.eqb_eq in E.
  destruct (L_manual.tool_manual int_of float_of M_parser.PowderMap line ns r H I) as (x & Ex & Ox & _). exists x. rewrite <- E, <- (K r I E). split; assumption.
Qed.
Lemma read_setting {A} (f : val -> option A) d k line ns : readable f k -> tool_args line = Ok ns -> existsb (fun r => String.eqb (r_setting r) d) (manual M_parser.PowderMap) = true ->
  (forall r, In r (manual M_parser.PowderMap) -> r_setting r = d -> r_kind r = k) -> exists x, read ns f d = Some x.
Proof. intros Rf H X K. destruct (find_row d k X K line ns H) as (v & E & I). unfold read. rewrite E. exact (Rf v I). Qed.
End Line.
Ltac one_kind := let r := fresh "r" in let I := fresh "I" in let E := fresh "E" in intros r I E; cbn in I;
  repeat (destruct I as [<-|I]; [solve [reflexivity | discriminate E]|]); destruct I.
Ltac setting H f d k Rf := let x := fresh "x" in let E := fresh "E" in
  destruct (read_setting _ _ f d k _ _ Rf H eq_refl ltac:(one_kind)) as [x E]; rewrite E; clear E.
Ltac parts H := repeat match type of H with match ?x with Some _ => _ | None => None end = Some _ => let E := fresh "Rd" in destruct x eqn:E; [|discriminate H] end.
Section Line2.
Variables (int_of : string -> option Z) (float_of : string -> option R).
Notation tool_args := (M_parser.tool_args int_of float_of M_parser.PowderMap).
Lemma plot_read line ns : tool_args line = Ok ns -> exists p, map_plot_settings ns = Some p.
Proof.
  intros H. unfold map_plot_settings.
  setting H as_bool "no_base_style" YesNo r_bool.
  setting H (as_opt (as_list as_str)) "style" (Optional (OneOrMore Text)) (r_opt _ _ (r_some _ _ r_str)).
  setting H (as_opt as_str) "cmap" (Optional Text) (r_opt _ _ r_str).
  setting H (as_opt as_num) "fontsize" (Optional Number) (r_opt _ _ r_num).
  setting H (as_opt as_str) "font" (Optional Text) (r_opt _ _ r_str).
  setting H (as_opt (as_pair as_num)) "figsize" (Optional (Exactly 2 Number)) (r_opt _ _ (r_pair _ _ r_num)).
  setting H as_str "figsize_unit" Text r_str.
  setting H as_str "title" Text r_str.
  setting H (as_opt as_str) "xlabel" (Optional Text) (r_opt _ _ r_str).
  setting H (as_opt as_str) "ylabel" (Optional Text) (r_opt _ _ r_str).
  setting H (as_opt as_str) "save_json" (Optional Text) (r_opt _ _ r_str).
  setting H (as_opt as_str) "save_to" (Optional Text) (r_opt _ _ r_str).
  setting H as_bool "disable_widgets" YesNo r_bool.
  eexists. reflexivity.
Qed.
Lemma asr_read line ns : tool_args line = Ok ns -> exists s x, read ns (as_opt as_str) "asr" = Some s /\ asr_of s = Some x.
Proof.
  intros H. destruct (find_row int_of float_of "asr" (Optional (OneOf ["reciprocal"; "realspace"])) eq_refl ltac:(one_kind) line ns H) as (v & E & [-> | (s & -> & I)]).
  - unfold read. rewrite E. exists None, None. split; reflexivity.
  - unfold read. rewrite E. exists (Some s). cbn in I. destruct I as [<-|[<-|[]]]; eexists; split; reflexivity.
Qed.
Lemma file_read line ns : tool_args line = Ok ns -> exists f, ns "filename" = Some (VStr f).
Proof. intros H. destruct (L_parser3.tool_inv int_of float_of M_parser.PowderMap _ line ns (L_parser3.parser_ok _) H) as (? & ? & ? & ? & file & _ & _ & _ & _ & _ & _ & (E & _)). exists file. exact E. Qed.
Lemma settings_read line ns : tool_args line = Ok ns -> exists s, powder_settings ns = Some s.
Proof.
  intros H. unfold powder_settings. destruct (file_read line ns H) as [f Ef]. unfold read at 1. rewrite Ef. cbn [as_str].
  destruct (asr_read line ns H) as (a & k & E6 & E7). rewrite E6, E7. clear E6 E7.
  setting H as_num "dipole_parameter" Number r_num.
  setting H as_str "energy_unit" Text r_str.
  setting H as_str "length_unit" Text r_str.
  setting H as_int "ebins" Whole r_int.
  setting H as_bool "jitter" YesNo r_bool.
  setting H as_bool "use_brille" YesNo r_bool.
  setting H as_num "q_min" Number r_num.
  setting H as_num "q_max" Number r_num.
  setting H as_num "q_spacing" Number r_num.
  setting H as_int "npts" Whole r_int.
  setting H (as_opt as_int) "npts_density" (Optional Whole) (r_opt _ _ r_int).
  setting H as_int "npts_min" Whole r_int.
  setting H as_int "npts_max" Whole r_int.
  setting H (as_opt as_num) "e_min" (Optional Number) (r_opt _ _ r_num).
  setting H (as_opt as_num) "e_max" (Optional Number) (r_opt _ _ r_num).
  setting H (as_opt as_num) "e_i" (Optional Number) (r_opt _ _ r_num).
  setting H (as_opt as_num) "e_f" (Optional Number) (r_opt _ _ r_num).
  setting H (as_pair as_num) "angle_range" (Exactly 2 Number) (r_pair _ _ r_num).
  setting H (as_opt (as_list as_num)) "q_broadening" (Optional (OneOrMore Number)) (r_opt _ _ (r_some _ _ r_num)).
  setting H (as_opt (as_list as_num)) "energy_broadening" (Optional (OneOrMore Number)) (r_opt _ _ (r_some _ _ r_num)).
  setting H (as_opt as_str) "shape" (Optional (OneOf ["gauss"; "lorentz"])) (r_opt _ _ (r_one ["gauss"; "lorentz"])).
  setting H (as_opt as_num) "scale" (Optional Number) (r_opt _ _ r_num).
  setting H as_str "weighting" (OneOf ["dos"; "coherent-dos"; "incoherent-dos"; "coherent-plus-incoherent-dos"; "coherent"]) (r_one ["dos"; "coherent-dos"; "incoherent-dos"; "coherent-plus-incoherent-dos"; "coherent"]).
  setting H (as_opt (as_one as_str)) "pdos" (Optional (Exactly 1 Text)) (r_opt _ _ (r_1 _ _ r_str)).
  setting H (as_opt as_num) "temperature" (Optional Number) (r_opt _ _ r_num).
  setting H (as_opt (as_triple as_int)) "grid" (Optional (Exactly 3 Whole)) (r_opt _ _ (r_triple _ _ r_int)).
  setting H as_num "grid_spacing" Number r_num.
  setting H as_str "sampling" (OneOf ["golden"; "sphere-projected-grid"; "spherical-polar-grid"; "spherical-polar-improved"; "random-sphere"]) (r_one ["golden"; "sphere-projected-grid"; "spherical-polar-grid"; "spherical-polar-improved"; "random-sphere"]).
  setting H (as_opt as_num) "vmin" (Optional Number) (r_opt _ _ r_num).
  setting H (as_opt as_num) "vmax" (Optional Number) (r_opt _ _ r_num).
  destruct (plot_read line ns H) as [p Ep]. rewrite Ep. eexists. reflexivity.
Qed.
Lemma row_default line ns r : tool_args line = Ok ns -> In r (manual M_parser.PowderMap) -> (forall s, In s (r_names r) -> ~ In s line) -> ns (r_setting r) = Some (r_default r).
Proof. intros T I N. destruct (L_manual.tool_manual int_of float_of M_parser.PowderMap line ns r T I) as (x & Ex & _ & Dx). rewrite Ex, (Dx N). reflexivity. Qed.
End Line2.

(** ** Where every setting goes *)
Lemma b_one {A} (f : val -> option A) g : back f g -> back (as_one f) (fun x => VList [g x]).
Proof.
  intros B v x H. unfold as_one in H. destruct (as_list f v) as [r|] eqn:L; [|discriminate]. pose proof (b_list f g B v r L) as ->.
  destruct r as [|y [|? ?]]; try discriminate. assert (x = y) by congruence. subst x. reflexivity.
Qed.
Ltac put := match goal with Rr : read ?ns ?f ?d = Some ?x |- ?ns ?d = Some _ => refine (read_back f _ ns d x _ Rr);
  solve [exact b_str | exact b_num | exact b_int | exact b_bool | exact (b_opt _ _ b_str) | exact (b_opt _ _ b_num) | exact (b_opt _ _ (b_list _ _ b_str)) | exact (b_opt _ _ (b_list _ _ b_num))
        | exact (b_opt _ _ (b_pair _ _ b_num)) | exact (b_opt _ _ (b_triple _ _ b_int)) | exact (b_opt _ _ (b_one _ _ b_str))] end.
Lemma plot_says ns p : map_plot_settings ns = Some p -> says_map_plot ns p.
Proof.
  intros S. unfold map_plot_settings in S. parts S. assert (X : p = ltac:(match type of S with Some ?t = _ => exact t end)) by congruence. clear S. rewrite X. clear X p.
  unfold says_map_plot. cbn [a_no_base a_style a_cmap a_fontsize a_font a_linewidth a_figsize a_unit a_title a_xlabel a_ylabel a_save_json a_save_to a_no_widgets].
  repeat (split; [first [put|reflexivity]|]). put.
Qed.
Lemma q_widths_len b : forall l p, length (q_widths b p l) = length l.
Proof. induction l as [|c l IH]; intros p; [reflexivity|]. cbn. rewrite IH. reflexivity. Qed.
Lemma q_widths_nth b : b <> 0 -> forall l p i, nth i (q_widths b p l) 0 = nth i l 0 * p / b ^ i.
Proof.
  intros Hb. induction l as [|c l IH]; intros p i; [destruct i; cbn; unfold Rdiv; ring|]. destruct i as [|i]; cbn [q_widths nth]; [cbn; unfold Rdiv; rewrite Rinv_1; ring|].
  rewrite IH. cbn [pow]. field. split; [apply pow_nonzero, Hb|exact Hb].
Qed.
Lemma widths_at b l q : b <> 0 -> poly_at (q_widths b b l) (q * b) = poly_at l q * b.
Proof.
  intros Hb. unfold poly_at. rewrite q_widths_len. unfold sumn. rewrite (Rmult_comm (Sum _ _) b), <- Sum_scal. apply Sum_ext. intros i _. rewrite (q_widths_nth b Hb), Rpow_mult_distr. field. apply pow_nonzero, Hb.
Qed.
Lemma settings_says ns s : powder_settings ns = Some s ->
  ns "filename" = Some (VStr (ps_file s)) /\ says_asr ns (ps_asr s) /\ ns "dipole_parameter" = Some (VFloat (ps_param s)) /\ ns "energy_unit" = Some (VStr (ps_eunit s)) /\
  ns "length_unit" = Some (VStr (ps_lunit s)) /\ ns "ebins" = Some (VInt (ps_ebins s)) /\ ns "jitter" = Some (VBool (ps_jitter s)) /\ ns "use_brille" = Some (VBool (ps_brille s)) /\
  says_map_plot ns (ps_plot s) /\ says_limits ns (ps_limits s) /\ (forall b, says_weight ns b (ps_weight s b)) /\
  forall b n, b <> 0 -> ps_ebins s = Z.of_nat n -> says_map ns b (ps_map s b n).
Proof.
  intros S. unfold powder_settings in S. parts S. assert (X : s = ltac:(match type of S with Some ?t = _ => exact t end)) by congruence. clear S. rewrite X. clear X s.
  cbn [ps_file ps_asr ps_param ps_eunit ps_lunit ps_ebins ps_jitter ps_brille ps_plot ps_limits ps_weight ps_map].
  split; [put|]. split.
  { match goal with Ra : read ns _ "asr" = Some ?x, K : asr_of ?x = Some _ |- _ => pose proof (read_back _ _ ns "asr" x (b_opt _ _ b_str) Ra) as Y; unfold asr_of in K; destruct x as [w|]; cbn [maybe] in Y end.
    - destruct (String.eqb_spec w "reciprocal") as [->|_]; [right; left; split; [exact Y|congruence]|]. destruct (String.eqb_spec w "realspace") as [->|_]; [right; right; split; [exact Y|congruence]|discriminate].
    - left. split; [exact Y|congruence]. }
  do 6 (split; [put|]). split; [apply plot_says; assumption|]. split; [split; cbn [fst snd]; put|].
  split.
  { intros b1. unfold says_weight. cbn [w_weighting w_pdos w_temperature w_grid w_spacing w_sampling]. repeat (split; [first [put|eexists; split; [put|reflexivity]]|]). put. }
  intros b1 n Hb En. unfold says_map. cbn [q_min q_max q_spacing p_npts npts_density npts_min npts_max p_ebins p_emin p_emax p_ei p_ef p_angles p_qb p_eb p_shape p_scale].
  do 4 (split; [eexists; split; [put|reflexivity]|]). split.
  { match goal with Rs : read ns _ "npts_density" = Some ?x |- _ => pose proof (read_back _ _ ns _ x (b_opt _ _ b_int) Rs) as Y; destruct x as [zz|]; cbn [option_map maybe] in *; [|exact Y] end.
    exists zz. split; [exact Y|]. intros qq. field. exact Hb. }
  do 2 (split; [eexists; split; [put|reflexivity]|]). split; [rewrite <- En; put|]. do 4 (split; [put|]). split.
  { match goal with Rs : read ns _ "angle_range" = Some ?x |- _ => pose proof (read_back _ _ ns _ x (b_pair _ _ b_num) Rs) as Y; destruct x; exact Y end. }
  split.
  { match goal with Rs : read ns _ "q_broadening" = Some ?x |- _ => pose proof (read_back _ _ ns _ x (b_opt _ _ (b_list _ _ b_num)) Rs) as Y; destruct x as [ll|]; cbn [option_map maybe] in *; [|exact Y] end.
    exists ll. split; [exact Y|]. split; [apply q_widths_len|]. intros qq. apply widths_at, Hb. }
  split; [put|]. split.
  { match goal with Rs : read ns _ "shape" = Some ?x |- _ => pose proof (read_back _ _ ns _ x (b_opt _ _ b_str) Rs) as Y; destruct x; [left; exact Y|right; split; [exact Y|reflexivity]] end. }
  put.
Qed.

(** ** The program *)
Lemma jit_says {A} ns (j : bool) (r : R -> A) : ns "jitter" = Some (VBool j) -> says_jitter ns r (fun q => if j then Some (r q) else None).
Proof. intros E. destruct j; [left|right]; split; try exact E; reflexivity. Qed.
Section Main.
Variables (int_of : string -> option Z) (float_of : string -> option R).
Context {E : Type}. Variable load : string -> res (option (fcobj * sources * (nat -> R))) E.
Variables (hartree bohr : string -> option R) (room hbar2 : string -> R) (pretty pretty_q : string -> string).
Variables (erfc : R -> R) (reigh : real_eigh) (ceigh : complex_eigh) (argsort : list R -> list nat) (chunk : nat).
Variables (junk : list V3 -> nat -> nat -> nat -> R) (before : list V3 -> list ((nat -> nat -> nat -> R) * options)).
Variables (solve : M3 -> V3 -> V3) (ops : fcobj -> option (list symop)) (dw_chunk : nat) (kB fmin wmin c : R) (coeffs : R -> list R).
Variables (jit : R -> nat -> R * R) (jit2 : R -> nat -> nat -> R * R) (always : R -> nat -> R * R).
Variables (inch : string -> option R) (sheets : string -> option sheet) (rc : string -> value).
Notation tool_args := (M_parser.tool_args int_of float_of M_parser.PowderMap).
Notation main := (powder_main int_of float_of load hartree bohr room hbar2 pretty pretty_q erfc reigh ceigh argsort chunk junk before solve ops dw_chunk kB fmin wmin c coeffs jit jit2 always inch sheets rc).
Notation run := (fun asr param k src sl rnd rnd2 u a w x =>
  powder_from_fc erfc reigh ceigh argsort chunk junk before asr param solve (ops x) dw_chunk kB fmin wmin k c src sl rnd rnd2 always coeffs (hbar2 u) (room u) a w x).
Lemma main_typed line : main line <> Err PAttributeErr.
Proof.
  unfold powder_main. destruct (tool_args line) as [ns|e] eqn:T; [|discriminate]. destruct (settings_read int_of float_of line ns T) as [s ->].
  unfold powder_data. destruct (load (ps_file s)) as [[[[x src] sl]|]|e]; [|discriminate|discriminate]. destruct (pdos_clash _); [discriminate|]. destruct (ps_brille s); [discriminate|].
  destruct (bohr _); [|discriminate]. destruct (hartree _); [|discriminate]. destruct (_ <? _)%Z; [discriminate|].
  destruct (powder_from_fc _ _ _ _ _ _ _ _ _ _ _ _ _ _ _ _ _ _ _ _ _ _ _ _ _ _ _) as [[[? ?] ?]|?]; discriminate.
Qed.
Lemma main_refused line e : tool_args line = Err e -> main line = Err (PLineErr e).
Proof. intros T. unfold powder_main. rewrite T. reflexivity. Qed.
Lemma main_not_loaded line ns file e : tool_args line = Ok ns -> ns "filename" = Some (VStr file) -> load file = Err e -> main line = Err (PLoadErr e).
Proof.
  intros T Nf Hl. destruct (settings_read int_of float_of line ns T) as [s S]. destruct (settings_says _ _ S) as (S1 & _). assert (Ef : ps_file s = file) by congruence.
  unfold powder_main. rewrite T, S. unfold powder_data. rewrite Ef, Hl. reflexivity.
Qed.
Lemma main_not_forces line ns file : tool_args line = Ok ns -> ns "filename" = Some (VStr file) -> load file = Ok None -> main line = Err NotForceConstants.
Proof.
  intros T Nf Hl. destruct (settings_read int_of float_of line ns T) as [s S]. destruct (settings_says _ _ S) as (S1 & _). assert (Ef : ps_file s = file) by congruence.
  unfold powder_main. rewrite T, S. unfold powder_data. rewrite Ef, Hl. reflexivity.
Qed.
Lemma clash_iff ns b w : says_weight ns b w -> pdos_clash w = true <-> ns "weighting" = Some (VStr "coherent") /\ exists v, ns "pdos" = Some (VList [VStr v]).
Proof.
  intros (W1 & W2 & _). rewrite W1, W2. unfold pdos_clash. destruct (w_pdos w) as [s|]; cbn [maybe].
  - rewrite String.eqb_eq. split; [intros ->; split; [reflexivity|exists s; reflexivity]|intros [H _]; congruence].
  - split; [discriminate|intros [_ [v H]]; discriminate].
Qed.
Lemma main_pdos line ns file x v : tool_args line = Ok ns -> ns "filename" = Some (VStr file) -> load file = Ok (Some x) -> ns "weighting" = Some (VStr "coherent") -> ns "pdos" = Some (VList [VStr v]) ->
  main line = Err (PRunErr (PowTool PdosNeedsDos)).
Proof.
  intros T Nf Hl Nw Np. destruct (settings_read int_of float_of line ns T) as [s S]. destruct (settings_says _ _ S) as (S1 & _ & _ & _ & _ & _ & _ & _ & _ & _ & Sw & _). assert (Ef : ps_file s = file) by congruence.
  unfold powder_main. rewrite T, S. unfold powder_data. rewrite Ef, Hl. destruct x as [[x src] sl].
  rewrite (proj2 (clash_iff ns 1 _ (Sw 1)) (conj Nw (ex_intro _ v Np))). reflexivity.
Qed.
Lemma main_settings line ns file u k lu b nb param asr x src sl : tool_args line = Ok ns ->
  ns "filename" = Some (VStr file) -> load file = Ok (Some (x, src, sl)) -> ns "energy_unit" = Some (VStr u) -> hartree u = Some k -> ns "length_unit" = Some (VStr lu) -> bohr lu = Some b -> b <> 0 ->
  ns "ebins" = Some (VInt (Z.of_nat nb)) -> ns "dipole_parameter" = Some (VFloat param) -> says_asr ns asr -> ns "use_brille" = Some (VBool false) ->
  exists a w p lim rnd rnd2, says_map ns b a /\ says_weight ns b w /\ says_map_plot ns p /\ says_limits ns lim /\ says_jitter ns jit rnd /\ says_jitter ns jit2 rnd2 /\
  main line = match run asr param k src sl rnd rnd2 u a w x with
              | Err e => Err (PRunErr e)
              | Ok (edges, bins, z) => Ok (map (fun q => q / b) edges, bins, z, lim, finish inch sheets rc PowderMap p (pretty_q lu) (pretty u)) end.
Proof.
  intros T Nf Hl Nu Hu Nl Hb B0 Nb Np Na Nr. destruct (settings_read int_of float_of line ns T) as [s S].
  destruct (settings_says _ _ S) as (S1 & S2 & S3 & S4 & S5 & S6 & S7 & S8 & S9 & S10 & S11 & S12).
  assert (Ef : ps_file s = file) by congruence. assert (Eu : ps_eunit s = u) by congruence. assert (El : ps_lunit s = lu) by congruence. assert (Eb : ps_ebins s = Z.of_nat nb) by congruence.
  assert (Ep : ps_param s = param) by congruence. assert (Er : ps_brille s = false) by congruence.
  assert (Ea : ps_asr s = asr) by (destruct S2 as [[X ->]|[[X ->]|[X ->]]]; destruct Na as [[Y ->]|[[Y ->]|[Y ->]]]; congruence).
  exists (ps_map s b nb), (ps_weight s b), (ps_plot s), (ps_limits s), (fun q => if ps_jitter s then Some (jit q) else None), (fun q => if ps_jitter s then Some (jit2 q) else None).
  split; [exact (S12 b nb B0 Eb)|]. split; [exact (S11 b)|]. split; [exact S9|]. split; [exact S10|]. split; [exact (jit_says ns _ jit S7)|]. split; [exact (jit_says ns _ jit2 S7)|].
  unfold powder_main. rewrite T, S. unfold powder_data. rewrite Ef, Hl, Er, El, Hb, Eu, Hu, Eb, Ea, Ep. destruct (Z.ltb_spec (Z.of_nat nb) 0); [lia|]. rewrite Nat2Z.id.
  assert (Xc : pdos_clash (ps_weight s 1) = pdos_clash (ps_weight s b)).
  { destruct (pdos_clash (ps_weight s b)) eqn:C; [exact (proj2 (clash_iff ns 1 _ (S11 1)) (proj1 (clash_iff ns b _ (S11 b)) C))|].
    destruct (pdos_clash (ps_weight s 1)) eqn:C1; [|reflexivity]. pose proof (proj2 (clash_iff ns b _ (S11 b)) (proj1 (clash_iff ns 1 _ (S11 1)) C1)). congruence. }
  rewrite Xc. destruct (pdos_clash (ps_weight s b)) eqn:C.
  - unfold powder_from_fc. rewrite C. reflexivity.
  - destruct (powder_from_fc _ _ _ _ _ _ _ _ _ _ _ _ _ _ _ _ _ _ _ _ _ _ _ _ _ _ _) as [[[? ?] ?]|?]; reflexivity.
Qed.
Lemma main_order l bef file after bef' after' ovs : M_parser.get_parser M_parser.PowderMap = Ok (true, l) ->
  Forall2 (S_parser.stands_for int_of float_of l) (bef ++ after) ovs -> S_parser.word l file -> S_parser.compatible ovs -> NoDup (map (fun ov => M_parser.o_dest (fst ov)) ovs) ->
  Permutation (bef ++ after) (bef' ++ after') ->
  (forall b u, bef = (b ++ [u])%list -> forall o, In o l -> In (S_parser.u_name u) (M_parser.o_names o) -> S_parser.has_enough o (S_parser.u_words u)) ->
  (forall b u, bef' = (b ++ [u])%list -> forall o, In o l -> In (S_parser.u_name u) (M_parser.o_names o) -> S_parser.has_enough o (S_parser.u_words u)) ->
  main (S_parser.written bef ++ file :: S_parser.written after) = main (S_parser.written bef' ++ file :: S_parser.written after').
Proof.
  intros P F W C Nd Pm B B'. destruct (L_parser3.tool_order int_of float_of M_parser.PowderMap l bef file after bef' after' ovs P F W C Nd Pm B B') as (ns & ns' & T & T' & X).
  assert (ns = ns') by (apply functional_extensionality; exact X). subst ns'. unfold powder_main. rewrite T, T'. reflexivity.
Qed.
(** An accepted line whose map was made *)
Lemma main_ok line r : main line = Ok r -> exists ns file u k lu b nb param asr x src sl, tool_args line = Ok ns /\
  ns "filename" = Some (VStr file) /\ load file = Ok (Some (x, src, sl)) /\ ns "energy_unit" = Some (VStr u) /\ hartree u = Some k /\ ns "length_unit" = Some (VStr lu) /\ bohr lu = Some b /\
  ns "ebins" = Some (VInt (Z.of_nat nb)) /\ ns "dipole_parameter" = Some (VFloat param) /\ says_asr ns asr /\ ns "use_brille" = Some (VBool false).
Proof.
  intros H. unfold powder_main in H. destruct (tool_args line) as [ns|e] eqn:T; [|discriminate]. destruct (settings_read int_of float_of line ns T) as [s S]. rewrite S in H.
  destruct (settings_says _ _ S) as (S1 & S2 & S3 & S4 & S5 & S6 & S7 & S8 & _). unfold powder_data in H.
  destruct (load (ps_file s)) as [[[[x src] sl]|]|e] eqn:Hl; [|discriminate|discriminate]. destruct (pdos_clash _); [discriminate|]. destruct (ps_brille s) eqn:Br; [discriminate|].
  destruct (bohr (ps_lunit s)) as [b|] eqn:Hb; [|discriminate]. destruct (hartree (ps_eunit s)) as [k|] eqn:Hu; [|discriminate]. destruct (Z.ltb_spec (ps_ebins s) 0) as [|Hn]; [discriminate|].
  exists ns, (ps_file s), (ps_eunit s), k, (ps_lunit s), b, (Z.to_nat (ps_ebins s)), (ps_param s), (ps_asr s), x, src, sl.
  repeat (split; [first [reflexivity | assumption]|]). split; [rewrite Z2Nat.id by lia; exact S6|]. repeat (split; [assumption|]). exact S8.
Qed.
End Main.

(** ** The axis of |q| *)
Lemma edges_of erfc reigh argsort chunk ceigh d mass born diel junk before asr param solve ops dw_chunk kB fmin wmin k c src sl rnd rnd2 always coeffs hm room a w edges bins z :
  powder_from_fc erfc reigh ceigh argsort chunk junk before asr param solve ops dw_chunk kB fmin wmin k c src sl rnd rnd2 always coeffs hm room a w (new_fc d mass born diel) = Ok (edges, bins, z) -> edges = q_edges a.
Proof.
  intros H. unfold powder_from_fc in H. destruct (pdos_clash w); [discriminate|]. destruct (Reqb _ _); [discriminate|]. destruct (run_modes _ _ _ _ _ _ _ _ _ _ _) as [[[? ?] ms]|]; [|discriminate].
  destruct (x_freqs _ _ _) as [|f0 fs]; [discriminate|]. destruct (powder_map_tool _ _ _ _ _ _ _ _ _ _ _ _ _ _ _ _ _ _ _ _ _ _ _) as [r|] eqn:T; [|discriminate].
  assert (r = (edges, bins, z)) by congruence. subst r. clear H.
  assert (P : exists row, powder_tool coeffs hm room row f0 fs a = Ok (edges, bins, z)).
  { unfold powder_map_tool in T. destruct (w_pdos w); [destruct (String.eqb _ _); [discriminate|]|]; eexists; exact T. }
  destruct P as [row P]. unfold powder_tool in P. destruct (Reqb _ _); [discriminate|]. destruct (_ <=? _)%Z; [discriminate|]. destruct (p_energy_bins _ _ _ _); [|discriminate].
  destruct (mapE _ _); [|discriminate]. destruct (p_broaden _ _ _ _ _); [|discriminate]. destruct (p_constrain _ _ _ _ _ _ _); [|discriminate]. congruence.
Qed.
Lemma axis_bohr lo hi n e b : b <> 0 -> even_bins (lo * b) (hi * b) n e -> even_bins lo hi n (map (fun q => q / b) e).
Proof.
  intros Hb [L N]. split; [rewrite map_length; exact L|]. intros i Hi. rewrite (nth_indep _ 0 (0 / b)) by (rewrite map_length; lia). set (g := fun q : R => q / b). change (0 / b) with (g 0). rewrite (map_nth g). unfold g.
  rewrite N by exact Hi. unfold Rdiv. set (v := / INR n). field. exact Hb.
Qed.
Lemma points_asked ns b a q : 0 < b -> says_map ns b a -> asked_points ns q (shell_npts a (q * b)).
Proof.
  intros Hb (_ & _ & _ & (z & N1 & N2) & D & (lo & L1 & L2) & (hi & H1 & H2) & _). unfold asked_points, shell_npts. destruct (npts_density a) as [d|].
  - right. destruct D as (dz & D1 & D2). rewrite (D2 q). exists dz, lo, hi, (Rceil (IZR dz * q ^ 2)). split; [exact D1|]. split; [exact L1|]. split; [exact H1|]. split.
    + pose proof (L_cell.Rceil_bounds (IZR dz * q ^ 2)). lra.
    + rewrite L2, H2. lia.
  - left. split; [exact D|]. exists z. split; assumption.
Qed.
Lemma middle_bohr e b i : b <> 0 -> (S i < length e)%nat -> bin_middle e i = bin_middle (map (fun q => q / b) e) i * b.
Proof.
  intros Hb Hi. unfold bin_middle. rewrite !(nth_indep (map _ e) 0 (0 / b)) by (rewrite map_length; lia). set (g := fun q : R => q / b). change (0 / b) with (g 0). rewrite !(map_nth g). unfold g. field. exact Hb.
Qed.
