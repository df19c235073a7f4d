(** Lemmas for C98. *)
From Coq Require Import String Permutation FunctionalExtensionality.
From Verif Require Import Base Cpx Vec3 M_path M_broad M_dos M_bins M_coll M_fixed M_style M_clidos M_grid M_cell M_qpts M_dynmat M_dipole M_struct M_asr M_calc M_doscalc M_dosmain
  S_coll S_dos S_fixed S_clidos S_qpts S_dynmat S_dipole S_asr S_calc S_unique S_doscalc S_dosmain.
From Verif Require M_parser S_parser S_manual L_parser L_parser3 L_manual L_doscalc.
Import M_parser (val(..), namespace).
Open Scope R_scope.
Open Scope string_scope.
Import S_manual.

(** ** Every accepted line gives arguments *)
Definition readable {A} (f : val -> option A) (k : kind) : Prop := forall v, is_of v k -> exists x, f v = Some x.
Lemma r_str : readable as_str Text. Proof. intros v [s ->]. exists s. reflexivity. Qed.
Lemma r_one l : readable as_str (OneOf l). Proof. intros v (s & -> & _). exists s. reflexivity. Qed.
Lemma r_num : readable as_num Number. Proof. intros v [s ->]. exists s. reflexivity. Qed.
Lemma r_int : readable as_int Whole. Proof. intros v [s ->]. exists s. reflexivity. Qed.
Lemma r_bool : readable as_bool YesNo. Proof. intros v [s ->]. exists s. reflexivity. Qed.
Lemma r_opt {A} (f : val -> option A) k : readable f k -> readable (as_opt f) (Optional k).
Proof.
  intros H v [->|I]; [exists None; reflexivity|]. destruct (H v I) as [x E]. unfold as_opt. destruct v; try (rewrite E; eexists; reflexivity). eexists; reflexivity.
Qed.
Lemma all_read {A} (f : val -> option A) k l : readable f k -> Forall (fun x => is_of x k) l -> exists r, all_some f l = Some r /\ length r = length l.
Proof.
  intros H F. induction F as [|v l I F IH]; [exists []; split; reflexivity|]. destruct (H v I) as [x E]. destruct IH as (r & Er & L). exists (x :: r). cbn. rewrite E, Er. split; [reflexivity|]. cbn. lia.
Qed.
Lemma r_some {A} (f : val -> option A) k : readable f k -> readable (as_list f) (OneOrMore k).
Proof. intros H v (l & -> & _ & F). destruct (all_read f k l H F) as (r & E & _). exists r. exact E. Qed.
Lemma r_any {A} (f : val -> option A) k : readable f k -> readable (as_list f) (AnyNumber k).
Proof. intros H v (l & -> & F). destruct (all_read f k l H F) as (r & E & _). exists r. exact E. Qed.
Lemma r_pair {A} (f : val -> option A) k : readable f k -> readable (as_pair f) (Exactly 2 k).
Proof. intros H v (l & -> & L & F). destruct (all_read f k l H F) as (r & E & Lr). unfold as_pair, as_list. rewrite E. destruct r as [|a [|b [|? ?]]]; cbn in Lr; try lia. eexists. reflexivity. Qed.
Lemma r_triple {A} (f : val -> option A) k : readable f k -> readable (as_triple f) (Exactly 3 k).
Proof. intros H v (l & -> & L & F). destruct (all_read f k l H F) as (r & E & Lr). unfold as_triple, as_list. rewrite E. destruct r as [|a [|b [|c [|? ?]]]]; cbn in Lr; try lia. eexists. reflexivity. Qed.

Section Line.
Variables (int_of : string -> option Z) (float_of : string -> option R) (coeffs : R -> list R).
Notation tool_args := (M_parser.tool_args int_of float_of M_parser.Dos).
Lemma find_row d k : existsb (fun r => String.eqb (r_setting r) d) (manual M_parser.Dos) = true ->
  (forall r, In r (manual M_parser.Dos) -> r_setting r = d -> r_kind r = k) -> forall line ns, tool_args line = Ok ns -> exists v, ns d = Some v /\ is_of v k.
Proof.
  intros X K line ns H. apply existsb_exists in X. destruct X as (r & I & E). apply String.eqb_eq in E.
  destruct (L_manual.tool_manual int_of float_of M_parser.Dos line ns r H I) as (x & Ex & Ox & _). exists x. rewrite <- E, <- (K r I E). split; assumption.
Qed.
Lemma read_setting {A} (f : val -> option A) d k line ns : readable f k -> tool_args line = Ok ns -> existsb (fun r => String.eqb (r_setting r) d) (manual M_parser.Dos) = true ->
  (forall r, In r (manual M_parser.Dos) -> r_setting r = d -> r_kind r = k) -> exists x, read ns f d = Some x.
Proof. intros Rf H X K. destruct (find_row d k X K line ns H) as (v & E & I). unfold read. rewrite E. exact (Rf v I). Qed.
End Line.
Ltac one_kind := let r := fresh "r" in let I := fresh "I" in let E := fresh "E" in intros r I E; cbn in I;
  repeat (destruct I as [<-|I]; [solve [reflexivity | discriminate E]|]); destruct I.
Ltac setting H f d k Rf := let x := fresh "x" in let E := fresh "E" in
  destruct (read_setting _ _ f d k _ _ Rf H eq_refl ltac:(one_kind)) as [x E]; rewrite E; clear E.
Section Line2.
Variables (int_of : string -> option Z) (float_of : string -> option R) (coeffs : R -> list R).
Notation tool_args := (M_parser.tool_args int_of float_of M_parser.Dos).
Lemma plot_read line ns : tool_args line = Ok ns -> exists p, plot_settings ns = Some p.
Proof.
  intros H. unfold plot_settings.
  setting H as_bool "no_base_style" YesNo r_bool.
  setting H (as_opt (as_list as_str)) "style" (Optional (OneOrMore Text)) (r_opt _ _ (r_some _ _ r_str)).
  setting H (as_opt as_num) "fontsize" (Optional Number) (r_opt _ _ r_num).
  setting H (as_opt as_str) "font" (Optional Text) (r_opt _ _ r_str).
  setting H (as_opt as_num) "linewidth" (Optional Number) (r_opt _ _ r_num).
  setting H (as_opt (as_pair as_num)) "figsize" (Optional (Exactly 2 Number)) (r_opt _ _ (r_pair _ _ r_num)).
  setting H as_str "figsize_unit" Text r_str.
  setting H as_str "title" Text r_str.
  setting H (as_opt as_str) "xlabel" (Optional Text) (r_opt _ _ r_str).
  setting H (as_opt as_str) "ylabel" (Optional Text) (r_opt _ _ r_str).
  setting H (as_opt as_str) "save_json" (Optional Text) (r_opt _ _ r_str).
  setting H (as_opt as_str) "save_to" (Optional Text) (r_opt _ _ r_str).
  eexists. reflexivity.
Qed.
Lemma fit_read line ns : tool_args line = Ok ns -> exists s x, read ns as_str "adaptive_fit" = Some s /\ fit_of s = Some x.
Proof.
  intros H. destruct (find_row int_of float_of "adaptive_fit" (OneOf ["cubic"; "cheby-log"]) eq_refl ltac:(one_kind) line ns H) as (v & E & (s & -> & I)).
  unfold read. rewrite E. exists s. cbn in I. destruct I as [<-|[<-|[]]]; eexists; split; reflexivity.
Qed.
Lemma method_read line ns : tool_args line = Ok ns -> exists s, read ns as_str "adaptive_method" = Some s /\ forall e f, exists x, method_of coeffs s e f = Some x.
Proof.
  intros H. destruct (find_row int_of float_of "adaptive_method" (OneOf ["reference"; "fast"]) eq_refl ltac:(one_kind) line ns H) as (v & E & (s & -> & I)).
  unfold read. rewrite E. exists s. cbn in I. destruct I as [<-|[<-|[]]]; split; try reflexivity; intros; eexists; reflexivity.
Qed.
Lemma asr_read line ns : tool_args line = Ok ns -> exists s x, read ns (as_opt as_str) "asr" = Some s /\ asr_of s = Some x.
Proof.
  intros H. destruct (find_row int_of float_of "asr" (Optional (OneOf ["reciprocal"; "realspace"])) eq_refl ltac:(one_kind) line ns H) as (v & E & [-> | (s & -> & I)]).
  - unfold read. rewrite E. exists None, None. split; reflexivity.
  - unfold read. rewrite E. exists (Some s). cbn in I. destruct I as [<-|[<-|[]]]; eexists; split; reflexivity.
Qed.
Lemma file_read line ns : tool_args line = Ok ns -> exists f, ns "filename" = Some (VStr f).
Proof. intros H. destruct (L_parser3.tool_inv int_of float_of M_parser.Dos _ line ns (L_parser3.parser_ok _) H) as (? & ? & ? & ? & file & _ & _ & _ & _ & _ & _ & (E & _)). exists file. exact E. Qed.
Lemma settings_read line ns : tool_args line = Ok ns -> exists s, dos_settings coeffs ns = Some s.
Proof.
  intros H. unfold dos_settings. destruct (file_read line ns H) as [f Ef]. unfold read at 1. rewrite Ef. cbn [as_str].
  setting H as_str "weighting" (OneOf ["dos"; "coherent-dos"; "incoherent-dos"; "coherent-plus-incoherent-dos"]) (r_one ["dos"; "coherent-dos"; "incoherent-dos"; "coherent-plus-incoherent-dos"]).
  setting H (as_opt (as_list as_str)) "pdos" (Optional (AnyNumber Text)) (r_opt _ _ (r_any _ _ r_str)).
  setting H (as_opt (as_triple as_int)) "grid" (Optional (Exactly 3 Whole)) (r_opt _ _ (r_triple _ _ r_int)).
  setting H as_num "grid_spacing" Number r_num.
  setting H as_bool "adaptive" YesNo r_bool.
  destruct (method_read line ns H) as (me & E1 & E2). rewrite E1. clear E1.
  setting H as_num "adaptive_error" Number r_num.
  destruct (fit_read line ns H) as (fi & fit & E3 & E4). rewrite E3, E4. clear E3 E4.
  match goal with |- context [method_of coeffs me ?e fit] => destruct (E2 e fit) as [m E5]; rewrite E5; clear E5 end.
  setting H (as_opt as_num) "adaptive_scale" (Optional Number) (r_opt _ _ r_num).
  setting H (as_opt (as_list as_num)) "inst_broadening" (Optional (OneOrMore Number)) (r_opt _ _ (r_some _ _ r_num)).
  setting H (as_opt (as_list as_num)) "energy_broadening" (Optional (OneOrMore Number)) (r_opt _ _ (r_some _ _ r_num)).
  setting H (as_opt as_str) "shape" (Optional (OneOf ["gauss"; "lorentz"])) (r_opt _ _ (r_one ["gauss"; "lorentz"])).
  setting H as_int "ebins" Whole r_int.
  setting H (as_opt as_num) "e_min" (Optional Number) (r_opt _ _ r_num).
  setting H (as_opt as_num) "e_max" (Optional Number) (r_opt _ _ r_num).
  setting H (as_opt as_num) "scale" (Optional Number) (r_opt _ _ r_num).
  destruct (asr_read line ns H) as (a & k & E6 & E7). rewrite E6, E7. clear E6 E7.
  setting H as_num "dipole_parameter" Number r_num.
  setting H as_str "energy_unit" Text r_str.
  setting H as_str "length_unit" Text r_str.
  destruct (plot_read line ns H) as [p Ep]. rewrite Ep. eexists. reflexivity.
Qed.
End Line2.
Ltac parts H := repeat match type of H with match ?x with Some _ => _ | None => None end = Some _ => let E := fresh "Rd" in destruct x eqn:E; [|discriminate H] end.
Lemma read_of {A} (f : val -> option A) ns d v x : ns d = Some v -> read ns f d = Some x -> f v = Some x.
Proof. intros E. unfold read. rewrite E. auto. Qed.

Lemma int_back v z : as_int v = Some z -> v = VInt z. Proof. destruct v; cbn; congruence. Qed.
Section Main.
Variables (int_of : string -> option Z) (float_of : string -> option R).
Context {E : Type}. Variable load : string -> bool -> res (source * sources) E.
Variables (hartree bohr : string -> option R) (room : string -> R) (pretty : string -> string).
Variables (erfc : R -> R) (reigh : real_eigh) (ceigh : complex_eigh) (argsort : list R -> list nat) (chunk : nat) (coeffs : R -> list R) (junk : nat -> nat -> nat -> R) (wmin : R).
Variables (inch : string -> option R) (sheets : string -> option sheet) (rc : string -> value).
Notation tool_args := (M_parser.tool_args int_of float_of M_parser.Dos).
Notation main := (dos_main int_of float_of load hartree bohr room pretty erfc reigh ceigh argsort chunk coeffs junk wmin inch sheets rc).
Notation data := (dos_data load hartree bohr room erfc reigh ceigh argsort chunk coeffs junk wmin).
Lemma main_typed line : main line <> Err AttributeErr.
Proof.
  unfold dos_main. destruct (tool_args line) as [ns|e] eqn:T; [|discriminate]. destruct (settings_read int_of float_of coeffs line ns T) as [s ->].
  unfold dos_data. destruct (load (d_file s) _) as [[x src]|e]; [|discriminate]. destruct (hartree _); [|discriminate]. destruct (_ <? _)%Z; [discriminate|].
  destruct x as [x|d].
  - destruct (bohr _); [|discriminate]. destruct (dos_from_fc _ _ _ _ _ _ _ _ _ _ _ _ _ _ _); discriminate.
  - destruct (dos_tool _ _ _ _ _ _ _); discriminate.
Qed.
Lemma main_line line r : main line = Ok r -> exists ns s, tool_args line = Ok ns /\ dos_settings coeffs ns = Some s /\ data s = Ok (fst r).
Proof.
  unfold dos_main. destruct (tool_args line) as [ns|e] eqn:T; [|discriminate]. destruct (dos_settings coeffs ns) as [s|] eqn:Es; [|discriminate].
  destruct (data s) as [x|e] eqn:D; [|discriminate]. intros H. exists ns, s. split; [reflexivity|]. split; [exact Es|]. assert (X : r = (x, finish inch sheets rc Dos (d_plot s) (pretty (d_eunit s)) "")) by congruence. rewrite X. exact D.
Qed.
Lemma row_default line ns r : tool_args line = Ok ns -> In r (manual M_parser.Dos) -> (forall s, In s (r_names r) -> ~ In s line) -> ns (r_setting r) = Some (r_default r).
Proof. intros T I N. destruct (L_manual.tool_manual int_of float_of M_parser.Dos line ns r T I) as (x & Ex & _ & Dx). rewrite Ex, (Dx N). reflexivity. Qed.
Ltac in_manual := cbn; repeat (first [left; reflexivity | right]).
Lemma grid_asked ns g s0 cell b g' : read ns (as_opt (as_triple as_int)) "grid" = Some g -> read ns as_num "grid_spacing" = Some s0 -> grid_spec cell g (s0 * b) = Some g' -> asked_grid ns cell b g'.
Proof.
  intros Rg Rs G. unfold read in Rg, Rs. destruct (ns "grid") as [v|] eqn:Ev; [|discriminate]. destruct (ns "grid_spacing") as [w|] eqn:Ew; [|discriminate].
  destruct w; try discriminate. match type of Ew with _ = Some (VFloat ?r) => assert (r = s0) by (cbn in Rs; congruence); subst r end. unfold asked_grid. destruct g' as [[g0 g1] g2]. destruct v; cbn in Rg; try discriminate.
  - right. split; [exact Ev|]. exists s0. split; [exact Ew|]. assert (g = None) by congruence. subst g. exact G.
  - left. rewrite Ev. f_equal. f_equal. unfold as_triple, as_list in Rg. destruct (all_some as_int l) as [zs|] eqn:Z; [|discriminate].
    destruct zs as [|z0 [|z1 [|z2 [|? ?]]]]; try discriminate. cbn in Rg. assert (g = Some (z0, z1, z2)) by congruence. subst g. cbn in G. assert (X : (z0, z1, z2) = (g0, g1, g2)) by congruence. injection X as -> -> ->.
    destruct l as [|v0 l]; [discriminate|]. cbn in Z. destruct (as_int v0) eqn:Z0; [|discriminate]. destruct l as [|v1 l]; [discriminate|]. cbn in Z. destruct (as_int v1) eqn:Z1; [|discriminate].
    destruct l as [|v2 l]; [discriminate|]. cbn in Z. destruct (as_int v2) eqn:Z2; [|discriminate]. destruct l as [|v3 l]; [|cbn in Z; destruct (as_int v3); [destruct (all_some as_int l)|]; discriminate].
    cbn in Z. apply int_back in Z0. apply int_back in Z1. apply int_back in Z2. congruence.
Qed.
Lemma scale_asked ns f : read ns (as_opt as_num) "scale" = Some f -> asked_scale ns (factor f).
Proof.
  unfold read. destruct (ns "scale") as [v|] eqn:Ev; [|discriminate]. intros H. unfold asked_scale. destruct v; cbn in H; try discriminate.
  - left. split; [exact Ev|]. assert (f = None) by congruence. subst f. reflexivity.
  - right. match type of Ev with _ = Some (VFloat ?r) => assert (f = Some r) by congruence end. subst f. exact Ev.
Qed.
(** A line without the options of [not_plain] *)
Lemma plain_line line ns s : tool_args line = Ok ns -> dos_settings coeffs ns = Some s -> (forall o, In o not_plain -> ~ In o line) ->
  d_asr s = None /\ (forall sp n, a_weighting (d_args s sp n) = "dos" /\ a_pdos (d_args s sp n) = None /\ a_adaptive (d_args s sp n) = false /\ a_inst (d_args s sp n) = None /\
  a_eb (d_args s sp n) = None /\ a_ebins (d_args s sp n) = n /\ a_spacing (d_args s sp n) = sp) /\
  (forall v, ns "filename" = Some (VStr v) -> d_file s = v) /\ (forall v, ns "energy_unit" = Some (VStr v) -> d_eunit s = v) /\
  (forall v, ns "length_unit" = Some (VStr v) -> d_lunit s = v) /\ (forall v, ns "dipole_parameter" = Some (VFloat v) -> d_param s = v) /\
  (forall v, ns "ebins" = Some (VInt v) -> d_ebins s = v) /\
  (forall n cell b g, grid_spec cell (a_grid (d_args s (d_spacing s * b) n)) (d_spacing s * b) = Some g -> asked_grid ns cell b g) /\
  (forall sp n, asked_scale ns (factor (a_scale (d_args s sp n)))) /\
  (forall sp n, ns "e_min" = Some VNone -> a_emin (d_args s sp n) = None) /\ (forall sp n, ns "e_max" = Some VNone -> a_emax (d_args s sp n) = None).
Proof.
  intros T S N.
  assert (Dw : ns "weighting" = Some (VStr "dos")) by (apply (row_default line ns (mkRow ["--weighting"; "-w"] "weighting" (OneOf ["dos"; "coherent-dos"; "incoherent-dos"; "coherent-plus-incoherent-dos"]) (VStr "dos")) T); [in_manual|cbn; intros o Io; apply N; cbn; tauto]).
  assert (Dp : ns "pdos" = Some VNone) by (apply (row_default line ns (mkRow ["--pdos"] "pdos" (Optional (AnyNumber Text)) VNone) T); [in_manual|cbn; intros o Io; apply N; cbn; tauto]).
  assert (Da : ns "adaptive" = Some (VBool false)) by (apply (row_default line ns (mkRow ["--adaptive"] "adaptive" YesNo (VBool false)) T); [in_manual|cbn; intros o Io; apply N; cbn; tauto]).
  assert (Di : ns "inst_broadening" = Some VNone) by (apply (row_default line ns (mkRow ["--instrument-broadening"] "inst_broadening" (Optional (OneOrMore Number)) VNone) T); [in_manual|cbn; intros o Io; apply N; cbn; tauto]).
  assert (De : ns "energy_broadening" = Some VNone) by (apply (row_default line ns (mkRow ["--energy-broadening"; "--eb"] "energy_broadening" (Optional (OneOrMore Number)) VNone) T); [in_manual|cbn; intros o Io; apply N; cbn; tauto]).
  assert (Dr : ns "asr" = Some VNone) by (apply (row_default line ns (mkRow ["--asr"] "asr" (Optional (OneOf ["reciprocal"; "realspace"])) VNone) T); [in_manual|cbn; intros o Io; apply N; cbn; tauto]).
  unfold dos_settings in S. parts S. assert (X : s = ltac:(match type of S with Some ?t = _ => exact t end)) by congruence. clear S. rewrite X. clear X s.
  cbn [d_asr d_args d_file d_eunit d_lunit d_param d_ebins d_spacing a_weighting a_pdos a_adaptive a_inst a_eb a_ebins a_spacing a_grid a_scale a_emin a_emax].
  repeat match goal with
  | D : ns ?d = Some ?v, Rr : read ns ?f ?d = Some ?x |- _ => let K := fresh "K" in pose proof (read_of f ns d v x D Rr) as K; cbn in K; clear Rr; assert (x = ltac:(match type of K with Some ?t = _ => exact t end)) by congruence; clear K end.
  subst.
  split; [match goal with K : asr_of None = Some ?o |- ?o = None => cbn in K; congruence end|].
  split; [intros; repeat split; reflexivity|].
  split; [intros v D; match goal with Rr : read ns _ "filename" = _ |- _ => pose proof (read_of _ _ _ _ _ D Rr) as K; cbn in K; congruence end|].
  split; [intros v D; match goal with Rr : read ns _ "energy_unit" = _ |- _ => pose proof (read_of _ _ _ _ _ D Rr) as K; cbn in K; congruence end|].
  split; [intros v D; match goal with Rr : read ns _ "length_unit" = _ |- _ => pose proof (read_of _ _ _ _ _ D Rr) as K; cbn in K; congruence end|].
  split; [intros v D; match goal with Rr : read ns _ "dipole_parameter" = _ |- _ => pose proof (read_of _ _ _ _ _ D Rr) as K; cbn in K; congruence end|].
  split; [intros v D; match goal with Rr : read ns _ "ebins" = _ |- _ => pose proof (read_of _ _ _ _ _ D Rr) as K; cbn in K; congruence end|].
  split; [intros n cell b g G; match goal with Rr : read ns _ "grid" = _, Rq : read ns _ "grid_spacing" = _ |- _ => exact (grid_asked ns _ _ cell b g Rr Rq G) end|].
  split; [intros sp n; match goal with Rr : read ns _ "scale" = _ |- _ => exact (scale_asked ns _ Rr) end|].
  split; [intros sp n D; match goal with Rr : read ns _ "e_min" = _ |- _ => pose proof (read_of _ _ _ _ _ D Rr) as K; cbn in K; congruence end|].
  intros sp n D; match goal with Rr : read ns _ "e_max" = _ |- _ => pose proof (read_of _ _ _ _ _ D Rr) as K; cbn in K; congruence end.
Qed.
Lemma main_counts d mass born diel : home_first d -> search_complete d -> det3 (zrows (f_sc d)) <> 0 -> fc_symmetric d -> symmetric3 diel -> csolves ceigh ->
  exists L, shares_images d L /\
  forall line ns file u k lu b param nb src bins ls fig,
  tool_args line = Ok ns -> (forall o, In o not_plain -> ~ In o line) ->
  ns "filename" = Some (VStr file) -> load file true = Ok (ForceFile (new_fc d mass born diel), src) ->
  ns "energy_unit" = Some (VStr u) -> hartree u = Some k -> 0 < k -> ns "length_unit" = Some (VStr lu) -> bohr lu = Some b ->
  ns "dipole_parameter" = Some (VFloat param) -> ns "ebins" = Some (VInt (Z.of_nat nb)) -> (1 <= nb)%nat ->
  main line = Ok (bins, ls, fig) ->
  exists g0 g1 g2 f, (0 < g0)%nat /\ (0 < g1)%nat /\ (0 < g2)%nat /\ asked_grid ns (f_cell d) b (Z.of_nat g0, Z.of_nat g1, Z.of_nat g2) /\ asked_scale ns f /\
  let n := M_dynmat.n_atoms d in let N := (g0 * g1 * g2)%nat in let Q := map (mp_point g0 g1 g2) (seq 0 N) in
  exists md y, (forall j, (j < N)%nat -> let q := mp_point g0 g1 g2 j in
      modes_of (3 * n) mass (whole_matrix erfc d born diel true param L (if is_gamma q then vzero else q) (if is_gamma q then Some (approach Q j) else None)) (md j)) /\
    ls = [Some y] /\ length bins = (nb + 1)%nat /\ length y = nb /\
    (forall i, (i < nb)%nat -> nth i bins 0 < nth (S i) bins 0 /\
      nth i y 0 * (nth (S i) bins 0 - nth i bins 0)
      = f * (3 / INR (3 * n) * (Sum (seq 0 N) (fun j => count_in (3 * n) k (nth i bins 0) (nth (S i) bins 0) (md j)) / INR N))) /\
    (ns "e_min" = Some VNone -> ns "e_max" = Some VNone -> 0 < room u -> (exists j m, (j < N)%nat /\ (m < 3 * n)%nat /\ 0 < m_freq (md j) m) ->
      sumn nb (fun i => nth i y 0 * (nth (S i) bins 0 - nth i bins 0)) = 3 * f).
Proof.
  intros Hh Hc Hd Hf He Hs. destruct (L_doscalc.counts erfc reigh argsort chunk coeffs ceigh d mass born diel Hh Hc Hd Hf He Hs) as (L & HL & M). exists L. split; [exact HL|].
  intros line ns file u k lu b param nb src bins ls fig T N Nf Hl Nu Hu Hk Nl Hb Np Nb Hn H.
  destruct (main_line line _ H) as (ns' & s & T' & S & D). assert (ns' = ns) by congruence. subst ns'. cbn [fst] in D.
  destruct (plain_line line ns s T S N) as (Pa & Pargs & Pf & Pu & Pl & Pp & Pb & Pg & Ps & P1 & P2).
  specialize (Pf _ Nf). specialize (Pu _ Nu). specialize (Pl _ Nl). specialize (Pp _ Np). specialize (Pb _ Nb).
  unfold dos_data in D. destruct (Pargs 0 0%nat) as (W0 & W1 & _). rewrite W0, W1, Pf in D. cbn [String.eqb Ascii.eqb Bool.eqb andb] in D. rewrite Hl, Pu, Hu, Pb, Pl, Hb, Pa, Pp in D.
  destruct (Z.ltb_spec (Z.of_nat nb) 0); [lia|]. rewrite Nat2Z.id in D. cbv zeta in D.
  destruct (Pargs (d_spacing s * b) nb) as (A1 & A2 & A3 & A4 & A5 & A6 & A7). set (a := d_args s (d_spacing s * b) nb) in *.
  destruct (dos_from_fc erfc reigh ceigh argsort chunk coeffs junk k wmin (room u) src a None param (new_fc d mass born diel)) as [r|e] eqn:F; [|discriminate].
  assert (r = (bins, ls)) by congruence. subst r.
  destruct (M [] junk k wmin (room u) src a param bins ls Hk ltac:(rewrite A6; exact Hn) A1 A2 A3 A4 A5 F) as (g0 & g1 & g2 & G0 & G1 & G2 & G & md & y & B1 & B2 & B3 & B4 & B5 & B6).
  rewrite A6 in B3, B4, B5, B6. exists g0, g1, g2, (factor (a_scale a)). split; [exact G0|]. split; [exact G1|]. split; [exact G2|]. split; [rewrite A7 in G; exact (Pg nb (f_cell d) b _ G)|].
  split; [exact (Ps _ _)|]. exists md, y. split; [exact B1|]. split; [exact B2|]. split; [exact B3|]. split; [exact B4|]. split; [exact B5|].
  intros E1 E2. apply B6; [exact (P1 _ _ E1)|exact (P2 _ _ E2)].
Qed.
End Main.

(** ** What the looks of the figure do not change *)
Definition look_dests : list string := ["title"; "xlabel"; "ylabel"; "style"; "no_base_style"; "font"; "fontsize"; "figsize"; "figsize_unit"; "save_to"; "save_json"; "linewidth"].
Definition in_words (l : list string) (s : string) : bool := existsb (String.eqb s) l.
Lemma looks_dests : forallb (fun o => forallb (fun s => Bool.eqb (in_words looks s) (in_words look_dests (M_parser.o_dest o))) (M_parser.o_names o)) (L_parser3.options_of M_parser.Dos) = true.
Proof. vm_compute. reflexivity. Qed.
Definition kept (ov : M_parser.opt * val) : bool := negb (in_words look_dests (M_parser.o_dest (fst ov))).
Section Looks.
Variables (int_of : string -> option Z) (float_of : string -> option R).
Notation l := (L_parser3.options_of M_parser.Dos).
Lemma filter_stands us ovs : Forall2 (S_parser.stands_for int_of float_of l) us ovs -> Forall2 (S_parser.stands_for int_of float_of l) (without_looks us) (filter kept ovs).
Proof.
  intros F. induction F as [|u ov us ovs X F IH]; [constructor|]. unfold without_looks. cbn [filter]. fold (without_looks us).
  assert (K : negb (existsb (String.eqb (S_parser.u_name u)) looks) = kept ov).
  { unfold kept. f_equal. destruct X as (I & J & _). pose proof looks_dests as H. rewrite forallb_forall in H. specialize (H _ I). rewrite forallb_forall in H. specialize (H _ J). apply eqb_prop in H. exact H. }
  rewrite K. destruct (kept ov); [constructor; assumption|assumption].
Qed.
Lemma filter_compatible ovs : S_parser.compatible ovs -> S_parser.compatible (filter kept ovs).
Proof. intros C o v o' v' g I I'. apply filter_In in I. apply filter_In in I'. exact (C o v o' v' g (proj1 I) (proj1 I')). Qed.
Lemma filter_settings file ovs ns ns' d : S_parser.settings l file ovs ns -> S_parser.settings l file (filter kept ovs) ns' -> in_words look_dests d = false -> ns d = ns' d.
Proof.
  intros (A & B & C & D) (A' & B' & C' & D') K. destruct (String.eqb_spec d "filename") as [->|Nf]; [congruence|]. destruct (L_parser3.given_or_not ovs d) as [X|X].
  - destruct (L_parser3.last_split _ _ X) as (pre & o & v & post & E1 & E2 & E3).
    rewrite <- E2. rewrite (B pre o v post E1) by (intros ov Iv; rewrite E2; exact (E3 ov Iv)). symmetry. apply (B' (filter kept pre) o v (filter kept post)).
    + rewrite E1, filter_app. cbn [filter]. assert (kept (o, v) = true) as -> by (unfold kept; cbn [fst]; rewrite E2, K; reflexivity). reflexivity.
    + intros ov Iv. apply filter_In in Iv. rewrite E2. exact (E3 ov (proj1 Iv)).
  - assert (X' : forall ov, In ov (filter kept ovs) -> M_parser.o_dest (fst ov) <> d) by (intros ov Iv; apply filter_In in Iv; exact (X ov (proj1 Iv))).
    destruct (L_parser3.option_or_not l d) as [(o & I & Nh & <-)|Y].
    + rewrite (C o I Nh X), (C' o I Nh X'). reflexivity.
    + rewrite (D d Nf Y), (D' d Nf Y). reflexivity.
Qed.
End Looks.
Definition with_plot (s : dset) (p : pargs) : dset := mkDS (d_file s) (d_asr s) (d_param s) (d_eunit s) (d_lunit s) (d_spacing s) (d_ebins s) (d_args s) p.
Lemma settings_split coeffs ns ns' s s' : (forall d, in_words look_dests d = false -> ns d = ns' d) -> dos_settings coeffs ns = Some s -> dos_settings coeffs ns' = Some s' -> s' = with_plot s (d_plot s').
Proof.
  intros Eq S S'. unfold dos_settings, read in S, S'. rewrite <- !Eq in S' by reflexivity. parts S. 
  repeat match type of S' with context [match ?x with Some _ => _ | None => None end] => match goal with K : x = Some _ |- _ => rewrite K in S' end end.
  destruct (plot_settings ns') as [p'|]; [|discriminate]. injection S as <-. injection S' as <-. reflexivity.
Qed.
Section Looks2.
Variables (int_of : string -> option Z) (float_of : string -> option R).
Context {E : Type}. Variable load : string -> bool -> res (source * sources) E.
Variables (hartree bohr : string -> option R) (room : string -> R) (pretty : string -> string).
Variables (erfc : R -> R) (reigh : real_eigh) (ceigh : complex_eigh) (argsort : list R -> list nat) (chunk : nat) (coeffs : R -> list R) (junk : nat -> nat -> nat -> R) (wmin : R).
Variables (inch : string -> option R) (sheets : string -> option sheet) (rc : string -> value).
Notation main := (dos_main int_of float_of load hartree bohr room pretty erfc reigh ceigh argsort chunk coeffs junk wmin inch sheets rc).
Notation data := (dos_data load hartree bohr room erfc reigh ceigh argsort chunk coeffs junk wmin).
Lemma data_plot s p : data (with_plot s p) = data s. Proof. reflexivity. Qed.
Lemma main_looks l us ovs file : M_parser.get_parser M_parser.Dos = Ok (true, l) -> Forall2 (S_parser.stands_for int_of float_of l) us ovs -> S_parser.word l file -> S_parser.compatible ovs ->
  match main (file :: S_parser.written us), main (file :: S_parser.written (without_looks us)) with
  | Ok (r, _), Ok (r', _) => r = r'
  | Err e, Err e' => e = e'
  | _, _ => False
  end.
Proof.
  intros P F W C. rewrite L_parser3.parser_ok in P. assert (l = L_parser3.options_of M_parser.Dos) by congruence. subst l.
  destruct (L_parser3.tool_good int_of float_of M_parser.Dos _ [] file us [] ovs (L_parser3.parser_ok _) (Forall2_nil _) F W) as (ns & T & S); [intros [|? ?] ? K; discriminate K|exact C|].
  destruct (L_parser3.tool_good int_of float_of M_parser.Dos _ [] file (without_looks us) [] (filter kept ovs) (L_parser3.parser_ok _) (Forall2_nil _) (filter_stands _ _ _ _ F) W) as (ns' & T' & S'); [intros [|? ?] ? K; discriminate K|exact (filter_compatible _ C)|].
  cbn [S_parser.written flat_map app] in T, T'. fold (S_parser.written us) in T. fold (S_parser.written (without_looks us)) in T'. cbn [app] in S, S'.
  destruct (settings_read int_of float_of coeffs _ ns T) as [s Es]. destruct (settings_read int_of float_of coeffs _ ns' T') as [s' Es'].
  pose proof (settings_split coeffs ns ns' s s' (fun d => filter_settings file ovs ns ns' d S S') Es Es') as X.
  unfold dos_main. rewrite T, T', Es, Es', X, data_plot. destruct (data s) as [r|e]; reflexivity.
Qed.
Lemma main_order l before file after before' after' ovs : M_parser.get_parser M_parser.Dos = Ok (true, l) ->
  Forall2 (S_parser.stands_for int_of float_of l) (before ++ after) ovs -> S_parser.word l file -> S_parser.compatible ovs -> NoDup (map (fun ov => M_parser.o_dest (fst ov)) ovs) ->
  Permutation (before ++ after) (before' ++ after') ->
  (forall b u, before = (b ++ [u])%list -> forall o, In o l -> In (S_parser.u_name u) (M_parser.o_names o) -> S_parser.has_enough o (S_parser.u_words u)) ->
  (forall b u, before' = (b ++ [u])%list -> forall o, In o l -> In (S_parser.u_name u) (M_parser.o_names o) -> S_parser.has_enough o (S_parser.u_words u)) ->
  main (S_parser.written before ++ file :: S_parser.written after) = main (S_parser.written before' ++ file :: S_parser.written after').
Proof.
  intros P F W C Nd Pm B B'. destruct (L_parser3.tool_order int_of float_of M_parser.Dos l before file after before' after' ovs P F W C Nd Pm B B') as (ns & ns' & T & T' & X).
  assert (ns = ns') by (apply functional_extensionality; exact X). subst ns'. unfold dos_main. rewrite T, T'. reflexivity.
Qed.
End Looks2.

(** ** The line with nothing but the file, and a line for a chain of atoms *)
From Verif Require Import L_nac L_chain L_calc4 L_doscalc2.
From Verif Require L_unique4.
Ltac in_manual := cbn; repeat (first [left; reflexivity | right]).
Section Bare.
Variables (int_of : string -> option Z) (float_of : string -> option R).
Context {E : Type}. Variable load : string -> bool -> res (source * sources) E.
Variables (hartree bohr : string -> option R) (room : string -> R) (pretty : string -> string).
Variables (erfc : R -> R) (reigh : real_eigh) (ceigh : complex_eigh) (argsort : list R -> list nat) (chunk : nat) (coeffs : R -> list R) (junk : nat -> nat -> nat -> R) (wmin : R).
Variables (inch : string -> option R) (sheets : string -> option sheet) (rc : string -> value).
Notation tool_args := (M_parser.tool_args int_of float_of M_parser.Dos).
Notation main := (dos_main int_of float_of load hartree bohr room pretty erfc reigh ceigh argsort chunk coeffs junk wmin inch sheets rc).
Lemma bare_settings file ns : tool_args [file] = Ok ns -> ns "filename" = Some (VStr file) /\ forall r, In r (manual M_parser.Dos) -> ns (r_setting r) = Some (r_default r).
Proof.
  intros T. destruct (L_parser3.tool_inv int_of float_of M_parser.Dos _ [file] ns (L_parser3.parser_ok _) T) as (before & bvs & after & avs & f & El & _ & _ & W & _ & _ & (Ef & _)).
  destruct before as [|u before]; [|exfalso; apply (f_equal (@List.length string)) in El; rewrite app_length in El; cbn in El; lia].
  cbn in El. assert (file = f) by congruence. subst f. split; [exact Ef|]. intros r Ir. apply (row_default int_of float_of [file] ns r T Ir).
  intros s Is [<-|[]]. destruct W as [W _]. apply W. apply in_flat_map. destruct (proj1 (L_manual.manual_names M_parser.Dos _ r file (L_parser3.parser_ok _) Ir) Is) as (o & Io & _ & Jo & _). exists o. split; assumption.
Qed.
Lemma main_bare d mass born diel : home_first d -> search_complete d -> det3 (zrows (f_sc d)) <> 0 -> fc_symmetric d -> symmetric3 diel -> csolves ceigh ->
  exists L, shares_images d L /\
  forall file k b src bins ls fig,
  load file true = Ok (ForceFile (new_fc d mass born diel), src) -> hartree "meV" = Some k -> 0 < k -> bohr "angstrom" = Some b ->
  main [file] = Ok (bins, ls, fig) ->
  exists g0 g1 g2, (0 < g0)%nat /\ (0 < g1)%nat /\ (0 < g2)%nat /\ get_mp_grid_spec (f_cell d) (1 / 10 * b) = Some (Z.of_nat g0, Z.of_nat g1, Z.of_nat g2) /\
  let n := M_dynmat.n_atoms d in let N := (g0 * g1 * g2)%nat in let Q := map (mp_point g0 g1 g2) (seq 0 N) in
  exists md y, (forall j, (j < N)%nat -> let q := mp_point g0 g1 g2 j in
      modes_of (3 * n) mass (whole_matrix erfc d born diel true 1 L (if is_gamma q then vzero else q) (if is_gamma q then Some (approach Q j) else None)) (md j)) /\
    ls = [Some y] /\ length bins = 201%nat /\ length y = 200%nat /\
    (forall i, (i < 200)%nat -> nth i bins 0 < nth (S i) bins 0 /\
      nth i y 0 * (nth (S i) bins 0 - nth i bins 0) = 3 / INR (3 * n) * (Sum (seq 0 N) (fun j => count_in (3 * n) k (nth i bins 0) (nth (S i) bins 0) (md j)) / INR N)) /\
    (0 < room "meV" -> (exists j m, (j < N)%nat /\ (m < 3 * n)%nat /\ 0 < m_freq (md j) m) ->
      sumn 200 (fun i => nth i y 0 * (nth (S i) bins 0 - nth i bins 0)) = 3).
Proof.
  intros Hh Hc Hd Hf He Hs.
  destruct (main_counts int_of float_of load hartree bohr room pretty erfc reigh ceigh argsort chunk coeffs junk wmin inch sheets rc d mass born diel Hh Hc Hd Hf He Hs) as (L & HL & M). exists L. split; [exact HL|].
  intros file k b src bins ls fig Hl Hu Hk Hb H. destruct (main_line int_of float_of load hartree bohr room pretty erfc reigh ceigh argsort chunk coeffs junk wmin inch sheets rc [file] _ H) as (ns & s & T & _).
  destruct (bare_settings file ns T) as [Nf D].
  assert (Dg : ns "grid" = Some VNone) by (apply (D (mkRow ["--grid"] "grid" (Optional (Exactly 3 Whole)) VNone)); in_manual).
  assert (Ds : ns "grid_spacing" = Some (VFloat (1 / 10))) by (apply (D (mkRow ["--grid-spacing"] "grid_spacing" Number (VFloat (1 / 10)))); in_manual).
  assert (Dc : ns "scale" = Some VNone) by (apply (D (mkRow ["--scale"] "scale" (Optional Number) VNone)); in_manual).
  assert (De : ns "energy_unit" = Some (VStr "meV")) by (apply (D (mkRow ["--energy-unit"; "-u"] "energy_unit" Text (VStr "meV"))); in_manual).
  assert (Dl : ns "length_unit" = Some (VStr "angstrom")) by (apply (D (mkRow ["--length-unit"] "length_unit" Text (VStr "angstrom"))); in_manual).
  assert (Dp : ns "dipole_parameter" = Some (VFloat 1)) by (apply (D (mkRow ["--dipole-parameter"] "dipole_parameter" Number (VFloat 1))); in_manual).
  assert (Db : ns "ebins" = Some (VInt (Z.of_nat 200))) by (apply (D (mkRow ["--ebins"] "ebins" Whole (VInt 200))); in_manual).
  assert (D1 : ns "e_min" = Some VNone) by (apply (D (mkRow ["--e-min"] "e_min" (Optional Number) VNone)); in_manual).
  assert (D2 : ns "e_max" = Some VNone) by (apply (D (mkRow ["--e-max"] "e_max" (Optional Number) VNone)); in_manual).
  assert (Np : forall o, In o not_plain -> ~ In o [file]).
  { destruct (L_parser3.tool_inv int_of float_of M_parser.Dos _ [file] ns (L_parser3.parser_ok _) T) as (before & bvs & after & avs & f & El & _ & _ & W & _).
    destruct before as [|u before]; [|exfalso; apply (f_equal (@List.length string)) in El; rewrite app_length in El; cbn in El; lia].
    cbn in El. assert (file = f) by congruence. subst f. intros o Io [<-|[]]. destruct W as [W _]. apply W. revert file Io W H Hl T El Nf. clear. intros file Io _ _ _ _ _ _. 
    assert (X : incl not_plain (flat_map M_parser.o_names (L_parser3.options_of M_parser.Dos))) by (apply L_parser3.incl_strings; vm_compute; reflexivity). apply X. exact Io. }
  destruct (M [file] ns file "meV" k "angstrom" b 1 200%nat src bins ls fig T Np Nf Hl De Hu Hk Dl Hb Dp Db ltac:(lia) H) as (g0 & g1 & g2 & f & G0 & G1 & G2 & G & F & md & y & B1 & B2 & B3 & B4 & B5 & B6).
  assert (f = 1) by (destruct F as [[_ F]|F]; [exact F|congruence]). subst f.
  exists g0, g1, g2. split; [exact G0|]. split; [exact G1|]. split; [exact G2|].
  split; [destruct G as [G|(_ & s0 & G & K)]; [congruence|]; assert (s0 = 1 / 10) by congruence; subst s0; exact K|].
  exists md, y. split; [exact B1|]. split; [exact B2|]. split; [exact B3|]. split; [exact B4|].
  split; [intros i Hi; destruct (B5 i Hi) as [X Y]; split; [exact X|rewrite Y; ring]|]. intros R0 P. rewrite (B6 D1 D2 R0 P). ring.
Qed.
End Bare.
Definition few_ints (s : string) : option Z := if String.eqb s "1" then Some 1%Z else if String.eqb s "2" then Some 2%Z else if String.eqb s "3" then Some 3%Z else if String.eqb s "4" then Some 4%Z else None.
Definition chain_line : list string := ["chain.json"; "--grid"; "2"; "3"; "1"; "--ebins"; "4"].
Lemma chain_settings coeffs : exists ns p, M_parser.tool_args few_ints (fun _ => None) M_parser.Dos chain_line = Ok ns /\
  ns "filename" = Some (VStr "chain.json") /\ ns "energy_unit" = Some (VStr "meV") /\ ns "length_unit" = Some (VStr "angstrom") /\ ns "dipole_parameter" = Some (VFloat 1) /\
  ns "ebins" = Some (VInt (Z.of_nat 4)) /\
  dos_settings coeffs ns = Some (mkDS "chain.json" None 1 "meV" "angstrom" (1 / 10) 4
    (fun s n => mkArgs "dos" None (Some (2, 3, 1)%Z) s false Reference (1 / 100) None None None "gauss" n None None None) p).
Proof. eexists. eexists. split; [vm_compute; reflexivity|]. repeat (split; [reflexivity|]). vm_compute. reflexivity. Qed.
Lemma chain_main room pretty erfc reigh argsort chunk coeffs junk wmin inch sheets rc src k0 k1 : Rabs k1 < k0 ->
  exists ns r, M_parser.tool_args few_ints (fun _ => None) M_parser.Dos chain_line = Ok ns /\ (forall o, In o not_plain -> ~ In o chain_line) /\
  ns "filename" = Some (VStr "chain.json") /\ ns "energy_unit" = Some (VStr "meV") /\ ns "length_unit" = Some (VStr "angstrom") /\ ns "dipole_parameter" = Some (VFloat 1) /\
  ns "ebins" = Some (VInt (Z.of_nat 4)) /\
  dos_main few_ints (fun _ => None) (fun _ _ => @Ok _ unit (ForceFile (new_fc (chain k0 k1) one_mass None unit_cell3), src)) (fun _ => Some 1) (fun _ => Some 10) room pretty
    erfc reigh cdiag argsort chunk coeffs junk wmin inch sheets rc chain_line = Ok r.
Proof.
  intros H. destruct (chain_settings coeffs) as (ns & p & T & N1 & N2 & N3 & N4 & N5 & S).
  destruct (chain_dos erfc reigh argsort chunk coeffs cdiag k0 k1 (diag_good k0 k1 H) junk wmin (room "meV") src 2 3 1 false 1 ltac:(lia) ltac:(lia) ltac:(lia)) as (r & Er).
  exists ns. eexists. split; [exact T|]. split; [intros o Io; cbn in Io; repeat (destruct Io as [<-|Io]; [intros X; cbn in X; repeat (destruct X as [X|X]; [discriminate X|]); exact X|]); destruct Io|].
  split; [exact N1|]. split; [exact N2|]. split; [exact N3|]. split; [exact N4|]. split; [exact N5|].
  unfold dos_main. rewrite T, S. unfold dos_data. cbn [d_file d_asr d_param d_eunit d_lunit d_spacing d_ebins d_args d_plot]. change (4 <? 0)%Z with false. cbv iota zeta.
  replace (1 / 10 * 10) with 1 by lra. change (Z.to_nat 4) with 4%nat. unfold plain_args in Er. change (Z.of_nat 2, Z.of_nat 3, Z.of_nat 1) with (2, 3, 1)%Z in Er. rewrite Er. reflexivity.
Qed.

(** ** Where every setting goes *)
Definition back {A} (f : val -> option A) (g : A -> val) : Prop := forall v x, f v = Some x -> v = g x.
Lemma b_str : back as_str VStr. Proof. intros [] r H; cbn in H; congruence. Qed.
Lemma b_num : back as_num VFloat. Proof. intros [] r H; cbn in H; congruence. Qed.
Lemma b_int : back as_int VInt. Proof. intros [] r H; cbn in H; congruence. Qed.
Lemma b_bool : back as_bool VBool. Proof. intros [] r H; cbn in H; congruence. Qed.
Lemma b_opt {A} (f : val -> option A) g : back f g -> back (as_opt f) (maybe g).
Proof.
  intros B v r H. unfold as_opt in H. destruct v; try (destruct (f _) as [y|] eqn:Y; [|discriminate]; cbn in H; assert (r = Some y) by congruence; subst r; exact (B _ _ Y)).
  assert (r = None) by congruence. subst r. reflexivity.
Qed.
Lemma all_back {A} (f : val -> option A) g l : back f g -> forall r, all_some f l = Some r -> l = map g r.
Proof.
  intros B. induction l as [|v l IH]; intros r H; cbn in H; [assert (r = []) by congruence; subst r; reflexivity|].
  destruct (f v) as [x|] eqn:X; [|discriminate]. destruct (all_some f l) as [t|]; [|discriminate]. assert (r = x :: t) by congruence. subst r. cbn. rewrite <- (B v x X), <- (IH t eq_refl). reflexivity.
Qed.
Lemma b_list {A} (f : val -> option A) g : back f g -> back (as_list f) (fun l => VList (map g l)).
Proof. intros B v r H. destruct v; cbn in H; try discriminate. rewrite <- (all_back f g _ B r H). reflexivity. Qed.
Lemma b_pair {A} (f : val -> option A) g : back f g -> back (as_pair f) (fun '(x, y) => VList [g x; g y]).
Proof.
  intros B v x H. unfold as_pair in H. destruct (as_list f v) as [r|] eqn:L; [|discriminate]. pose proof (b_list f g B v r L) as ->.
  destruct r as [|y [|z [|? ?]]]; try discriminate. assert (x = (y, z)) by congruence. subst x. reflexivity.
Qed.
Lemma b_triple {A} (f : val -> option A) g : back f g -> back (as_triple f) (fun '(x, y, z) => VList [g x; g y; g z]).
Proof.
  intros B v x H. unfold as_triple in H. destruct (as_list f v) as [r|] eqn:L; [|discriminate]. pose proof (b_list f g B v r L) as ->.
  destruct r as [|y [|z [|w [|? ?]]]]; try discriminate. assert (x = (y, z, w)) by congruence. subst x. reflexivity.
Qed.
Lemma read_back {A} (f : val -> option A) g ns d x : back f g -> read ns f d = Some x -> ns d = Some (g x).
Proof. intros B H. unfold read in H. destruct (ns d) as [v|]; [|discriminate]. rewrite (B v x H). reflexivity. Qed.
Ltac put := match goal with Rr : read ?ns ?f ?d = Some ?x |- ?ns ?d = Some _ => refine (read_back f _ ns d x _ Rr);
  solve [exact b_str | exact b_num | exact b_int | exact b_bool | exact (b_opt _ _ b_str) | exact (b_opt _ _ b_num) | exact (b_opt _ _ (b_list _ _ b_str)) | exact (b_opt _ _ (b_list _ _ b_num))
        | exact (b_opt _ _ (b_pair _ _ b_num)) | exact (b_opt _ _ (b_triple _ _ b_int))] end.
Lemma plot_says ns p : plot_settings ns = Some p -> says_plot ns p.
Proof.
  intros S. unfold plot_settings in S. parts S. assert (X : p = ltac:(match type of S with Some ?t = _ => exact t end)) by congruence. clear S. rewrite X. clear X p.
  unfold says_plot. cbn [a_no_base a_style a_cmap a_fontsize a_font a_linewidth a_figsize a_unit a_title a_xlabel a_ylabel a_save_json a_save_to a_no_widgets].
  split; [put|]. split; [put|]. split; [reflexivity|]. repeat (split; [put|]). reflexivity.
Qed.
Lemma settings_says coeffs ns s : dos_settings coeffs ns = Some s ->
  ns "filename" = Some (VStr (d_file s)) /\ says_asr ns (d_asr s) /\ ns "dipole_parameter" = Some (VFloat (d_param s)) /\ ns "energy_unit" = Some (VStr (d_eunit s)) /\
  ns "length_unit" = Some (VStr (d_lunit s)) /\ ns "ebins" = Some (VInt (d_ebins s)) /\ says_plot ns (d_plot s) /\
  (forall sp n, ns "weighting" = Some (VStr (a_weighting (d_args s sp n))) /\ ns "pdos" = Some (maybe words (a_pdos (d_args s sp n)))) /\
  forall b n, d_ebins s = Z.of_nat n -> says coeffs ns b (d_args s (d_spacing s * b) n).
Proof.
  intros S. unfold dos_settings in S. parts S. assert (X : s = ltac:(match type of S with Some ?t = _ => exact t end)) by congruence. clear S. rewrite X. clear X s.
  cbn [d_file d_asr d_param d_eunit d_lunit d_ebins d_plot d_args d_spacing a_weighting a_pdos].
  split; [put|]. split.
  { match goal with Ra : read ns _ "asr" = Some ?x, K : asr_of ?x = Some _ |- _ => pose proof (read_back _ _ ns "asr" x (b_opt _ _ b_str) Ra) as Y; unfold asr_of in K; destruct x as [w|]; cbn [maybe] in Y end.
    - destruct (String.eqb_spec w "reciprocal") as [->|_]; [right; left; split; [exact Y|congruence]|]. destruct (String.eqb_spec w "realspace") as [->|_]; [right; right; split; [exact Y|congruence]|discriminate].
    - left. split; [exact Y|congruence]. }
  split; [put|]. split; [put|]. split; [put|]. split; [put|]. split; [apply plot_says; assumption|]. split; [intros; split; put|].
  intros bohr1 n En. unfold says. cbn [a_weighting a_pdos a_grid a_spacing a_adaptive a_method a_error a_ascale a_inst a_eb a_shape a_ebins a_emin a_emax a_scale].
  split; [put|]. split; [put|]. split; [put|]. split; [eexists; split; [put|reflexivity]|]. split; [put|]. split; [put|]. split.
  { match goal with Rm : read ns as_str "adaptive_method" = Some ?m, K : method_of _ ?m _ ?fit = Some _, Rf : read ns as_str "adaptive_fit" = Some ?fi, Kf : fit_of ?fi = Some ?fit |- _ =>
      pose proof (read_back _ _ ns _ m b_str Rm) as Y; unfold method_of in K; pose proof (read_back _ _ ns _ fi b_str Rf) as Yf; unfold fit_of in Kf;
      destruct (String.eqb_spec m "reference") as [->|_]; [left; split; [exact Y|congruence]|]; destruct (String.eqb_spec m "fast") as [->|_]; [|discriminate];
      right; split; [exact Y|]; exists fit; split; [congruence|]; destruct (String.eqb_spec fi "cubic") as [->|_]; [left; split; [exact Yf|congruence]|];
      destruct (String.eqb_spec fi "cheby-log") as [->|_]; [right; split; [exact Yf|congruence]|discriminate] end. }
  split; [put|]. split; [put|]. split; [put|]. split.
  { match goal with Rs : read ns _ "shape" = Some ?x |- _ => pose proof (read_back _ _ ns _ x (b_opt _ _ b_str) Rs) as Y; destruct x; [left; exact Y|right; split; [exact Y|reflexivity]] end. }
  split; [rewrite <- En; put|]. split; [put|]. split; put.
Qed.
Section Goes.
Variables (int_of : string -> option Z) (float_of : string -> option R).
Context {E : Type}. Variable load : string -> bool -> res (source * sources) E.
Variables (hartree bohr : string -> option R) (room : string -> R) (pretty : string -> string).
Variables (erfc : R -> R) (reigh : real_eigh) (ceigh : complex_eigh) (argsort : list R -> list nat) (chunk : nat) (coeffs : R -> list R) (junk : nat -> nat -> nat -> R) (wmin : R).
Variables (inch : string -> option R) (sheets : string -> option sheet) (rc : string -> value).
Notation tool_args := (M_parser.tool_args int_of float_of M_parser.Dos).
Notation main := (dos_main int_of float_of load hartree bohr room pretty erfc reigh ceigh argsort chunk coeffs junk wmin inch sheets rc).
Lemma only_flag coeffs' ns s : dos_settings coeffs' ns = Some s ->
  (String.eqb (a_weighting (d_args s 0 0%nat)) "dos" && match a_pdos (d_args s 0 0%nat) with None => true | _ => false end)%bool = true <-> ns "weighting" = Some (VStr "dos") /\ ns "pdos" = Some VNone.
Proof.
  intros S. destruct (settings_says _ _ _ S) as (_ & _ & _ & _ & _ & _ & _ & W & _). destruct (W 0 0%nat) as [W1 W2]. rewrite W1, W2. rewrite andb_true_iff, String.eqb_eq. split.
  - intros [-> H]. split; [reflexivity|]. destruct (a_pdos _); [discriminate|reflexivity].
  - intros [H1 H2]. split; [congruence|]. destruct (a_pdos _); [discriminate H2|reflexivity].
Qed.
Lemma main_forces line ns file u k lu b nb param asr x src : tool_args line = Ok ns ->
  ns "filename" = Some (VStr file) -> (forall only : bool, (only = true <-> ns "weighting" = Some (VStr "dos") /\ ns "pdos" = Some VNone) -> load file only = Ok (ForceFile x, src)) ->
  ns "energy_unit" = Some (VStr u) -> hartree u = Some k -> ns "length_unit" = Some (VStr lu) -> bohr lu = Some b ->
  ns "ebins" = Some (VInt (Z.of_nat nb)) -> ns "dipole_parameter" = Some (VFloat param) -> says_asr ns asr ->
  exists a p, says coeffs ns b a /\ says_plot ns p /\
  main line = match dos_from_fc erfc reigh ceigh argsort chunk coeffs junk k wmin (room u) src a asr param x with
              | Err e => Err (RunErr e) | Ok r => Ok (r, finish inch sheets rc Dos p (pretty u) "") end.
Proof.
  intros T Nf Hl Nu Hu Nl Hb Nb Np Na. destruct (settings_read int_of float_of coeffs line ns T) as [s S]. destruct (settings_says _ _ _ S) as (S1 & S2 & S3 & S4 & S5 & S6 & S7 & _ & S9).
  assert (Ef : d_file s = file) by congruence. assert (Eu : d_eunit s = u) by congruence. assert (El : d_lunit s = lu) by congruence. assert (Eb : d_ebins s = Z.of_nat nb) by congruence. assert (Ep : d_param s = param) by congruence.
  assert (Ea : d_asr s = asr) by (destruct S2 as [[X ->]|[[X ->]|[X ->]]]; destruct Na as [[Y ->]|[[Y ->]|[Y ->]]]; congruence).
  exists (d_args s (d_spacing s * b) nb), (d_plot s). split; [exact (S9 b nb Eb)|]. split; [exact S7|].
  unfold dos_main. rewrite T, S. unfold dos_data. rewrite Ef, (Hl _ (only_flag _ _ _ S)), Eu, Hu, Eb, El, Hb, Ea, Ep. destruct (Z.ltb_spec (Z.of_nat nb) 0); [lia|]. rewrite Nat2Z.id. cbv zeta.
  destruct (dos_from_fc _ _ _ _ _ _ _ _ _ _ _ _ _ _ _); reflexivity.
Qed.
Lemma main_modes line ns file u k nb x src : tool_args line = Ok ns ->
  ns "filename" = Some (VStr file) -> (forall only : bool, (only = true <-> ns "weighting" = Some (VStr "dos") /\ ns "pdos" = Some VNone) -> load file only = Ok (ModesFile x, src)) ->
  ns "energy_unit" = Some (VStr u) -> hartree u = Some k -> ns "ebins" = Some (VInt (Z.of_nat nb)) ->
  exists b a p, says coeffs ns b a /\ says_plot ns p /\
  main line = match dos_tool coeffs k wmin (room u) src a x with
              | Err e => Err (RunErr (ToolErr e)) | Ok r => Ok (r, finish inch sheets rc Dos p (pretty u) "") end.
Proof.
  intros T Nf Hl Nu Hu Nb. destruct (settings_read int_of float_of coeffs line ns T) as [s S]. destruct (settings_says _ _ _ S) as (S1 & S2 & S3 & S4 & S5 & S6 & S7 & _ & S9).
  assert (Ef : d_file s = file) by congruence. assert (Eu : d_eunit s = u) by congruence. assert (Eb : d_ebins s = Z.of_nat nb) by congruence.
  exists 0, (d_args s (d_spacing s * 0) nb), (d_plot s). split; [exact (S9 0 nb Eb)|]. split; [exact S7|].
  unfold dos_main. rewrite T, S. unfold dos_data. rewrite Ef, (Hl _ (only_flag _ _ _ S)), Eu, Hu, Eb. destruct (Z.ltb_spec (Z.of_nat nb) 0); [lia|]. rewrite Nat2Z.id. cbv zeta.
  rewrite Rmult_0_r. destruct (dos_tool _ _ _ _ _ _ _); reflexivity.
Qed.
(** Errors before the calculation *)
Lemma main_refused line e : tool_args line = Err e -> main line = Err (LineErr e).
Proof. intros T. unfold dos_main. rewrite T. reflexivity. Qed.
Lemma main_not_loaded line ns file e : tool_args line = Ok ns -> ns "filename" = Some (VStr file) ->
  (forall only : bool, (only = true <-> ns "weighting" = Some (VStr "dos") /\ ns "pdos" = Some VNone) -> load file only = Err e) -> main line = Err (LoadErr e).
Proof.
  intros T Nf Hl. destruct (settings_read int_of float_of coeffs line ns T) as [s S]. destruct (settings_says _ _ _ S) as (S1 & _). assert (Ef : d_file s = file) by congruence.
  unfold dos_main. rewrite T, S. unfold dos_data. rewrite Ef, (Hl _ (only_flag _ _ _ S)). reflexivity.
Qed.
End Goes.
