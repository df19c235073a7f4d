(** C97: the command lines of the tools. *)
From Coq Require Import String Permutation.
From Verif Require Import Base M_parser S_parser S_manual L_parser L_parser2 L_parser3 L_manual.
Open Scope string_scope.

(** Every tool has a parser, and a line made of options with the words they want, with the file
    name anywhere among them (not behind an option that would take it as well), is read as it says:
    every option given has the value its words stand for, every other its default. *)
Theorem C97_meaning : forall int_of float_of (t : tool), exists l, get_parser t = Ok (true, l) /\
  forall before file after bvs avs,
  Forall2 (stands_for int_of float_of l) before bvs -> Forall2 (stands_for int_of float_of l) after avs -> word l file ->
  (forall b u, before = (b ++ [u])%list -> forall o, In o l -> In (u_name u) (o_names o) -> has_enough o (u_words u)) -> compatible (bvs ++ avs) ->
  exists ns, tool_args int_of float_of t (written before ++ file :: written after) = Ok ns /\ settings l file (bvs ++ avs) ns.
Proof. intros. exists (options_of t). split; [apply parser_ok|]. intros before file after bvs avs. exact (tool_good int_of float_of t _ before file after bvs avs (parser_ok t)). Qed.
Print Assumptions C97_meaning.

(** Nothing is ignored: an accepted line is made of such uses and one file name and of nothing else,
    and its settings are those. *)
Theorem C97_nothing_ignored : forall int_of float_of (t : tool) l line ns, get_parser t = Ok (true, l) -> tool_args int_of float_of t line = Ok ns ->
  exists before bvs after avs file, line = (written before ++ file :: written after)%list /\
  Forall2 (stands_for int_of float_of l) before bvs /\ Forall2 (stands_for int_of float_of l) after avs /\ word l file /\
  (forall b u, before = (b ++ [u])%list -> forall o, In o l -> In (u_name u) (o_names o) -> has_enough o (u_words u)) /\
  compatible (bvs ++ avs) /\ settings l file (bvs ++ avs) ns.
Proof. exact tool_inv. Qed.
Print Assumptions C97_nothing_ignored.

Theorem C97_unknown_option : forall int_of float_of (t : tool) l line s, get_parser t = Ok (true, l) -> In s line -> ~ In s (flat_map o_names l) -> ~ ordinary s ->
  exists e, tool_args int_of float_of t line = Err e.
Proof. exact tool_unknown. Qed.
Print Assumptions C97_unknown_option.

(** Options that exclude each other (--use-c and --disable-c, --grid and --grid-spacing,
    --npts and --npts-density) are refused together, wherever they stand. *)
Theorem C97_exclusive : forall int_of float_of (t : tool) l line o o' s s' g, get_parser t = Ok (true, l) ->
  In o l -> In o' l -> In s (o_names o) -> In s' (o_names o') -> o_group o = Some g -> o_group o' = Some g -> o <> o' -> In s line -> In s' line ->
  exists e, tool_args int_of float_of t line = Err e.
Proof. exact tool_exclusive. Qed.
Print Assumptions C97_exclusive.

(** The order of the options, and on which side of the file name they stand, does not matter. *)
Theorem C97_order : forall int_of float_of (t : tool) l before file after before' after' ovs, get_parser t = Ok (true, l) ->
  Forall2 (stands_for int_of float_of l) (before ++ after) ovs -> word l file -> compatible ovs -> NoDup (map (fun ov => o_dest (fst ov)) ovs) ->
  Permutation (before ++ after) (before' ++ after') ->
  (forall b u, before = (b ++ [u])%list -> forall o, In o l -> In (u_name u) (o_names o) -> has_enough o (u_words u)) ->
  (forall b u, before' = (b ++ [u])%list -> forall o, In o l -> In (u_name u) (o_names o) -> has_enough o (u_words u)) ->
  exists ns ns', tool_args int_of float_of t (written before ++ file :: written after) = Ok ns /\
    tool_args int_of float_of t (written before' ++ file :: written after') = Ok ns' /\ forall d, ns d = ns' d.
Proof. exact tool_order. Qed.
Print Assumptions C97_order.

(** Every setting a tool reads exists after any accepted line; the two tools that pass all
    settings on as keyword arguments have exactly the arguments of the function called. *)
Theorem C97_needed : forall int_of float_of (t : tool) line ns, tool_args int_of float_of t line = Ok ns ->
  (forall d, In d (needed t) -> ns d <> None) /\ (t = OptimiseDipole \/ t = CheckBrille -> forall d, ns d <> None -> In d (needed t)).
Proof. intros int_of float_of t line ns H. split; [exact (tool_needs int_of float_of t line ns H)|]. intros T d. exact (proj1 (tool_exact int_of float_of t line ns T H d)). Qed.
Print Assumptions C97_needed.

(** Every tool keeps to its manual: after any accepted line each setting is of its kind (a number, one
    of the choices, three whole numbers ...), is its default if none of its options was given, and
    there are no other settings.  The options of the manual are the options of the tool. *)
Theorem C97_manual : forall int_of float_of (t : tool) line ns, tool_args int_of float_of t line = Ok ns ->
  (forall r, In r (manual t) -> exists x, ns (r_setting r) = Some x /\ is_of x (r_kind r) /\ ((forall s, In s (r_names r) -> ~ In s line) -> x = r_default r)) /\
  forall d, ns d <> None -> d = "filename" \/ In d (map r_setting (manual t)).
Proof. intros int_of float_of t line ns H. split; [intros r; exact (tool_manual int_of float_of t line ns r H)|intros d; exact (tool_manual_all int_of float_of t line ns d H)]. Qed.
Print Assumptions C97_manual.
Theorem C97_manual_options : forall (t : tool) l r s, get_parser t = Ok (true, l) -> In r (manual t) ->
  In s (r_names r) <-> exists o, In o l /\ o_count o <> Help /\ In s (o_names o) /\ o_dest o = r_setting r.
Proof. exact manual_names. Qed.
Print Assumptions C97_manual_options.
Theorem C97_exclusions : forall int_of float_of (t : tool) line s s', In (s, s') exclusions -> In s line -> In s' line -> exists e, tool_args int_of float_of t line = Err e.
Proof. exact tool_exclusions. Qed.
Print Assumptions C97_exclusions.

(** Not so: "options may stand before the file name". Behind an option with an optional word or any
    number of words the file name is taken for that option, and the line is refused. *)
Theorem C97_file_swallowed_refuted : forall int_of float_of (t : tool) l o s ws, get_parser t = Ok (true, l) -> In o l -> In s (o_names o) -> Forall (word l) ws ->
  (o_count o = Any \/ o_count o = AtLeastOne \/ ((exists c, o_count o = Maybe c) /\ (length ws <= 1)%nat)) ->
  exists e, tool_args int_of float_of t (s :: ws) = Err e.
Proof. exact tool_swallows. Qed.
Print Assumptions C97_file_swallowed_refuted.

(** Not so: "the broadening shape is one of the choices". A bare --shape is accepted and is no shape. *)
Theorem C97_bare_shape_refuted : forall int_of float_of (t : tool) l f, In t [Dos; IntensityMap; PowderMap; CheckBrille] -> get_parser t = Ok (true, l) -> word l f ->
  exists ns, tool_args int_of float_of t [f; "--shape"] = Ok ns /\ ns "shape" = Some VNone.
Proof. exact tool_bare_shape. Qed.
Print Assumptions C97_bare_shape_refuted.

(** Sets of features: which ones make a parser. *)
Theorem C97_features : forall fs, (exists p, cli_parser fs false = Ok p) <->
  ~ (In "read-modes" fs /\ ~ In "read-fc" fs) /\ ~ (In "powder" fs /\ In "dipole-parameter-optimisation" fs).
Proof. exact features_iff. Qed.
Print Assumptions C97_features.

(** Not so: "a set of features without meaning is refused": unknown features, and adaptive
    broadening without energy bins, are ignored. *)
Theorem C97_features_refuted : forall fs resolve,
  (forall s, ~ In s ["read-fc"; "read-modes"; "pdos-weighting"; "ins-weighting"; "mp-grid"; "q-e"; "scaling"; "powder"; "plotting"; "map"; "ebins"; "adaptive-broadening"; "btol"; "brille"; "dipole-parameter-optimisation"] ->
   cli_parser (s :: fs) resolve = cli_parser fs resolve) /\
  (~ In "ebins" fs -> cli_parser ("adaptive-broadening" :: fs) resolve = cli_parser fs resolve).
Proof. intros fs resolve. split; [intros s; exact (unknown_feature s fs resolve)|exact (adaptive_feature fs resolve)]. Qed.
Print Assumptions C97_features_refuted.

(** A case: euphonic-dos --adaptive --weighting coherent-dos quartz.castep_bin --grid 5 5 5 --pdos Si O *)
Definition ints (s : string) : option Z := if String.eqb s "5" then Some 5%Z else None.
Definition floats (s : string) : option R := None.
Definition line_before := [mkU "--adaptive" []; mkU "--weighting" ["coherent-dos"]].
Definition line_after := [mkU "--grid" ["5"; "5"; "5"]; mkU "--pdos" ["Si"; "O"]].
Definition weights := choice ["--weighting"; "-w"] "weighting" "dos" ["dos"; "coherent-dos"; "incoherent-dos"; "coherent-plus-incoherent-dos"].
Definition grids := exclusive 1 (several ["--grid"] "grid" (Fixed 3) TInt VNone).
Definition kinds := several ["--pdos"] "pdos" Any TStr VNone.
Ltac in_options := unfold options_of; match goal with |- In _ match ?g with _ => _ end => let r := eval vm_compute in g in change g with r end; cbn [In];
  repeat (first [left; reflexivity | right]).
Example C97_case : exists l bvs avs, get_parser Dos = Ok (true, l) /\ Forall2 (stands_for ints floats l) line_before bvs /\ Forall2 (stands_for ints floats l) line_after avs /\
  word l "quartz.castep_bin" /\ (forall b u, line_before = (b ++ [u])%list -> forall o, In o l -> In (u_name u) (o_names o) -> has_enough o (u_words u)) /\ compatible (bvs ++ avs) /\
  NoDup (map (fun ov => o_dest (fst ov)) (bvs ++ avs)).
Proof.
  exists (options_of Dos), [(switch ["--adaptive"] "adaptive", VBool true); (weights, VStr "coherent-dos")], [(grids, VList [VInt 5; VInt 5; VInt 5]); (kinds, VList [VStr "Si"; VStr "O"])].
  assert (W : forall s, mem s (flat_map o_names (options_of Dos)) = false -> option_like s = false -> word (options_of Dos) s) by (intros s A B; split; [apply mem_false; exact A|apply like_spec; exact B]).
  assert (R : forall o s v, reads ints floats o s v -> match o_choices o with Some c => mem s c = true | None => True end -> reads_as ints floats o s v).
  { intros o s v A B. split; [exact A|]. destruct (o_choices o); [apply mem_In; exact B|exact I]. }
  assert (Iw : In weights (options_of Dos)) by in_options.
  split; [apply parser_ok|]. split; [|split; [|split; [|split; [|split]]]].
  - constructor; [|constructor; [|constructor]]; (split; [in_options|]).
    + split; [left; reflexivity|]. split; [constructor|]. apply m_flag. reflexivity.
    + split; [left; reflexivity|]. split; [constructor; [apply W; vm_compute; reflexivity|constructor]|]. apply m_one; [reflexivity|]. apply R; [constructor; reflexivity|vm_compute; reflexivity].
  - constructor; [|constructor; [|constructor]]; (split; [in_options|]).
    + split; [left; reflexivity|]. split; [repeat (constructor; [apply W; vm_compute; reflexivity|]); constructor|]. apply m_fixed; [reflexivity|].
      repeat (constructor; [apply R; [constructor; reflexivity|exact I]|]). constructor.
    + split; [left; reflexivity|]. split; [repeat (constructor; [apply W; vm_compute; reflexivity|]); constructor|]. apply m_any; [reflexivity|].
      repeat (constructor; [apply R; [constructor; reflexivity|exact I]|]). constructor.
  - apply W; vm_compute; reflexivity.
  - intros b u E o Io Io'. assert (u = mkU "--weighting" ["coherent-dos"]) by (apply (app_inj_tail [mkU "--adaptive" []] b _ u) in E; symmetry; exact (proj2 E)). subst u.
    rewrite (name_unique (options_of Dos) o weights "--weighting" (proj1 (tool_sound Dos)) Io Iw Io' (or_introl eq_refl)). exact I.
  - intros o v o' v' g [E|[E|[E|[E|[]]]]] [E'|[E'|[E'|[E'|[]]]]] G G'; injection E as <- <-; injection E' as <- <-; try reflexivity; discriminate.
  - repeat constructor; cbn; intuition discriminate.
Qed.
Example C97_case_runs : exists ns, tool_args ints floats Dos (written line_before ++ "quartz.castep_bin" :: written line_after) = Ok ns /\
  ns "grid" = Some (VList [VInt 5; VInt 5; VInt 5]) /\ ns "pdos" = Some (VList [VStr "Si"; VStr "O"]) /\ ns "adaptive" = Some (VBool true) /\ ns "weighting" = Some (VStr "coherent-dos") /\
  ns "shape" = Some (VStr "gauss") /\ ns "asr" = Some VNone.
Proof. eexists. split; [vm_compute; reflexivity|]. repeat split. Qed.
Example C97_exclusive_case : exists o o', In o (options_of Dos) /\ In o' (options_of Dos) /\ In "--grid" (o_names o) /\ In "--grid-spacing" (o_names o') /\ o_group o = Some 1%nat /\ o_group o' = Some 1%nat /\ o <> o'.
Proof.
  exists grids, (exclusive 1 (plain ["--grid-spacing"] "grid_spacing" TFloat (VFloat (1 / 10)))). split; [in_options|]. split; [in_options|].
  split; [left; reflexivity|]. split; [left; reflexivity|]. split; [reflexivity|]. split; [reflexivity|discriminate].
Qed.
Example C97_file_swallowed_case : forall t, exists o, In o (options_of t) /\ In "--asr" (o_names o) /\ exists c, o_count o = Maybe c.
Proof.
  intros t. exists (mkOpt ["--asr"] "asr" (Maybe (VStr "reciprocal")) TStr VNone (Some ["reciprocal"; "realspace"]) None).
  split; [destruct t; in_options|]. split; [left; reflexivity|]. eexists. reflexivity.
Qed.
Example C97_file_case : forall t, word (options_of t) "quartz.castep_bin".
Proof. intros t. split; [apply mem_false; destruct t; vm_compute; reflexivity|apply like_spec; reflexivity]. Qed.
(** -0.5 and -3 are words, -x and --x are not. *)
Example C97_words_case : ordinary "-0.5" /\ ordinary "-3" /\ ordinary "-" /\ ~ ordinary "-x" /\ ~ ordinary "--x" /\ ~ ordinary "-1e3".
Proof. repeat split; first [apply like_spec; reflexivity | apply like_true; reflexivity]. Qed.
