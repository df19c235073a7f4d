(** Property C95: what the options for style, labels and output do to a figure. *)
From Coq Require Import String.
From Verif Require Import Base M_style S_style L_style.
Open Scope R_scope.

(** C95.  Whatever style sheets and options are combined, a figure is drawn with the options
    given; for the settings these are not about, the last of the user's style sheets that
    mentions a setting decides it, then the tool's own sheets unless --no-base-style, and then
    what was in force before. *)
Theorem C95_settings : forall inch a sheets rc t xunit yunit l, tables sheets -> known sheets (tool_sheets t a) l ->
  (a_figsize a <> None -> inch (a_unit a) <> None) ->
  exists rc' ev labels out, finish inch sheets rc t a xunit yunit = (ev ++ [Drawn rc' labels; out], None) /\
    (forall p v, asked inch a p v -> rc' p = v) /\
    (forall p, (forall v, ~ asked inch a p v) -> (forall v, decides l p v -> rc' p = v) /\ (silent l p -> rc' p = rc p)).
Proof. exact settings. Qed.
Print Assumptions C95_settings.

Example C95_settings_case : tables own_sheets /\ (exists l, known own_sheets (tool_sheets PowderMap (mkA false (Some ["base.mplstyle"%string]) None None (Some "Arial"%string) None (Some (1, 2)) "cm" "" None None None None false)) l) /\
  asked (fun _ => Some 2) (mkA false None None None (Some "Arial"%string) None (Some (1, 2)) "cm" "" None None None None false) "figure.figsize" (VNums [1 * 2; 2 * 2]).
Proof. split; [exact own_tables|]. split; [eexists; repeat (apply Forall2_cons; [reflexivity|]); constructor|]. apply ask_figsize; reflexivity. Qed.

(** C95.  One figure comes out, with these labels, in the file named or else on the screen; data
    are saved before it.  A unit for the figure size that is no length (looked at only with a
    figure size) and an unknown style end the tool without a figure; the data are then saved
    already, except by euphonic-dispersion when it is the unit that is wrong. *)
Theorem C95_outputs : forall inch a sheets rc t xunit yunit,
  let fits := a_figsize a <> None -> inch (a_unit a) <> None in
  (fits -> (exists l, known sheets (tool_sheets t a) l) ->
     exists rc', finish inch sheets rc t a xunit yunit = (save_json a ++ [Drawn rc' (figure_labels t a xunit yunit);
       match a_save_to a with Some f => Saved f | None => Shown end], None)) /\
  (~ fits -> finish inch sheets rc t a xunit yunit = (match t with Dispersion => [] | _ => save_json a end, Some BadUnit)) /\
  (fits -> (exists n, In n (tool_sheets t a) /\ sheets n = None) ->
     exists n, In n (tool_sheets t a) /\ sheets n = None /\ finish inch sheets rc t a xunit yunit = (save_json a, Some (UnknownStyle n))).
Proof. exact outputs. Qed.
Print Assumptions C95_outputs.

(** These are all the cases there are; the data are saved if and only if a name is given. *)
Theorem C95_cases : forall (inch : string -> option R) (sheets : string -> option sheet) t a,
  let fits := a_figsize a <> None -> inch (a_unit a) <> None in
  (~ fits \/ fits /\ ((exists l, known sheets (tool_sheets t a) l) \/ exists n, In n (tool_sheets t a) /\ sheets n = None)) /\
  (forall f, In (Json f) (save_json a) <-> a_save_json a = Some f /\ f <> ""%string).
Proof.
  intros inch sheets t a fits. split; [|exact (json_events a)].
  destruct (fits_dec inch a) as [F|F]; [right; split; [exact F|apply known_or]|left; exact F].
Qed.
Print Assumptions C95_cases.

(** C95 refuted: an option of value zero, or empty, is as if it had not been given. *)
Theorem C95_zero_refuted : forall inch sheets rc t a xunit yunit,
  finish inch sheets rc t (with_linewidth a (Some 0)) xunit yunit = finish inch sheets rc t (with_linewidth a None) xunit yunit /\
  finish inch sheets rc t (with_fontsize a (Some 0)) xunit yunit = finish inch sheets rc t (with_fontsize a None) xunit yunit /\
  finish inch sheets rc t (with_save_json a (Some ""%string)) xunit yunit = finish inch sheets rc t (with_save_json a None) xunit yunit.
Proof. exact nothing_asked. Qed.
Print Assumptions C95_zero_refuted.

(** So lines asked to have no width are drawn one point wide. *)
Example C95_zero_case : forall inch, exists rc' labels, finish inch own_sheets mpl_rc Dos (with_linewidth plain (Some 0)) "meV" "1/meV" = ([Drawn rc' labels; Shown], None) /\
  rc' "lines.linewidth"%string = VNum 1.
Proof. exact zero_width. Qed.

(** C95.  Composing styles changes the list of base styles passed in: it is then the list
    returned. *)
Theorem C95_base_grows : forall inch a b, a_no_base a = false ->
  exists u, fst (compose_style inch a (Some b)) = Some (b ++ u) /\
    forall l, snd (compose_style inch a (Some b)) = Ok l -> l = b ++ u.
Proof. exact base_grows. Qed.
Print Assumptions C95_base_grows.

(** C95 refuted for callers that keep their list (the tools make a new one each time): options of
    one figure stay in force for the next. *)
Theorem C95_same_list_refuted : forall inch,
  let b := [Named "base.mplstyle"] in
  let b' := fst (compose_style inch (with_linewidth plain (Some 3)) (Some b)) in
  exists l l' rc1 rc2, snd (compose_style inch plain (Some b)) = Ok l /\ snd (compose_style inch plain b') = Ok l' /\
    context own_sheets mpl_rc l = Ok rc1 /\ context own_sheets mpl_rc l' = Ok rc2 /\
    rc1 "lines.linewidth"%string = VNum 1 /\ rc2 "lines.linewidth"%string = VNum 3.
Proof. exact options_stay. Qed.
Print Assumptions C95_same_list_refuted.
