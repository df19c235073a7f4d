(** Lemmas for property C95: what is in force when a tool draws. *)
From Coq Require Import String.
From Verif Require Import Base M_style S_style.
Open Scope R_scope.

Lemma assoc_none : forall p d, assoc p d = None -> ~ mentions d p.
Proof.
  intros p d H (v & I). unfold assoc in H. destruct (find (fun e => String.eqb (fst e) p) d) as [[k w]|] eqn:E; [discriminate|].
  pose proof (find_none _ _ E _ I) as F. cbn in F. rewrite String.eqb_refl in F. discriminate.
Qed.
Lemma assoc_some : forall p d v, assoc p d = Some v -> In (p, v) d.
Proof.
  intros p d v H. unfold assoc in H. destruct (find (fun e => String.eqb (fst e) p) d) as [[k w]|] eqn:E; [|discriminate].
  destruct (find_some _ _ E) as (I & Q). cbn in Q. apply String.eqb_eq in Q. injection H as <-. rewrite <- Q. exact I.
Qed.
Lemma fun_of : forall (d : sheet) p v w, NoDup (map fst d) -> In (p, v) d -> In (p, w) d -> v = w.
Proof.
  induction d as [|[k x] d IH]; intros p v w N A B; [contradiction|]. cbn in N. inversion N as [|? ? Nk Nd]; subst.
  destruct A as [A|A]; destruct B as [B|B].
  - congruence.
  - injection A as <- <-. exfalso. apply Nk. apply in_map_iff. exists (k, w). split; [reflexivity|exact B].
  - injection B as <- <-. exfalso. apply Nk. apply in_map_iff. exists (k, v). split; [reflexivity|exact A].
  - exact (IH _ _ _ Nd A B).
Qed.
Lemma assoc_in : forall p d v, NoDup (map fst d) -> In (p, v) d -> assoc p d = Some v.
Proof.
  intros p d v N I. destruct (assoc p d) as [w|] eqn:E.
  - apply assoc_some in E. f_equal. exact (fun_of d p w v N E I).
  - exfalso. apply (assoc_none _ _ E). exists v. exact I.
Qed.
Lemma update_in : forall rc p d v, NoDup (map fst d) -> In (p, v) d -> update rc d p = v.
Proof. intros. unfold update. rewrite (assoc_in p d v); auto. Qed.
Lemma update_out : forall rc p d, ~ mentions d p -> update rc d p = rc p.
Proof. intros rc p d H. unfold update. destruct (assoc p d) as [v|] eqn:E; [|reflexivity]. exfalso. apply H. exists v. exact (assoc_some _ _ _ E). Qed.
Lemma mentions_dec : forall d p, mentions d p \/ ~ mentions d p.
Proof. intros d p. destruct (assoc p d) as [v|] eqn:E; [left; exists v; exact (assoc_some _ _ _ E)|right; exact (assoc_none _ _ E)]. Qed.

(** Sheets one after another *)
Definition all_sheets (rc : string -> value) (l : list sheet) : string -> value := fold_left update l rc.
Lemma all_silent : forall l rc p, silent l p -> all_sheets rc l p = rc p.
Proof.
  induction l as [|d l IH]; intros rc p H; [reflexivity|]. unfold all_sheets in *. cbn. rewrite IH.
  - apply update_out. apply H. left. reflexivity.
  - intros d' I. apply H. right. exact I.
Qed.
Lemma all_decides : forall l rc p v, (forall d, In d l -> NoDup (map fst d)) -> decides l p v -> all_sheets rc l p = v.
Proof.
  intros l rc p v N (l1 & d & l2 & -> & I & F). unfold all_sheets. rewrite fold_left_app. cbn.
  change (all_sheets (update (fold_left update l1 rc) d) l2 p = v). rewrite all_silent; [|exact F].
  apply update_in; [|exact I]. apply N. apply in_or_app. right. left. reflexivity.
Qed.
Lemma context_app : forall sheets rc l names r, known sheets names l -> context sheets rc (map Named names ++ r) = context sheets (all_sheets rc l) r.
Proof.
  intros sheets rc l names r K. revert rc. induction K as [|n d names l E K IH]; intros rc; [reflexivity|]. cbn. rewrite E. apply IH.
Qed.
Lemma context_unknown : forall sheets rc names r, (exists n, In n names /\ sheets n = None) -> exists n, In n names /\ sheets n = None /\ context sheets rc (map Named names ++ r) = Err (UnknownStyle n).
Proof.
  intros sheets rc names r. revert rc. induction names as [|m names IH]; intros rc (n & I & E); [contradiction|]. cbn.
  destruct (sheets m) as [d|] eqn:Em.
  - destruct I as [I|I]; [congruence|]. destruct (IH (update rc d) (ex_intro _ n (conj I E))) as (k & Ik & Ek & C). exists k. auto.
  - exists m. auto.
Qed.
Lemma known_or : forall sheets names, (exists l, known sheets names l) \/ exists n, In n names /\ sheets n = None.
Proof.
  intros sheets names. induction names as [|n names [(l & K)|(m & I & E)]].
  - left. exists []. constructor.
  - destruct (sheets n) as [d|] eqn:En; [left; exists (d :: l); constructor; auto|right; exists n; split; [left; reflexivity|exact En]].
  - right. exists m. split; [right; exact I|exact E].
Qed.
Lemma known_nodup : forall sheets names l, tables sheets -> known sheets names l -> forall d, In d l -> NoDup (map fst d).
Proof. intros sheets names l T K. induction K as [|n d names l E K IH]; intros d' I; [contradiction|]. destruct I as [<-|I]; [exact (T _ _ E)|exact (IH _ I)]. Qed.

Section One.
Variables (inch : string -> option R) (a : pargs).
Lemma str_opt_some : forall o v, str_opt o = Some v -> exists s, o = Some s /\ s <> ""%string /\ v = VStr s.
Proof. intros [s|] v H; [|discriminate]. cbn in H. destruct (String.eqb s "") eqn:E; [discriminate|]. exists s. apply String.eqb_neq in E. split; [reflexivity|]. split; [exact E|congruence]. Qed.
Lemma str_opt_in : forall s, s <> ""%string -> str_opt (Some s) = Some (VStr s).
Proof. intros s H. cbn. apply String.eqb_neq in H. rewrite H. reflexivity. Qed.
Lemma num_opt_some : forall o v, num_opt o = Some v -> exists x, o = Some x /\ x <> 0 /\ v = VNum x.
Proof. intros [x|] v H; [|discriminate]. cbn in H. destruct (Reqb_spec x 0); [discriminate|]. exists x. split; [reflexivity|]. split; [assumption|congruence]. Qed.
Lemma num_opt_in : forall x, x <> 0 -> num_opt (Some x) = Some (VNum x).
Proof. intros x H. cbn. destruct (Reqb_spec x 0); [contradiction|reflexivity]. Qed.

Definition fits : Prop := a_figsize a <> None -> inch (a_unit a) <> None.
Lemma explicit_ok : fits -> exists d, explicit_args inch a = Ok d.
Proof.
  intros F. unfold explicit_args. cbv zeta. destruct (a_figsize a) as [[w h]|] eqn:E; [|eexists; reflexivity].
  destruct (inch (a_unit a)) as [k|] eqn:K; [eexists; reflexivity|]. exfalso. unfold fits in F. rewrite E, K in F. apply F; [discriminate|reflexivity].
Qed.
Lemma explicit_bad : ~ fits -> explicit_args inch a = Err BadUnit.
Proof.
  intros F. unfold explicit_args, fits in *. cbv zeta. destruct (a_figsize a) as [[w h]|] eqn:E; [|exfalso; apply F; intro X; congruence].
  destruct (inch (a_unit a)) as [k|] eqn:K; [|reflexivity]. exfalso. apply F. intros _. congruence.
Qed.
Lemma fits_dec : fits \/ ~ fits.
Proof.
  unfold fits. destruct (a_figsize a) as [[w h]|]; [|left; intro X; congruence]. destruct (inch (a_unit a)); [left; intros _; discriminate|].
  right. intros X. apply X; [discriminate|reflexivity].
Qed.
Lemma explicit_spec : forall d, explicit_args inch a = Ok d -> NoDup (map fst d) /\ forall p v, In (p, v) d <-> asked inch a p v.
Proof.
  intros d H. unfold explicit_args in H. cbv zeta in H.
  destruct (str_opt (a_cmap a)) as [v1|] eqn:E1; destruct (num_opt (a_fontsize a)) as [v2|] eqn:E2; destruct (str_opt (a_font a)) as [v3|] eqn:E3;
    destruct (num_opt (a_linewidth a)) as [v4|] eqn:E4; cbn [put app] in H;
    (destruct (a_figsize a) as [[w h]|] eqn:E5; [destruct (inch (a_unit a)) as [k|] eqn:E6; [|discriminate]|]); injection H as <-;
    (split; [cbn; repeat constructor; cbn; intuition discriminate|]); intros p v; cbn [In app]; split.
  all: try (intros I; repeat (destruct I as [I|I]); try contradiction; injection I as <- <-;
    try (destruct (str_opt_some _ _ E1) as (s1 & Q1 & N1 & ->)); try (destruct (num_opt_some _ _ E2) as (x2 & Q2 & N2 & ->));
    try (destruct (str_opt_some _ _ E3) as (s3 & Q3 & N3 & ->)); try (destruct (num_opt_some _ _ E4) as (x4 & Q4 & N4 & ->));
    solve [econstructor; eassumption]).
  all: intros A; destruct A as [s Q N|x Q N|s Q N|s Q N|x Q N|w' h' k' Q K];
    try (rewrite Q in E1; rewrite (str_opt_in s N) in E1); try (rewrite Q in E2; rewrite (num_opt_in x N) in E2);
    try (rewrite Q in E3; rewrite (str_opt_in s N) in E3); try (rewrite Q in E4; rewrite (num_opt_in x N) in E4); try discriminate;
    try (rewrite Q in E5; injection E5 as -> ->; rewrite K in E6; injection E6 as ->); try congruence;
    try (injection E1 as <-); try (injection E2 as <-); try (injection E3 as <-); try (injection E4 as <-);
    repeat (first [left; reflexivity|right]); try congruence; auto 10.
Qed.

Lemma compose_list : forall t, snd (compose_style inch a (Some (base_styles t a))) =
  match explicit_args inch a with Err e => Err e | Ok d => Ok (map Named (tool_sheets t a) ++ [Dict d]) end.
Proof.
  intros t. unfold compose_style, tool_sheets. cbv zeta. destruct (explicit_args inch a) as [d|e]; [|reflexivity]. cbn [snd].
  destruct (a_no_base a); destruct (a_style a) as [u|]; destruct t; unfold base_styles; cbn; try (destruct (a_no_widgets a)); cbn; rewrite ?app_nil_r, ?map_app; reflexivity.
Qed.

Variables (sheets : string -> option sheet) (rc : string -> value) (t : tool) (xu yu : string).
Lemma settings : forall l, tables sheets -> known sheets (tool_sheets t a) l -> fits ->
  exists rc' ev labels out, finish inch sheets rc t a xu yu = (ev ++ [Drawn rc' labels; out], None) /\
    (forall p v, asked inch a p v -> rc' p = v) /\
    (forall p, (forall v, ~ asked inch a p v) -> (forall v, decides l p v -> rc' p = v) /\ (silent l p -> rc' p = rc p)).
Proof.
  intros l T K F. destruct (explicit_ok F) as (d & D). destruct (explicit_spec d D) as (N & S).
  unfold finish. rewrite compose_list, D. cbv zeta. rewrite (context_app sheets rc l _ _ K). cbn [context].
  exists (update (all_sheets rc l) d), (save_json a). do 2 eexists. split; [reflexivity|]. split.
  - intros p v A. apply update_in; [exact N|]. apply S. exact A.
  - intros p A. assert (M : ~ mentions d p) by (intros (v & I); apply (A v), S; exact I). rewrite (update_out _ _ _ M). split.
    + intros v V. apply all_decides; [exact (known_nodup _ _ _ T K)|exact V].
    + intros V. apply all_silent. exact V.
Qed.

Lemma json_events : forall f, In (Json f) (save_json a) <-> a_save_json a = Some f /\ f <> ""%string.
Proof.
  intros f. unfold save_json. destruct (a_save_json a) as [g|]; [|split; [contradiction|intros [X _]; discriminate]].
  destruct (String.eqb g "") eqn:E.
  - apply String.eqb_eq in E. split; [contradiction|]. intros [X Y]. congruence.
  - apply String.eqb_neq in E. split.
    + intros [X|[]]. injection X as <-. auto.
    + intros [X _]. left. congruence.
Qed.
Lemma outputs :
  (fits -> (exists l, known sheets (tool_sheets t a) l) ->
     exists rc', finish inch sheets rc t a xu yu = (save_json a ++ [Drawn rc' (figure_labels t a xu yu);
       match a_save_to a with Some f => Saved f | None => Shown end], None)) /\
  (~ fits -> finish inch sheets rc t a xu yu = (match t with Dispersion => [] | _ => save_json a end, Some BadUnit)) /\
  (fits -> (exists n, In n (tool_sheets t a) /\ sheets n = None) ->
     exists n, In n (tool_sheets t a) /\ sheets n = None /\ finish inch sheets rc t a xu yu = (save_json a, Some (UnknownStyle n))).
Proof.
  split; [|split].
  - intros F (l & K). destruct (explicit_ok F) as (d & D). unfold finish. rewrite compose_list, D. cbv zeta. rewrite (context_app sheets rc l _ _ K). cbn [context].
    eexists. replace (figure_labels t a xu yu) with (plot_labels a (fst (default_labels t xu yu)) (snd (default_labels t xu yu))); [reflexivity|].
    unfold figure_labels, plot_labels, label. destruct t, (a_xlabel a), (a_ylabel a); reflexivity.
  - intros F. unfold finish. rewrite compose_list, (explicit_bad F). reflexivity.
  - intros F E. destruct (explicit_ok F) as (d & D). unfold finish. rewrite compose_list, D. cbv zeta.
    destruct (context_unknown sheets rc (tool_sheets t a) [Dict d] E) as (n & I & En & C). exists n. rewrite C. auto.
Qed.
End One.

(** An option of no weight *)
Definition with_linewidth (a : pargs) (o : option R) : pargs :=
  mkA (a_no_base a) (a_style a) (a_cmap a) (a_fontsize a) (a_font a) o (a_figsize a) (a_unit a) (a_title a) (a_xlabel a) (a_ylabel a) (a_save_json a) (a_save_to a) (a_no_widgets a).
Definition with_fontsize (a : pargs) (o : option R) : pargs :=
  mkA (a_no_base a) (a_style a) (a_cmap a) o (a_font a) (a_linewidth a) (a_figsize a) (a_unit a) (a_title a) (a_xlabel a) (a_ylabel a) (a_save_json a) (a_save_to a) (a_no_widgets a).
Definition with_save_json (a : pargs) (o : option string) : pargs :=
  mkA (a_no_base a) (a_style a) (a_cmap a) (a_fontsize a) (a_font a) (a_linewidth a) (a_figsize a) (a_unit a) (a_title a) (a_xlabel a) (a_ylabel a) o (a_save_to a) (a_no_widgets a).
Lemma nothing_asked : forall inch sheets rc t a xu yu,
  finish inch sheets rc t (with_linewidth a (Some 0)) xu yu = finish inch sheets rc t (with_linewidth a None) xu yu /\
  finish inch sheets rc t (with_fontsize a (Some 0)) xu yu = finish inch sheets rc t (with_fontsize a None) xu yu /\
  finish inch sheets rc t (with_save_json a (Some ""%string)) xu yu = finish inch sheets rc t (with_save_json a None) xu yu.
Proof.
  assert (Z : num_opt (Some 0) = num_opt None) by (cbn; destruct (Reqb_spec 0 0); [reflexivity|contradiction]).
  intros. split; [|split]; unfold finish, compose_style, explicit_args; cbn [with_linewidth with_fontsize with_save_json a_no_base a_style a_cmap a_fontsize a_font a_linewidth a_figsize a_unit]; rewrite ?Z; reflexivity.
Qed.

(** Plain options, and the sheets of the package (the settings of interest) *)
Definition plain : pargs := mkA false None None None None None None "cm" "" None None None None true.
Definition own_sheets (n : string) : option sheet :=
  if String.eqb n "base.mplstyle" then Some [("lines.linewidth"%string, VNum 1); ("image.cmap"%string, VStr "viridis"); ("figure.autolayout"%string, VStr "True")]
  else if String.eqb n "intensity_widget.mplstyle" then Some [("figure.autolayout"%string, VStr "False"); ("figure.subplot.bottom"%string, VNum (/ 4))]
  else None.
Definition mpl_rc (p : string) : value := if String.eqb p "lines.linewidth" then VNum (3 / 2) else VStr "".
Lemma own_tables : tables own_sheets.
Proof.
  intros n d H. unfold own_sheets in H. destruct (String.eqb n "base.mplstyle"); [injection H as <-|destruct (String.eqb n "intensity_widget.mplstyle"); [injection H as <-|discriminate]];
    cbn; repeat constructor; cbn; intuition discriminate.
Qed.
Lemma zero_width : forall inch, exists rc' labels, finish inch own_sheets mpl_rc Dos (with_linewidth plain (Some 0)) "meV" "1/meV" = ([Drawn rc' labels; Shown], None) /\
  rc' "lines.linewidth"%string = VNum 1.
Proof.
  intros. rewrite (proj1 (nothing_asked inch own_sheets mpl_rc Dos plain "meV"%string "1/meV"%string)). do 2 eexists. split; [reflexivity|]. reflexivity.
Qed.

(** The caller's list *)
Lemma base_grows : forall inch a b, a_no_base a = false ->
  exists u, fst (compose_style inch a (Some b)) = Some (b ++ u) /\
    forall l, snd (compose_style inch a (Some b)) = Ok l -> l = b ++ u.
Proof.
  intros inch a b H. unfold compose_style. rewrite H. cbn [orb]. cbv zeta. destruct (explicit_args inch a) as [d|e]; cbn [fst snd]; destruct (a_style a) as [u|].
  - exists (map Named u ++ [Dict d]). rewrite <- app_assoc. split; [reflexivity|]. intros l E. injection E as <-. reflexivity.
  - exists [Dict d]. split; [reflexivity|]. intros l E. injection E as <-. reflexivity.
  - exists (map Named u). split; [reflexivity|]. intros l E. discriminate.
  - exists []. rewrite app_nil_r. split; [reflexivity|]. intros l E. discriminate.
Qed.
Lemma options_stay : forall inch,
  let b := [Named "base.mplstyle"] in
  let b' := fst (compose_style inch (with_linewidth plain (Some 3)) (Some b)) in
  exists l l' rc1 rc2, snd (compose_style inch plain (Some b)) = Ok l /\ snd (compose_style inch plain b') = Ok l' /\
    context own_sheets mpl_rc l = Ok rc1 /\ context own_sheets mpl_rc l' = Ok rc2 /\
    rc1 "lines.linewidth"%string = VNum 1 /\ rc2 "lines.linewidth"%string = VNum 3.
Proof.
  intros inch. cbv zeta.
  assert (E : explicit_args inch (with_linewidth plain (Some 3)) = Ok [("lines.linewidth"%string, VNum 3)]).
  { unfold explicit_args. cbn [with_linewidth a_linewidth plain]. rewrite (num_opt_in 3); [reflexivity|lra]. }
  assert (B : fst (compose_style inch (with_linewidth plain (Some 3)) (Some [Named "base.mplstyle"])) = Some [Named "base.mplstyle"; Dict [("lines.linewidth"%string, VNum 3)]]).
  { unfold compose_style. rewrite E. reflexivity. }
  rewrite B. do 4 eexists. split; [reflexivity|]. split; [reflexivity|]. split; [reflexivity|]. split; [reflexivity|]. split; reflexivity.
Qed.
