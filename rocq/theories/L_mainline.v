(** Reading the settings of any tool from an accepted line (C101, C102). *)
From Coq Require Import String Permutation FunctionalExtensionality.
From Verif Require Import Base M_calc M_style M_dosmain S_dosmain.
From Verif Require M_parser S_parser S_manual L_parser3 L_manual L_dosmain.
Import M_parser (val(..), namespace).
Import L_dosmain (readable, r_str, r_one, r_num, r_int, r_bool, r_opt, r_some, r_any, r_pair, r_triple, all_read, back, b_str, b_num, b_int, b_bool, b_opt, b_list, b_pair, b_triple, read_back, read_of).
Open Scope R_scope.
Open Scope string_scope.
Import S_manual.

Section Line.
Variables (int_of : string -> option Z) (float_of : string -> option R) (t : M_parser.tool).
Notation tool_args := (M_parser.tool_args int_of float_of t).
Lemma find_row d k : existsb (fun r => String.eqb (r_setting r) d) (manual t) = true ->
  (forall r, In r (manual t) -> r_setting r = d -> r_kind r = k) -> forall line ns, tool_args line = Ok ns -> exists v, ns d = Some v /\ is_of v k.
Proof.
  intros X K line ns H. apply existsb_exists in X. destruct X as (r & I & E). apply String.eqb_eq in E.
  destruct (L_manual.tool_manual int_of float_of t line ns r H I) as (x & Ex & Ox & _). exists x. rewrite <- E, <- (K r I E). split; assumption.
Qed.
Lemma read_setting {A} (f : val -> option A) d k line ns : readable f k -> tool_args line = Ok ns -> existsb (fun r => String.eqb (r_setting r) d) (manual t) = true ->
  (forall r, In r (manual t) -> r_setting r = d -> r_kind r = k) -> exists x, read ns f d = Some x.
Proof. intros Rf H X K. destruct (find_row d k X K line ns H) as (v & E & I). unfold read. rewrite E. exact (Rf v I). Qed.
Lemma file_read line ns : tool_args line = Ok ns -> exists f, ns "filename" = Some (VStr f).
Proof. intros H. destruct (L_parser3.tool_inv int_of float_of t _ line ns (L_parser3.parser_ok _) H) as (? & ? & ? & ? & file & _ & _ & _ & _ & _ & _ & (E & _)). exists file. exact E. Qed.
Lemma row_default line ns r : tool_args line = Ok ns -> In r (manual t) -> (forall s, In s (r_names r) -> ~ In s line) -> ns (r_setting r) = Some (r_default r).
Proof. intros T I N. destruct (L_manual.tool_manual int_of float_of t line ns r T I) as (x & Ex & _ & Dx). rewrite Ex, (Dx N). reflexivity. Qed.
Lemma asr_kinds line ns : existsb (fun r => String.eqb (r_setting r) "asr") (manual t) = true ->
  (forall r, In r (manual t) -> r_setting r = "asr" -> r_kind r = Optional (OneOf ["reciprocal"; "realspace"])) ->
  tool_args line = Ok ns -> exists s x, read ns (as_opt as_str) "asr" = Some s /\ asr_of s = Some x.
Proof.
  intros X K H. destruct (find_row "asr" _ X K line ns H) as (v & E & [-> | (s & -> & I)]).
  - unfold read. rewrite E. exists None, None. split; reflexivity.
  - unfold read. rewrite E. exists (Some s). cbn in I. destruct I as [<-|[<-|[]]]; eexists; split; reflexivity.
Qed.
(** A line with nothing but the file *)
Lemma bare_settings file ns : tool_args [file] = Ok ns -> ns "filename" = Some (VStr file) /\ (forall r, In r (manual t) -> ns (r_setting r) = Some (r_default r)) /\
  forall o, In o (flat_map M_parser.o_names (L_parser3.options_of t)) -> ~ In o [file].
Proof.
  intros T. destruct (L_parser3.tool_inv int_of float_of t _ [file] ns (L_parser3.parser_ok _) T) as (bef & bvs & after & avs & f & El & _ & _ & W & _ & _ & (Ef & _)).
  destruct bef as [|u bef]; [|exfalso; apply (f_equal (@List.length string)) in El; rewrite app_length in El; cbn in El; lia].
  cbn in El. assert (file = f) by congruence. subst f. split; [exact Ef|]. destruct W as [W _]. split.
  - intros r Ir. apply (row_default [file] ns r T Ir).
    intros s Is [<-|[]]. apply W. apply in_flat_map. destruct (proj1 (L_manual.manual_names t _ r file (L_parser3.parser_ok _) Ir) Is) as (o & Io & _ & Jo & _). exists o. split; assumption.
  - intros o Io [<-|[]]. apply W. exact Io.
Qed.
(** The order of the options *)
Lemma same_settings {A} (f : res namespace M_parser.perr -> A) l bef file after bef' after' ovs : M_parser.get_parser t = Ok (true, l) ->
  Forall2 (S_parser.stands_for int_of float_of l) (bef ++ after) ovs -> S_parser.word l file -> S_parser.compatible ovs -> NoDup (map (fun ov => M_parser.o_dest (fst ov)) ovs) ->
  Permutation (bef ++ after) (bef' ++ after') ->
  (forall b u, bef = (b ++ [u])%list -> forall o, In o l -> In (S_parser.u_name u) (M_parser.o_names o) -> S_parser.has_enough o (S_parser.u_words u)) ->
  (forall b u, bef' = (b ++ [u])%list -> forall o, In o l -> In (S_parser.u_name u) (M_parser.o_names o) -> S_parser.has_enough o (S_parser.u_words u)) ->
  f (tool_args (S_parser.written bef ++ file :: S_parser.written after)) = f (tool_args (S_parser.written bef' ++ file :: S_parser.written after')).
Proof.
  intros P F W C Nd Pm B B'. destruct (L_parser3.tool_order int_of float_of t l bef file after bef' after' ovs P F W C Nd Pm B B') as (ns & ns' & T & T' & X).
  assert (ns = ns') by (apply functional_extensionality; exact X). subst ns'. rewrite T, T'. reflexivity.
Qed.
End Line.
Ltac one_kind := let r := fresh "r" in let I := fresh "I" in let E := fresh "E" in intros r I E; cbn in I;
  repeat (destruct I as [<-|I]; [solve [reflexivity | discriminate E]|]); destruct I.
Ltac setting t H f d k Rf := let x := fresh "x" in let E := fresh "E" in
  destruct (read_setting _ _ t f d k _ _ Rf H eq_refl ltac:(one_kind)) as [x E]; rewrite E; clear E.
Ltac parts H := repeat match type of H with match ?x with Some _ => _ | None => None end = Some _ => let E := fresh "Rd" in destruct x eqn:E; [|discriminate H] end.
Lemma r_1 {A} (f : val -> option A) k : readable f k -> forall v, is_of v (Exactly 1 k) -> exists x, (match as_list f v with Some [x] => Some x | _ => None end) = Some x.
Proof. intros H v (l & -> & L & F). destruct (all_read f k l H F) as (r & E & Lr). unfold as_list. rewrite E. destruct r as [|a [|? ?]]; cbn in Lr; try lia. eexists. reflexivity. Qed.
Ltac put := match goal with Rr : read ?ns ?f ?d = Some ?x |- ?ns ?d = Some _ => refine (read_back f _ ns d x _ Rr);
  solve [exact b_str | exact b_num | exact b_int | exact b_bool | exact (b_opt _ _ b_str) | exact (b_opt _ _ b_num) | exact (b_opt _ _ (b_list _ _ b_str)) | exact (b_opt _ _ (b_list _ _ b_num))
        | exact (b_opt _ _ (b_pair _ _ b_num)) | exact (b_opt _ _ (b_triple _ _ b_int))] end.
Ltac in_manual := cbn; repeat (first [left; reflexivity | right]).
Ltac row_of T N nm d k v := apply (row_default _ _ _ _ _ (mkRow nm d k v) T); [in_manual|cbn; intros ? ?; apply N; cbn; tauto].
Lemma asr_says ns x k : read ns (as_opt as_str) "asr" = Some x -> asr_of x = Some k -> says_asr ns k.
Proof.
  intros Ra K. pose proof (read_back _ _ ns "asr" x (b_opt _ _ b_str) Ra) as Y. unfold asr_of in K. destruct x as [w|]; cbn [maybe] in Y.
  - destruct (String.eqb_spec w "reciprocal") as [->|_]; [right; left; split; [exact Y|congruence]|]. destruct (String.eqb_spec w "realspace") as [->|_]; [right; right; split; [exact Y|congruence]|discriminate].
  - left. split; [exact Y|congruence].
Qed.
Lemma asr_one ns k k' : says_asr ns k -> says_asr ns k' -> k = k'.
Proof. intros [[X ->]|[[X ->]|[X ->]]] [[Y ->]|[[Y ->]|[Y ->]]]; congruence. Qed.
