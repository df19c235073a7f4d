(** C97: the tools keep to their manual. *)
From Coq Require Import String.
From Verif Require Import Base M_parser S_parser S_manual L_parser L_parser2 L_parser3.
Open Scope string_scope.

Fixpoint same_strings (a b : list string) : bool :=
  match a, b with [], [] => true | x :: a, y :: b => (String.eqb x y && same_strings a b)%bool | _, _ => false end.
Lemma same_strings_eq a b : same_strings a b = true -> a = b.
Proof. revert b. induction a as [|x a IH]; intros [|y b]; cbn; try discriminate; [reflexivity|]. rewrite andb_true_iff. intros [A B]. apply String.eqb_eq in A. rewrite A, (IH b B). reflexivity. Qed.
Fixpoint fits (v : val) (k : kind) : bool :=
  match k with
  | Text => match v with VStr _ => true | _ => false end
  | Whole => match v with VInt _ => true | _ => false end
  | Number => match v with VFloat _ => true | _ => false end
  | YesNo => match v with VBool _ => true | _ => false end
  | OneOf l => match v with VStr s => mem s l | _ => false end
  | Optional k => match v with VNone => true | _ => fits v k end
  | Exactly n k => match v with VList l => (Nat.eqb (length l) n && forallb (fun x => fits x k) l)%bool | _ => false end
  | OneOrMore k => match v with VList l => (match l with [] => false | _ => true end && forallb (fun x => fits x k) l)%bool | _ => false end
  | AnyNumber k => match v with VList l => forallb (fun x => fits x k) l | _ => false end
  end.
Lemma fits_is k : forall v, fits v k = true -> is_of v k.
Proof.
  induction k as [| | | |l|k IH|n k IH|k IH|k IH]; intros v; cbn [fits is_of].
  1-4: destruct v; try discriminate; eexists; reflexivity.
  - destruct v; try discriminate. intros H. eexists. split; [reflexivity|]. apply mem_In. exact H.
  - destruct v; try (left; reflexivity); intros H; right; apply IH; exact H.
  - destruct v as [| | | | |l]; try discriminate. rewrite andb_true_iff, forallb_forall. intros [A B]. exists l. split; [reflexivity|]. split; [apply Nat.eqb_eq; exact A|]. apply Forall_forall. intros x I. apply IH. exact (B x I).
  - destruct v as [| | | | |l]; try discriminate. rewrite andb_true_iff, forallb_forall. intros [A B]. exists l. split; [reflexivity|]. split; [intros ->; discriminate|]. apply Forall_forall. intros x I. apply IH. exact (B x I).
  - destruct v as [| | | | |l]; try discriminate. rewrite forallb_forall. intros B. exists l. split; [reflexivity|]. apply Forall_forall. intros x I. apply IH. exact (B x I).
Qed.
Definition word_fits (o : opt) (k : kind) : bool :=
  match k, o_typ o, o_choices o with
  | Text, TStr, None => true
  | Whole, TInt, None => true
  | Number, TFloat, None => true
  | OneOf l, TStr, Some c => same_strings l c
  | _, _, _ => false
  end.
Definition produces1 (o : opt) (k : kind) : bool :=
  match o_count o, k with
  | One, _ => word_fits o k
  | Maybe (VStr _), _ => word_fits o k
  | Fixed n, Exactly m k => (Nat.eqb n m && word_fits o k)%bool
  | Any, AnyNumber k => word_fits o k
  | AtLeastOne, OneOrMore k => word_fits o k
  | Flag _, YesNo => true
  | _, _ => false
  end.
Definition produces (o : opt) (k : kind) : bool :=
  match k with
  | Optional k => match o_count o with Maybe VNone => word_fits o k | _ => produces1 o k end
  | _ => produces1 o k
  end.
Section Words.
Variables (int_of : string -> option Z) (float_of : string -> option R).
Lemma word_is o k s v : word_fits o k = true -> reads_as int_of float_of o s v -> is_of v k.
Proof.
  unfold word_fits. intros H [Rd C]. destruct k; try discriminate; destruct (o_typ o) eqn:T; try discriminate; destruct (o_choices o) as [c|] eqn:Ch; try discriminate;
  inversion Rd; subst; try congruence; cbn [is_of]; try (eexists; reflexivity). exists s. split; [reflexivity|]. apply same_strings_eq in H. subst. exact C.
Qed.
Lemma words_are o k ws vs : word_fits o k = true -> Forall2 (reads_as int_of float_of o) ws vs -> Forall (fun x => is_of x k) vs.
Proof. intros H F. induction F; constructor; [eapply word_is; eassumption|assumption]. Qed.
Lemma F2_len {A B} (P : A -> B -> Prop) a b : Forall2 P a b -> length a = length b.
Proof. induction 1; cbn; congruence. Qed.
Lemma produces1_is o k ws v : produces1 o k = true -> means int_of float_of o ws v -> is_of v k.
Proof.
  unfold produces1. intros H M. destruct M as [b E|w v E Rd|ws vs E F|c w v E Rd|s v E Rd|c E N|ws vs E F|ws vs E N F]; rewrite E in H.
  - destruct k; try discriminate. exists b. reflexivity.
  - eapply word_is; eassumption.
  - destruct k; try discriminate. apply andb_true_iff in H. destruct H as [A B]. apply Nat.eqb_eq in A. exists vs. split; [reflexivity|]. split; [rewrite <- (F2_len _ _ _ F); exact A|]. eapply words_are; eassumption.
  - destruct c; try discriminate. eapply word_is; eassumption.
  - eapply word_is; eassumption.
  - destruct c; try discriminate. exfalso. exact (N _ eq_refl).
  - destruct k; try discriminate. exists vs. split; [reflexivity|]. eapply words_are; eassumption.
  - destruct k; try discriminate. exists vs. split; [reflexivity|]. split; [intros ->; inversion F; subst; exact (N eq_refl)|]. eapply words_are; eassumption.
Qed.
Lemma produces_is o k ws v : produces o k = true -> means int_of float_of o ws v -> is_of v k.
Proof.
  unfold produces. destruct k; try exact (produces1_is o _ ws v). intros H M. cbn [is_of].
  destruct (o_count o) as [| |c| | | |] eqn:E; try (right; exact (produces1_is o k ws v H M)). destruct c; try (right; exact (produces1_is o k ws v H M)).
  destruct M as [b E'|w v E' Rd|ws vs E' F|c w v E' Rd|s v E' Rd|c E' N|ws vs E' F|ws vs E' N F]; try congruence.
  - right. eapply word_is; eassumption.
  - left. congruence.
Qed.

Definition row_ok (l : list opt) (r : row) : bool :=
  (fits (r_default r) (r_kind r) && forallb (fun o => (is_help o || negb (String.eqb (o_dest o) (r_setting r)) || (produces o (r_kind r) && forallb (fun s => mem s (r_names r)) (o_names o)))%bool) l &&
   forallb (fun s => existsb (fun o => (negb (is_help o) && String.eqb (o_dest o) (r_setting r) && mem s (o_names o))%bool) l) (r_names r))%bool.
Definition default_of (l : list opt) (d : string) : option val := option_map o_default (find (fun o => (negb (is_help o) && String.eqb (o_dest o) d)%bool) l).
Lemma manual_ok t : forallb (row_ok (options_of t)) (manual t) = true.
Proof. destruct t; vm_compute; reflexivity. Qed.
Lemma manual_defaults t : map (fun r => default_of (options_of t) (r_setting r)) (manual t) = map (fun r => Some (r_default r)) (manual t).
Proof. destruct t; vm_compute; reflexivity. Qed.
Lemma manual_all t : forallb (fun d => mem d ("filename" :: map r_setting (manual t))) (dests (options_of t)) = true.
Proof. destruct t; vm_compute; reflexivity. Qed.
Lemma map_both {A B} (f g : A -> B) l x : map f l = map g l -> In x l -> f x = g x.
Proof. induction l as [|a l IH]; [intros _ []|]. intros E [<-|I]; cbn in E; [congruence|]. apply IH; [congruence|exact I]. Qed.
Lemma not_help o : is_help o = false -> o_count o <> Help.
Proof. unfold is_help. intros H E. rewrite E in H. discriminate. Qed.

Lemma tool_manual t line ns r : tool_args int_of float_of t line = Ok ns -> In r (manual t) ->
  exists x, ns (r_setting r) = Some x /\ is_of x (r_kind r) /\ ((forall s, In s (r_names r) -> ~ In s line) -> x = r_default r).
Proof.
  intros H Ir. pose proof (manual_ok t) as K. rewrite forallb_forall in K. specialize (K r Ir). unfold row_ok in K. apply andb_true_iff in K. destruct K as [K _]. apply andb_true_iff in K. destruct K as [Kd Ko].
  pose proof (map_both _ _ _ r (manual_defaults t) Ir) as D. cbv beta in D. unfold default_of in D. destruct (find _ (options_of t)) as [o|] eqn:Fo; [|discriminate]. cbn [option_map] in D.
  apply find_some in Fo. destruct Fo as [Io Fo]. apply andb_true_iff in Fo. destruct Fo as [Nh Eo]. apply String.eqb_eq in Eo. apply negb_true_iff in Nh.
  destruct (tool_inv int_of float_of t _ line ns (parser_ok t) H) as (before & bvs & after & avs & file & El & F1 & F2 & _ & _ & _ & (_ & B & C & _)).
  assert (Fw : Forall2 (stands_for int_of float_of (options_of t)) (before ++ after) (bvs ++ avs)) by (apply Forall2_app; assumption).
  destruct (given_or_not (bvs ++ avs) (r_setting r)) as [X|X].
  - destruct (last_split _ _ X) as (pre & a & w & post & E1 & E2 & E3). exists w. split; [rewrite <- E2; apply (B pre a w post E1); intros ov Iv; rewrite E2; exact (E3 ov Iv)|].
    assert (U : exists u, In u (before ++ after) /\ stands_for int_of float_of (options_of t) u (a, w)).
    { assert (I : In (a, w) (bvs ++ avs)) by (rewrite E1; apply in_or_app; right; left; reflexivity). clear - Fw I. induction Fw as [|u ov us ovs Su F IH]; [destruct I|].
      destruct I as [->|I]; [exists u; split; [left; reflexivity|exact Su]|]. destruct (IH I) as (u' & Iu & Su'). exists u'. split; [right; exact Iu|exact Su']. }
    destruct U as (u & Iu & (Ia & Na & _ & Me)). cbn [fst snd] in *. rewrite forallb_forall in Ko. specialize (Ko a Ia).
    assert (Ha : is_help a = false) by (unfold is_help; destruct (o_count a) eqn:Ca; try reflexivity; inversion Me; congruence).
    rewrite Ha in Ko. apply String.eqb_eq in E2. rewrite E2 in Ko. cbn [orb negb] in Ko. apply andb_true_iff in Ko. destruct Ko as [Kp Kn]. split; [exact (produces_is a _ _ w Kp Me)|].
    intros Z. exfalso. rewrite forallb_forall in Kn. apply (Z (u_name u)); [apply mem_In; exact (Kn _ Na)|].
    assert (Iw : In (u_name u) (written (before ++ after))) by (unfold written; apply in_flat_map; exists u; split; [exact Iu|left; reflexivity]).
    rewrite El. unfold written in *. rewrite flat_map_app in Iw. apply in_app_or in Iw. apply in_or_app. destruct Iw as [Iw|Iw]; [left; exact Iw|right; right; exact Iw].
  - exists (r_default r). split; [rewrite <- Eo; rewrite (C o Io (not_help o Nh)); [exact D|rewrite Eo; exact X]|]. split; [apply fits_is; exact Kd|reflexivity].
Qed.
Lemma tool_manual_all t line ns d : tool_args int_of float_of t line = Ok ns -> ns d <> None -> d = "filename" \/ In d (map r_setting (manual t)).
Proof.
  intros H X. apply (tool_dests int_of float_of t line ns H) in X. pose proof (incl_strings _ _ (manual_all t) d X) as [<-|I]; [left; reflexivity|right; exact I].
Qed.
Lemma tool_exclusions t line s s' : In (s, s') exclusions -> In s line -> In s' line -> exists e, tool_args int_of float_of t line = Err e.
Proof.
  intros P I I'. destruct (in_dec string_dec s (flat_map o_names (options_of t))) as [M|M];
    [|apply (tool_unknown int_of float_of t _ line s (parser_ok t) I M); revert s s' P I I' M; assert (Z : forallb (fun p => (option_like (fst p) && option_like (snd p))%bool) exclusions = true) by (vm_compute; reflexivity);
      rewrite forallb_forall in Z; intros s s' P _ _ _; specialize (Z _ P); apply andb_true_iff in Z; exact (proj1 (like_true _) (proj1 Z))].
  destruct (in_dec string_dec s' (flat_map o_names (options_of t))) as [M'|M'];
    [|apply (tool_unknown int_of float_of t _ line s' (parser_ok t) I' M'); assert (Z : forallb (fun p => (option_like (fst p) && option_like (snd p))%bool) exclusions = true) by (vm_compute; reflexivity);
      rewrite forallb_forall in Z; specialize (Z _ P); apply andb_true_iff in Z; exact (proj1 (like_true _) (proj2 Z))].
  assert (Q : forallb (fun p => negb (mem (fst p) (flat_map o_names (options_of t))) || negb (mem (snd p) (flat_map o_names (options_of t))) ||
      existsb (fun o => existsb (fun o' => mem (fst p) (o_names o) && mem (snd p) (o_names o') && negb (mem (fst p) (o_names o')) && same_group o o') (options_of t)) (options_of t))%bool exclusions = true) by (destruct t; vm_compute; reflexivity).
  rewrite forallb_forall in Q. specialize (Q _ P). cbn [fst snd] in Q. apply mem_In in M, M'. rewrite M, M' in Q. cbn [negb orb] in Q.
  apply existsb_exists in Q. destruct Q as (o & Io & Q). apply existsb_exists in Q. destruct Q as (o' & Io' & Q). rewrite !andb_true_iff in Q. destruct Q as [[[A B] C] D].
  unfold same_group in D. destruct (o_group o) as [g|] eqn:G; [|discriminate]. destruct (o_group o') as [g'|] eqn:G'; [|discriminate]. apply Nat.eqb_eq in D. subst g'.
  apply (tool_exclusive int_of float_of t _ line o o' s s' g (parser_ok t) Io Io'); try assumption; [apply mem_In; exact A|apply mem_In; exact B|].
  intros ->. rewrite A in C. discriminate.
Qed.
End Words.
Lemma manual_names t l r s : get_parser t = Ok (true, l) -> In r (manual t) -> In s (r_names r) <-> exists o, In o l /\ o_count o <> Help /\ In s (o_names o) /\ o_dest o = r_setting r.
Proof.
  intros P Ir. rewrite parser_ok in P. assert (l = options_of t) by congruence. subst l. pose proof (manual_ok t) as K. rewrite forallb_forall in K. specialize (K r Ir). unfold row_ok in K.
  apply andb_true_iff in K. destruct K as [K Kn]. apply andb_true_iff in K. destruct K as [_ Ko]. rewrite forallb_forall in Ko, Kn. split.
  - intros I. specialize (Kn s I). apply existsb_exists in Kn. destruct Kn as (o & Io & Q). rewrite !andb_true_iff in Q. destruct Q as [[A B] C]. exists o. split; [exact Io|].
    split; [apply not_help; destruct (is_help o); [discriminate|reflexivity]|]. split; [apply mem_In; exact C|apply String.eqb_eq; exact B].
  - intros (o & Io & Nh & Is & D). specialize (Ko o Io). apply String.eqb_eq in D. rewrite D in Ko. assert (Ha : is_help o = false) by (unfold is_help; destruct (o_count o); try reflexivity; contradiction).
    rewrite Ha in Ko. cbn [orb negb] in Ko. apply andb_true_iff in Ko. destruct Ko as [_ Ko]. rewrite forallb_forall in Ko. apply mem_In. exact (Ko s Is).
Qed.
