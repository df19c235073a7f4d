(** C97: the tools' own parsers, sets of features, order of options. *)
From Coq Require Import String Ascii Permutation.
From Verif Require Import Base M_parser S_parser L_parser L_parser2.
Open Scope string_scope.

Fixpoint nodupb (l : list string) : bool := match l with [] => true | s :: t => (negb (mem s t) && nodupb t)%bool end.
Lemma nodupb_spec l : nodupb l = true -> NoDup l.
Proof.
  induction l as [|s t IH]; [constructor|]. cbn. rewrite andb_true_iff. intros [A B]. constructor; [apply mem_false; destruct (mem s t); [discriminate|reflexivity]|exact (IH B)].
Qed.
Definition options_of (t : tool) : list opt := match get_parser t with Ok (_, l) => l | Err _ => [] end.
Lemma parser_ok t : get_parser t = Ok (true, options_of t).
Proof. destruct t; vm_compute; reflexivity. Qed.
Definition is_help (o : opt) : bool := match o_count o with Help => true | _ => false end.
Definition no_default (o : opt) : bool := match o_default o with VNone => true | _ => false end.
Fixpoint one_default (l : list opt) : bool :=
  match l with
  | [] => true
  | o :: t => (forallb (fun o' => (negb (String.eqb (o_dest o) (o_dest o')) || (no_default o && no_default o'))%bool) t && one_default t)%bool
  end.
Lemma one_default_spec l : one_default l = true -> forall o o', In o l -> In o' l -> o_dest o = o_dest o' -> o_default o = o_default o'.
Proof.
  induction l as [|a l IH]; [intros _ ? ? []|]. cbn. rewrite andb_true_iff, forallb_forall. intros [A B].
  assert (K : forall x, In x l -> o_dest a = o_dest x -> o_default a = o_default x).
  { intros x I E. specialize (A x I). apply String.eqb_eq in E. rewrite E in A. cbn in A. unfold no_default in A. destruct (o_default a), (o_default x); try discriminate; reflexivity. }
  intros o o' [<-|I] [<-|I'] E; [reflexivity|exact (K _ I' E)|symmetry; exact (K _ I (eq_sym E))|exact (IH B o o' I I' E)].
Qed.
Lemma tool_sound t : sound (options_of t).
Proof.
  assert (H : (nodupb (flat_map o_names (options_of t)) && forallb (fun o => negb (String.eqb (o_dest o) "filename")) (options_of t) && one_default (options_of t))%bool = true) by (destruct t; vm_compute; reflexivity).
  apply andb_true_iff in H. destruct H as [H H3]. apply andb_true_iff in H. destruct H as [H1 H2]. split; [apply nodupb_spec; exact H1|]. split.
  - intros o I. rewrite forallb_forall in H2. specialize (H2 o I). destruct (String.eqb_spec (o_dest o) "filename"); [discriminate|assumption].
  - intros o o' I I' _ _ E. exact (one_default_spec _ H3 o o' I I' E).
Qed.

Section Tools.
Variables (int_of : string -> option Z) (float_of : string -> option R).
Notation stands_for := (stands_for int_of float_of). Notation tool_args := (tool_args int_of float_of).
Lemma tool_unfold t line : tool_args t line = parse_args int_of float_of (true, options_of t) line.
Proof. unfold M_parser.tool_args. rewrite parser_ok. reflexivity. Qed.
Lemma tool_good t l before file after bvs avs : get_parser t = Ok (true, l) ->
  Forall2 (stands_for l) before bvs -> Forall2 (stands_for l) after avs -> word l file ->
  (forall b u, before = (b ++ [u])%list -> forall o, In o l -> In (u_name u) (o_names o) -> has_enough o (u_words u)) -> compatible (bvs ++ avs) ->
  exists ns, tool_args t (written before ++ file :: written after) = Ok ns /\ settings l file (bvs ++ avs) ns.
Proof.
  intros P. rewrite parser_ok in P. assert (l = options_of t) by congruence. subst l. rewrite tool_unfold. pose proof (tool_sound t) as So.
  intros. apply parse_good; try assumption. exact (proj1 So).
Qed.
Lemma tool_inv t l line ns : get_parser t = Ok (true, l) -> tool_args t line = Ok ns ->
  exists before bvs after avs file, line = (written before ++ file :: written after)%list /\
  Forall2 (stands_for l) before bvs /\ Forall2 (stands_for l) after avs /\ word l file /\
  (forall b u, before = (b ++ [u])%list -> forall o, In o l -> In (u_name u) (o_names o) -> has_enough o (u_words u)) /\
  compatible (bvs ++ avs) /\ settings l file (bvs ++ avs) ns.
Proof.
  intros P. rewrite parser_ok in P. assert (l = options_of t) by congruence. subst l. rewrite tool_unfold. pose proof (tool_sound t) as So. apply parse_inv; [exact (proj1 So)|exact So].
Qed.
Lemma tool_exclusive t l line o o' s s' g : get_parser t = Ok (true, l) -> In o l -> In o' l -> In s (o_names o) -> In s' (o_names o') ->
  o_group o = Some g -> o_group o' = Some g -> o <> o' -> In s line -> In s' line -> exists e, tool_args t line = Err e.
Proof.
  intros P. rewrite parser_ok in P. assert (l = options_of t) by congruence. subst l. rewrite tool_unfold. apply exclusive_refused. apply tool_sound.
Qed.
Lemma tool_unknown t l line s : get_parser t = Ok (true, l) -> In s line -> ~ In s (flat_map o_names l) -> ~ ordinary s -> exists e, tool_args t line = Err e.
Proof.
  intros P. rewrite parser_ok in P. assert (l = options_of t) by congruence. subst l. rewrite tool_unfold. intros I Nn O.
  destruct (parse_args int_of float_of (true, options_of t) line) as [ns|e] eqn:H; [|exists e; reflexivity]. exfalso.
  destruct (line_parts int_of float_of _ _ _ (tool_sound t) H s I) as [A|[_ A]]; [exact (Nn A)|exact (O A)].
Qed.

(** Which settings there are *)
Lemma last_split (ovs : list (opt * val)) d : (exists ov, In ov ovs /\ o_dest (fst ov) = d) ->
  exists pre o v post, ovs = (pre ++ (o, v) :: post)%list /\ o_dest o = d /\ forall ov, In ov post -> o_dest (fst ov) <> d.
Proof.
  induction ovs as [|[o v] ovs IH]; [intros (? & [] & _)|]. intros (ov & I & E).
  destruct (existsb (fun x => String.eqb (o_dest (fst x)) d) ovs) eqn:X.
  - apply existsb_exists in X. destruct X as (x & Ix & Ex). apply String.eqb_eq in Ex. destruct IH as (pre & a & w & post & E1 & E2 & E3); [exists x; split; assumption|].
    exists ((o, v) :: pre), a, w, post. split; [rewrite E1; reflexivity|]. split; assumption.
  - assert (Z : forall x, In x ovs -> o_dest (fst x) <> d).
    { intros x Ix Ex. rewrite <- not_true_iff_false in X. apply X. apply existsb_exists. exists x. split; [exact Ix|apply String.eqb_eq; exact Ex]. }
    destruct I as [<-|I]; [|exfalso; exact (Z _ I E)]. exists [], o, v, ovs. split; [reflexivity|]. split; assumption.
Qed.
Lemma given_or_not (ovs : list (opt * val)) d : (exists ov, In ov ovs /\ o_dest (fst ov) = d) \/ (forall ov, In ov ovs -> o_dest (fst ov) <> d).
Proof.
  destruct (existsb (fun x => String.eqb (o_dest (fst x)) d) ovs) eqn:X.
  - left. apply existsb_exists in X. destruct X as (x & Ix & Ex). apply String.eqb_eq in Ex. exists x. split; assumption.
  - right. intros x Ix Ex. rewrite <- not_true_iff_false in X. apply X. apply existsb_exists. exists x. split; [exact Ix|apply String.eqb_eq; exact Ex].
Qed.
Lemma option_or_not (l : list opt) d : (exists o, In o l /\ o_count o <> Help /\ o_dest o = d) \/ (forall o, In o l -> o_count o <> Help -> o_dest o <> d).
Proof.
  induction l as [|a l IH]; [right; intros ? []|]. destruct IH as [(o & I & H & E)|IH]; [left; exists o; split; [right; exact I|split; assumption]|].
  destruct (is_help a) eqn:Ha; [|destruct (String.eqb_spec (o_dest a) d) as [E|E]].
  - right. intros o [<-|I] Nh; [|exact (IH o I Nh)]. exfalso. apply Nh. unfold is_help in Ha. destruct (o_count a); try discriminate. reflexivity.
  - left. exists a. split; [left; reflexivity|]. split; [|exact E]. intros X. unfold is_help in Ha. rewrite X in Ha. discriminate.
  - right. intros o [<-|I] Nh; [exact E|exact (IH o I Nh)].
Qed.
Lemma settings_domain l file ovs ns d : settings l file ovs ns -> (forall ov, In ov ovs -> In (fst ov) l /\ o_count (fst ov) <> Help) ->
  ns d <> None <-> d = "filename" \/ exists o, In o l /\ o_count o <> Help /\ o_dest o = d.
Proof.
  intros (A & B & C & D) J. split.
  - intros H. destruct (String.eqb_spec d "filename") as [->|Nf]; [left; reflexivity|]. right. destruct (option_or_not l d) as [X|X]; [exact X|]. exfalso. apply H. exact (D d Nf X).
  - intros [->|(o & I & Nh & <-)]; [rewrite A; discriminate|]. destruct (given_or_not ovs (o_dest o)) as [X|X].
    + destruct (last_split _ _ X) as (pre & a & w & post & E1 & E2 & E3). rewrite <- E2. rewrite (B pre a w post E1); [discriminate|]. intros ov Iv. rewrite E2. exact (E3 ov Iv).
    + rewrite (C o I Nh X). discriminate.
Qed.
Lemma stands_in l us ovs : Forall2 (stands_for l) us ovs -> forall ov, In ov ovs -> In (fst ov) l /\ o_count (fst ov) <> Help.
Proof.
  induction 1 as [|u ov us ovs (I & _ & _ & M) F IH]; [intros ? []|]. intros x [<-|X]; [|exact (IH x X)]. split; [exact I|]. intros Y. destruct M; congruence.
Qed.
Definition dests (l : list opt) : list string := "filename" :: map o_dest (filter (fun o => negb (is_help o)) l).
Lemma tool_dests t line ns : tool_args t line = Ok ns -> forall d, ns d <> None <-> In d (dests (options_of t)).
Proof.
  intros H d. destruct (tool_inv t _ line ns (parser_ok t) H) as (before & bvs & after & avs & file & _ & F1 & F2 & _ & _ & _ & St).
  assert (Fw : Forall2 (stands_for (options_of t)) (before ++ after) (bvs ++ avs)) by (apply Forall2_app; assumption).
  rewrite (settings_domain _ _ _ _ d St (stands_in _ _ _ Fw)). unfold dests. cbn [In]. split.
  - intros [->|(o & I & Nh & <-)]; [left; reflexivity|]. right. apply in_map_iff. exists o. split; [reflexivity|]. apply filter_In. split; [exact I|]. unfold is_help. destruct (o_count o); try reflexivity. contradiction.
  - intros [->|I]; [left; reflexivity|]. right. apply in_map_iff in I. destruct I as (o & E & I). apply filter_In in I. destruct I as [I Nh]. exists o. split; [exact I|]. split; [|exact E].
    intros X. unfold is_help in Nh. rewrite X in Nh. discriminate.
Qed.
Lemma incl_strings a b : forallb (fun s => mem s b) a = true -> incl a b.
Proof. intros H s I. rewrite forallb_forall in H. apply mem_In. exact (H s I). Qed.
Lemma tool_needs t line ns : tool_args t line = Ok ns -> forall d, In d (needed t) -> ns d <> None.
Proof.
  intros H d I. apply (tool_dests t line ns H). apply (incl_strings (needed t)); [|exact I]. destruct t; vm_compute; reflexivity.
Qed.
Lemma tool_exact t line ns : (t = OptimiseDipole \/ t = CheckBrille) -> tool_args t line = Ok ns -> forall d, ns d <> None <-> In d (needed t).
Proof.
  intros T H d. split; [|apply (tool_needs t line ns H)]. intros X. apply (tool_dests t line ns H) in X. revert d X. apply incl_strings. destruct T as [-> | ->]; vm_compute; reflexivity.
Qed.

(** The order of the options *)
Lemma settings_perm l file ovs ovs' ns ns' : settings l file ovs ns -> settings l file ovs' ns' -> (forall ov, In ov ovs -> In (fst ov) l /\ o_count (fst ov) <> Help) ->
  Permutation ovs ovs' -> NoDup (map (fun ov => o_dest (fst ov)) ovs) -> (forall o, In o l -> o_dest o <> "filename") -> forall d, ns d = ns' d.
Proof.
  intros (A & B & C & D) (A' & B' & C' & D') J P Nd Sf d.
  assert (L : forall (q : list (opt * val)) pre o v post, NoDup (map (fun ov => o_dest (fst ov)) q) -> q = (pre ++ (o, v) :: post)%list -> forall ov, In ov post -> o_dest (fst ov) <> o_dest o).
  { intros q pre o v post Nq -> ov I E. rewrite map_app in Nq. cbn [map fst] in Nq. apply NoDup_remove_2 in Nq. apply Nq. apply in_or_app. right. apply in_map_iff. exists ov. split; assumption. }
  destruct (String.eqb_spec d "filename") as [->|Nf]; [congruence|]. destruct (given_or_not ovs d) as [X|X].
  - destruct X as ([o v] & I & E). cbn [fst] in E. subst d. destruct (in_split _ _ I) as (p & q & Eo). rewrite (B p o v q Eo (L _ p o v q Nd Eo)).
    assert (I' : In (o, v) ovs') by (eapply Permutation_in; eassumption). destruct (in_split _ _ I') as (p' & q' & Eo').
    assert (Nd' : NoDup (map (fun ov => o_dest (fst ov)) ovs')) by (eapply Permutation_NoDup; [apply Permutation_map; exact P|exact Nd]).
    rewrite (B' p' o v q' Eo' (L _ p' o v q' Nd' Eo')). reflexivity.
  - assert (X' : forall ov, In ov ovs' -> o_dest (fst ov) <> d) by (intros ov I; apply X; eapply Permutation_in; [apply Permutation_sym; exact P|exact I]).
    destruct (option_or_not l d) as [(o & I & Nh & <-)|Y]; [rewrite (C o I Nh X), (C' o I Nh X'); reflexivity|]. rewrite (D d Nf Y), (D' d Nf Y). reflexivity.
Qed.
Lemma tool_order t l before file after before' after' ovs : get_parser t = Ok (true, l) ->
  Forall2 (stands_for l) (before ++ after) ovs -> word l file -> compatible ovs -> NoDup (map (fun ov => o_dest (fst ov)) ovs) -> Permutation (before ++ after) (before' ++ after') ->
  (forall b u, before = (b ++ [u])%list -> forall o, In o l -> In (u_name u) (o_names o) -> has_enough o (u_words u)) ->
  (forall b u, before' = (b ++ [u])%list -> forall o, In o l -> In (u_name u) (o_names o) -> has_enough o (u_words u)) ->
  exists ns ns', tool_args t (written before ++ file :: written after) = Ok ns /\ tool_args t (written before' ++ file :: written after') = Ok ns' /\ forall d, ns d = ns' d.
Proof.
  intros Pt F W Co Nd P E E'. destruct (Permutation_Forall2 P F) as (ovs' & P' & F').
  destruct (Forall2_app_inv_l _ _ F) as (bvs & avs & Fb & Fa & ->). destruct (Forall2_app_inv_l _ _ F') as (bvs' & avs' & Fb' & Fa' & ->).
  assert (Co' : compatible (bvs' ++ avs')).
  { intros o v o' v' g I I' G G'. apply (Co o v o' v' g); try assumption; (eapply Permutation_in; [apply Permutation_sym; exact P'|assumption]). }
  destruct (tool_good t l before file after bvs avs Pt Fb Fa W E Co) as (ns & T & St). destruct (tool_good t l before' file after' bvs' avs' Pt Fb' Fa' W E' Co') as (ns' & T' & St').
  exists ns, ns'. split; [exact T|]. split; [exact T'|]. assert (Sf : forall o, In o l -> o_dest o <> "filename").
  { rewrite parser_ok in Pt. assert (l = options_of t) by congruence. subst l. exact (proj1 (proj2 (tool_sound t))). }
  exact (settings_perm l file _ _ ns ns' St St' (stands_in l _ _ F) P' Nd Sf).
Qed.

End Tools.

(** ** Sets of features *)
Lemma add_ok l new : NoDup (flat_map o_names (l ++ new)) -> add_all false l new = Ok (l ++ new)%list.
Proof.
  revert l. induction new as [|o t IH]; intros l H; cbn [add_all]; [rewrite app_nil_r; reflexivity|]. unfold add_argument.
  destruct (find _ (o_names o)) as [s|] eqn:E.
  - exfalso. apply find_some in E. destruct E as [I M]. apply mem_In in M. rewrite flat_map_app in H. cbn [flat_map] in H.
    revert H M I. generalize (flat_map o_names t). generalize (o_names o). generalize (flat_map o_names l). clear. intros a b c H Ia Ib.
    induction a as [|x a IH]; [destruct Ia|]. cbn in H. inversion H as [|? ? N1 N2]; subst. destruct Ia as [->|Ia]; [|exact (IH N2 Ia)]. apply N1. apply in_or_app. right. apply in_or_app. left. exact Ib.
  - assert (E2 : (l ++ o :: t = (l ++ [o]) ++ t)%list) by (rewrite <- app_assoc; reflexivity). rewrite (IH (l ++ [o])%list); [rewrite E2; reflexivity|]. rewrite <- E2. exact H.
Qed.
Lemma add_inv l new r : add_all false l new = Ok r -> r = (l ++ new)%list /\ forall s, In s (flat_map o_names l) -> ~ In s (flat_map o_names new).
Proof.
  revert l r. induction new as [|o t IH]; intros l r; cbn [add_all].
  - intros H. injection H as <-. rewrite app_nil_r. split; [reflexivity|]. intros s _ [].
  - unfold add_argument. destruct (find _ (o_names o)) as [x|] eqn:E; [discriminate|]. intros H. destruct (IH _ _ H) as [-> Q]. split; [rewrite <- app_assoc; reflexivity|].
    intros s I J. cbn [flat_map] in J. apply in_app_or in J. destruct J as [J|J].
    + pose proof (find_none _ _ E s J) as M. cbn in M. apply mem_false in M. exact (M I).
    + apply (Q s); [|exact J]. rewrite flat_map_app. apply in_or_app. left. exact I.
Qed.
Lemma add_app resolve l a b : add_all resolve l (a ++ b) = match add_all resolve l a with Ok l' => add_all resolve l' b | Err e => Err e end.
Proof. revert l. induction a as [|o t IH]; intros l; cbn [app add_all]; [reflexivity|]. destruct (add_argument resolve l o); [apply IH|reflexivity]. Qed.

Definition pick {A} (b : bool * list A) : list A := if fst b then snd b else [].
Definition name_blocks (fs : list string) : list (bool * list string) := map (fun b : bool * list opt => (fst b, flat_map o_names (snd b))) (feature_blocks fs).
Lemma names_picked fs : flat_map o_names (feature_options fs) = flat_map pick (name_blocks fs).
Proof.
  unfold feature_options, name_blocks. induction (feature_blocks fs) as [|[g b] t IH]; [reflexivity|]. cbn [flat_map map fst snd]. rewrite flat_map_app, IH. f_equal. unfold pick. cbn [fst snd]. destruct g; reflexivity.
Qed.
Lemma picked_sub (bs : list (bool * list string)) : NoDup (flat_map snd bs) -> NoDup (flat_map pick bs).
Proof.
  assert (K : forall bs s, In s (flat_map pick bs) -> In s (flat_map (@snd bool (list string)) bs)).
  { intros q s I. apply in_flat_map in I. destruct I as ([g b] & I & J). apply in_flat_map. exists (g, b). split; [exact I|]. unfold pick in J. cbn [fst snd] in *. destruct g; [exact J|destruct J]. }
  induction bs as [|[g b] t IH]; [intros _; constructor|]. cbn [flat_map]. unfold pick at 1. cbn [fst snd]. intros H.
  assert (H1 : NoDup b /\ NoDup (flat_map snd t) /\ forall s, In s b -> ~ In s (flat_map snd t)).
  { revert H. generalize (flat_map (@snd bool (list string)) t). clear. intros c. induction b as [|x b IH]; cbn [app]; [intros H; split; [constructor|split; [exact H|intros ? []]]|].
    intros H. inversion H as [|? ? N1 N2]; subst. destruct (IH N2) as (A & B & C). split; [constructor; [intros X; apply N1; apply in_or_app; left; exact X|exact A]|]. split; [exact B|].
    intros s [<-|I] J; [apply N1; apply in_or_app; right; exact J|exact (C s I J)]. }
  destruct H1 as (A & B & C). destruct g; [|exact (IH B)].
  assert (G : forall c, NoDup b -> NoDup c -> (forall s, In s b -> ~ In s c) -> NoDup (b ++ c)).
  { clear. intros c A B C. induction b as [|x b IH]; [exact B|]. inversion A as [|? ? N1 N2]; subst. cbn. constructor; [intros X; apply in_app_or in X; destruct X as [X|X]; [exact (N1 X)|exact (C x (or_introl eq_refl) X)]|].
    apply IH; [exact N2|]. intros s I. apply C. right. exact I. }
  apply G; [exact A|exact (IH B)|]. intros s I J. exact (C s I (K _ _ J)).
Qed.
Lemma blocks_split fs : exists front, feature_blocks fs = (front ++ [(mem "dipole-parameter-optimisation" fs,
    [plain ["-n"] "n" TInt (VInt 500); plain ["--dipole-parameter-min"; "--min"] "dipole_parameter_min" TFloat (VFloat (1 / 4));
     plain ["--dipole-parameter-max"; "--max"] "dipole_parameter_max" TFloat (VFloat (3 / 2)); plain ["--dipole-parameter-step"; "--step"] "dipole_parameter_step" TFloat (VFloat (1 / 4))])])%list.
Proof. exists (removelast (feature_blocks fs)). unfold feature_blocks. cbn [removelast]. reflexivity. Qed.
Lemma features_iff fs : (exists p, cli_parser fs false = Ok p) <-> ~ (In "read-modes" fs /\ ~ In "read-fc" fs) /\ ~ (In "powder" fs /\ In "dipole-parameter-optimisation" fs).
Proof.
  unfold cli_parser. split.
  - intros (p & H). destruct (mem "read-modes" fs && negb (mem "read-fc" fs))%bool eqn:G; [discriminate|]. split.
    + intros [A B]. apply mem_In in A. apply mem_false in B. rewrite A, B in G. discriminate.
    + intros [A B]. apply mem_In in A, B. destruct (blocks_split fs) as (front & E). unfold feature_options in H.
      destruct (add_all false [] _) as [r|] eqn:R; [|discriminate]. rewrite E, flat_map_app, add_app in R. rewrite B in R. cbn [flat_map fst snd app] in R.
      destruct (add_all false [] (flat_map _ front)) as [r'|] eqn:R'; [|discriminate]. destruct (add_inv _ _ _ R') as [Er' _]. cbn [app] in Er'. destruct (add_inv _ _ _ R) as [_ Q].
      apply (Q "-n"); [|cbn; auto]. rewrite Er'.
      assert (X : In (mem "powder" fs, nth 1 [[]; [exclusive 2 (plain ["--npts"; "-n"] "npts" TInt (VInt 1000)); exclusive 2 (plain ["--npts-density"] "npts_density" TInt VNone);
         plain ["--npts-min"] "npts_min" TInt (VInt 100); plain ["--npts-max"] "npts_max" TInt (VInt 10000);
         choice ["--sampling"] "sampling" "golden" ["golden"; "sphere-projected-grid"; "spherical-polar-grid"; "spherical-polar-improved"; "random-sphere"];
         switch ["--jitter"] "jitter"]] []) (feature_blocks fs)).
      { unfold feature_blocks. cbn [nth]. do 9 right. left. reflexivity. }
      rewrite E in X. apply in_app_or in X. destruct X as [X|[X|[]]]; [|discriminate]. apply in_flat_map. exists (exclusive 2 (plain ["--npts"; "-n"] "npts" TInt (VInt 1000))). split; [|cbn; auto].
      apply in_flat_map. eexists. split; [exact X|]. cbn [fst snd nth]. rewrite A. left. reflexivity.
  - intros [A B]. destruct (mem "read-modes" fs && negb (mem "read-fc" fs))%bool eqn:G.
    { exfalso. apply A. apply andb_true_iff in G. destruct G as [G1 G2]. split; [apply mem_In; exact G1|]. apply mem_false. destruct (mem "read-fc" fs); [discriminate|reflexivity]. }
    rewrite add_ok; [eexists; reflexivity|]. cbn [app]. rewrite names_picked.
    destruct (mem "powder" fs) eqn:P.
    + destruct (mem "dipole-parameter-optimisation" fs) eqn:D; [exfalso; apply B; split; apply mem_In; assumption|].
      assert (E : flat_map pick (name_blocks fs) = flat_map pick (removelast (name_blocks fs))).
      { unfold name_blocks, feature_blocks. rewrite D. cbn [map removelast fst snd]. set (z := (false, flat_map o_names _)).
        match goal with |- flat_map pick ?x = flat_map pick ?y => change x with (y ++ [z])%list; rewrite (flat_map_app pick y [z]) end. cbn. rewrite app_nil_r. reflexivity. }
      rewrite E. apply picked_sub. apply nodupb_spec. vm_compute. reflexivity.
    + set (drop := fun b : bool * list string => if mem "-n" (snd b) then (if mem "--npts" (snd b) then (fst b, []) else b) else b).
      assert (E : flat_map pick (name_blocks fs) = flat_map pick (map drop (name_blocks fs))).
      { unfold name_blocks, feature_blocks. rewrite P. reflexivity. }
      rewrite E. apply picked_sub. apply nodupb_spec. vm_compute. reflexivity.
Qed.
(** ** A file name right after an option that takes optional words *)
Lemma tool_swallows int_of float_of t l o s ws : get_parser t = Ok (true, l) -> In o l -> In s (o_names o) -> Forall (word l) ws ->
  (o_count o = Any \/ o_count o = AtLeastOne \/ ((exists c, o_count o = Maybe c) /\ (length ws <= 1)%nat)) -> exists e, tool_args int_of float_of t (s :: ws) = Err e.
Proof.
  intros P I Is W K. destruct (tool_args int_of float_of t (s :: ws)) as [ns|e] eqn:H; [|exists e; reflexivity]. exfalso.
  assert (Nm : In s (flat_map o_names l)) by (apply in_flat_map; exists o; split; assumption).
  destruct (tool_inv int_of float_of t l _ ns P H) as (before & bvs & after & avs & file & E & F1 & F2 & Wf & En & _).
  destruct before as [|u b]; cbn [written flat_map app] in E; [injection E as E _; subst file; exact (proj1 Wf Nm)|]. fold (written b) in E. injection E as Eu Ew.
  destruct b as [|u' b].
  - specialize (En [] u eq_refl o I). rewrite <- Eu in En. specialize (En Is). unfold has_enough in En. destruct K as [K|[K|[[c K] L]]]; rewrite K in En; try exact En.
    apply En. rewrite Ew in L. cbn [written flat_map app] in L. rewrite !app_length in L. cbn [length] in L. destruct (u_words u); [reflexivity|cbn [length] in L; lia].
  - inversion F1 as [|? ? ? ? _ F]; subst. inversion F as [|? ov ? ? (A & B & _) _]; subst. rewrite Forall_forall in W.
    apply (W (u_name u')); [rewrite <- app_assoc; apply in_or_app; right; left; reflexivity|]. apply in_flat_map. exists (fst ov). split; assumption.
Qed.
(** ** A bare --shape *)
Lemma bare_shape int_of float_of t l o f : get_parser t = Ok (true, l) -> In o l -> In "--shape" (o_names o) -> word l f ->
  o_count o = Maybe VNone -> o_dest o = "shape" -> exists ns, tool_args int_of float_of t [f; "--shape"] = Ok ns /\ ns "shape" = Some VNone.
Proof.
  intros P I In_ W K D. destruct (tool_good int_of float_of t l [] f [mkU "--shape" []] [] [(o, VNone)] P) as (ns & T & (_ & B & _)).
  - constructor.
  - constructor; [|constructor]. split; [exact I|]. split; [exact In_|]. split; [constructor|]. cbn. apply m_bare; [exact K|]. discriminate.
  - exact W.
  - intros [|? ?] ? E; discriminate.
  - cbn. intros o1 v1 o2 v2 g [E1|[]] [E2|[]] _ _. congruence.
  - exists ns. split; [exact T|]. rewrite <- D. apply (B [] o VNone []); [reflexivity|]. intros ? [].
Qed.
Definition shape_option : opt := mkOpt ["--shape"] "shape" (Maybe VNone) TStr (VStr "gauss") (Some ["gauss"; "lorentz"]) None.
Lemma has_shape t : In t [Dos; IntensityMap; PowderMap; CheckBrille] -> In shape_option (options_of t).
Proof.
  intros [<-|[<-|[<-|[<-|[]]]]]; unfold options_of; match goal with |- In _ match ?g with _ => _ end => let r := eval vm_compute in g in change g with r end;
  cbn [In]; unfold shape_option; repeat (first [left; reflexivity | right]).
Qed.
Lemma tool_bare_shape int_of float_of t l f : In t [Dos; IntensityMap; PowderMap; CheckBrille] -> get_parser t = Ok (true, l) -> word l f ->
  exists ns, tool_args int_of float_of t [f; "--shape"] = Ok ns /\ ns "shape" = Some VNone.
Proof.
  intros T P W. rewrite parser_ok in P. assert (l = options_of t) by congruence. subst l.
  apply (bare_shape int_of float_of t (options_of t) shape_option f (parser_ok t) (has_shape t T)); [left; reflexivity|exact W|reflexivity|reflexivity].
Qed.
(** ** Unknown features *)
Lemma unknown_feature s fs resolve :
  ~ In s ["read-fc"; "read-modes"; "pdos-weighting"; "ins-weighting"; "mp-grid"; "q-e"; "scaling"; "powder"; "plotting"; "map"; "ebins"; "adaptive-broadening"; "btol"; "brille"; "dipole-parameter-optimisation"] ->
  cli_parser (s :: fs) resolve = cli_parser fs resolve.
Proof.
  intros N. assert (K : forall x, s <> x -> mem x (s :: fs) = mem x fs).
  { intros x D. unfold mem. cbn [existsb]. destruct (String.eqb_spec x s) as [->|_]; [contradiction|reflexivity]. }
  assert (E : feature_blocks (s :: fs) = feature_blocks fs).
  { unfold feature_blocks. rewrite !K by (intros ->; apply N; cbn; tauto). reflexivity. }
  unfold cli_parser. rewrite !K by (intros ->; apply N; cbn; tauto). unfold feature_options. rewrite E. reflexivity.
Qed.
Lemma adaptive_feature fs resolve : ~ In "ebins" fs -> cli_parser ("adaptive-broadening" :: fs) resolve = cli_parser fs resolve.
Proof.
  intros N. apply mem_false in N. assert (K : forall x, "adaptive-broadening" <> x -> mem x ("adaptive-broadening" :: fs) = mem x fs).
  { intros x D. unfold mem. cbn [existsb]. destruct (String.eqb_spec x "adaptive-broadening") as [->|_]; [contradiction|reflexivity]. }
  assert (E : feature_blocks ("adaptive-broadening" :: fs) = feature_blocks fs).
  { unfold feature_blocks. rewrite !K by discriminate. rewrite N. cbn [andb]. reflexivity. }
  unfold cli_parser. rewrite !K by discriminate. unfold feature_options. rewrite E. reflexivity.
Qed.
