(** C97, the converse: command lines that are accepted. *)
From Coq Require Import String Ascii Permutation.
From Verif Require Import Base M_parser S_parser L_parser.
Open Scope string_scope.

Notation segment := (option (string * opt) * list string)%type.
Definition spell (segs : list segment) : list string := flat_map (fun s => match fst s with Some (n, _) => n :: snd s | None => [] end) segs.
Definition fits (l : list opt) (s : segment) : Prop := match fst s with Some (n, o) => In o l /\ In n (o_names o) | None => True end /\ Forall (word l) (snd s).
Lemma seg_inv l line : Forall (word l) (fst (segments l line)) /\ Forall (fits l) (snd (segments l line)) /\
  ((forall s, In s (snd (segments l line)) -> fst s <> None) -> line = (fst (segments l line) ++ spell (snd (segments l line)))%list).
Proof.
  induction line as [|s t (IH1 & IH2 & IH3)]; [split; [constructor|split; [constructor|reflexivity]]|]. cbn [segments]. pose proof (classify_inv l s) as C.
  destruct (classify l s) as [n o| |w]; cbn [fst snd].
  - destruct C as (-> & I & S). split; [constructor|]. split; [constructor; [split; [split; assumption|exact IH1]|exact IH2]|]. intros H. cbn [app spell flat_map fst snd]. f_equal.
    apply IH3. intros x X. apply H. right. exact X.
  - split; [constructor|]. split; [constructor; [split; [exact I|exact IH1]|exact IH2]|]. intros H. exfalso. apply (H _ (or_introl eq_refl)). reflexivity.
  - destruct C as (-> & W). split; [constructor; assumption|]. split; [exact IH2|]. intros H. cbn [app]. f_equal. apply IH3. exact H.
Qed.

Section Values.
Variables (int_of : string -> option Z) (float_of : string -> option R).
Notation means := (means int_of float_of). Notation stands_for := (stands_for int_of float_of).
Notation take := (take int_of float_of). Notation run := (run int_of float_of).
Section One_parser.
Variable l : list opt.
Hypothesis N : NoDup (flat_map o_names l).
Lemma give_extra file ws st : st_extra st = true -> st_extra (give_words file ws st) = true.
Proof. intros H. unfold give_words. destruct ws, (st_file st), file; cbn; rewrite ?H; auto. Qed.
Lemma run_extra segs st st' : run true st segs = Ok st' -> st_extra st = true -> st_extra st' = true.
Proof.
  revert st. induction segs as [|[[[n o]|] ws] t IH]; intros st; cbn [M_parser.run].
  - intros H E. injection H as <-. exact E.
  - intros H E. destruct (take n o ws) as [[v r]|]; [|discriminate]. destruct (existsb _ _); [discriminate|]. apply (IH _ H). apply give_extra. exact E.
  - intros H _. apply (IH _ H). apply give_extra. reflexivity.
Qed.
Lemma words_apart used r ws : Forall (word l) ws -> ws = (used ++ r)%list -> Forall (word l) used /\ Forall (word l) r.
Proof. intros F ->. apply Forall_app in F. exact F. Qed.

Lemma run_found segs st st' f : Forall (fits l) segs -> run true st segs = Ok st' -> st_extra st' = false -> st_file st = Some f ->
  (forall s, In s segs -> fst s <> None) /\ exists us ovs, spell segs = written us /\ Forall2 (stands_for l) us ovs /\ allowed (st_seen st) ovs /\
  st_ns st' = sets ovs (st_ns st) /\ st_file st' = Some f.
Proof.
  intros F. revert st. induction F as [|[[[n o]|] ws] t Hs F IH]; intros st H X Ef.
  - split; [intros ? []|]. injection H as <-. exists [], []. split; [reflexivity|]. split; [constructor|]. split; [intros pre o v post E; destruct pre; discriminate|]. split; [reflexivity|exact Ef].
  - cbn [M_parser.run] in H. destruct (take n o ws) as [[v r]|] eqn:T; [|discriminate]. destruct (existsb _ (st_seen st)) eqn:Ex; [discriminate|].
    destruct (take_inv _ _ _ _ _ _ _ T) as (used & Ew & M & _). destruct Hs as [[I S] W]. cbn [fst snd] in I, S, W. destruct (words_apart used r ws W Ew) as [Wu _].
    destruct r as [|w0 r].
    + cbn [give_words] in H. destruct (IH _ H X Ef) as (A & us & ovs & E1 & E2 & E3 & E4 & E5). split.
      * intros s [<-|Y]; [discriminate|exact (A s Y)].
      * exists (mkU n ws :: us), ((o, v) :: ovs). rewrite app_nil_r in Ew. subst used. split; [cbn [spell flat_map fst snd written u_name u_words]; fold (written us); fold (spell t); rewrite E1; reflexivity|].
        split; [constructor; [|exact E2]; split; [exact I|]; split; [exact S|]; split; assumption|]. split; [apply allowed_cons; split; assumption|]. split; [rewrite E4; reflexivity|exact E5].
    + exfalso. assert (Y : st_extra st' = true); [|congruence]. apply (run_extra _ _ _ H). unfold give_words. cbn [st_file]. rewrite Ef. reflexivity.
  - exfalso. assert (Y : st_extra st' = true); [|congruence]. cbn [M_parser.run] in H. apply (run_extra _ _ _ H). apply give_extra. reflexivity.
Qed.
Lemma run_finds segs st st' f : Forall (fits l) segs -> run true st segs = Ok st' -> st_extra st' = false -> st_file st = None -> st_file st' = Some f ->
  (forall s, In s segs -> fst s <> None) /\ exists before bvs after avs, spell segs = (written before ++ f :: written after)%list /\
  Forall2 (stands_for l) before bvs /\ Forall2 (stands_for l) after avs /\ word l f /\
  (forall b u, before = (b ++ [u])%list -> forall o, In o l -> In (u_name u) (o_names o) -> has_enough o (u_words u)) /\
  allowed (st_seen st) (bvs ++ avs) /\ st_ns st' = sets avs (set (sets bvs (st_ns st)) "filename" (VStr f)).
Proof.
  intros F. revert st. induction F as [|[[[n o]|] ws] t Hs F IH]; intros st H X Ef Ef'.
  - injection H as <-. congruence.
  - cbn [M_parser.run] in H. destruct (take n o ws) as [[v r]|] eqn:T; [|discriminate]. destruct (existsb _ (st_seen st)) eqn:Ex; [discriminate|].
    destruct (take_inv _ _ _ _ _ _ _ T) as (used & Ew & M & En). destruct Hs as [[I S] W]. cbn [fst snd] in I, S, W. destruct (words_apart used r ws W Ew) as [Wu Wr].
    assert (SF : stands_for l (mkU n used) (o, v)) by (split; [exact I|]; split; [exact S|]; split; assumption).
    destruct r as [|w0 r].
    + cbn [give_words] in H. destruct (IH _ H X Ef Ef') as (A & before & bvs & after & avs & E1 & E2 & E3 & E4 & E5 & E6 & E7). split.
      * intros s [<-|Y]; [discriminate|exact (A s Y)].
      * exists (mkU n used :: before), ((o, v) :: bvs), after, avs. rewrite app_nil_r in Ew. subst used.
        split; [cbn [spell flat_map fst snd written u_name u_words app]; fold (written before); fold (spell t); rewrite E1, <- app_assoc; reflexivity|].
        split; [constructor; assumption|]. split; [exact E3|]. split; [exact E4|]. split.
        -- intros b u Eb. destruct b as [|x b]; [|injection Eb as _ Eb; exact (E5 b u Eb)]. cbn [app] in Eb. assert (before = []) by congruence. subst before.
           (* the file name follows at once: it would be the first word of the next segment *)
           exfalso. inversion E2; subst bvs. cbn [written flat_map app] in E1. destruct t as [|[[[n' o']|] ws'] t]; [discriminate| |].
           ++ cbn [spell flat_map fst snd] in E1. injection E1 as E1 _. subst f. pose proof (Forall_inv F) as Kf. unfold fits in Kf. cbn [fst snd] in Kf. destruct Kf as [[I' S'] _]. destruct E4 as [E4 _]. apply E4. apply in_flat_map. exists o'. split; assumption.
           ++ apply (A (None, ws') (or_introl eq_refl)). reflexivity.
        -- split; [cbn [app]; apply allowed_cons; split; assumption|]. rewrite E7. reflexivity.
    + cbn [give_words st_file] in H. rewrite Ef in H. destruct r as [|w1 r].
      * assert (Y : st_file (mkState (set (set (st_ns st) (o_dest o) v) "filename" (VStr w0)) (Some w0) (o :: st_seen st) (st_extra st || false)) = Some w0) by reflexivity.
        destruct (run_found t _ st' w0 F H X Y) as (A & us & ovs & E1 & E2 & E3 & E4 & E5). assert (w0 = f) by congruence. subst w0. split.
        -- intros s [<-|Z]; [discriminate|exact (A s Z)].
        -- exists [mkU n used], [(o, v)], us, ovs. split; [cbn [spell flat_map fst snd written u_name u_words app]; fold (spell t); rewrite E1, Ew, app_nil_r, <- !app_assoc; reflexivity|].
           split; [constructor; [exact SF|constructor]|]. split; [exact E2|]. split; [inversion Wr; assumption|]. split.
           ++ intros b u Eb o' I' S'. destruct b as [|x b]; [|destruct b; discriminate]. injection Eb as <-. cbn [u_name u_words] in *. rewrite (name_unique l o' o n N I' I S' S). apply En. discriminate.
           ++ split; [cbn [app]; apply allowed_cons; split; [exact Ex|exact E3]|]. rewrite E4. reflexivity.
      * exfalso. assert (Y : st_extra st' = true); [|congruence]. apply (run_extra _ _ _ H). cbn. apply Bool.orb_true_r.
  - exfalso. assert (Y : st_extra st' = true); [|congruence]. cbn [M_parser.run] in H. apply (run_extra _ _ _ H). apply give_extra. reflexivity.
Qed.

Lemma parse_inv line ns : sound l -> parse_args int_of float_of (true, l) line = Ok ns ->
  exists before bvs after avs file, line = (written before ++ file :: written after)%list /\
  Forall2 (stands_for l) before bvs /\ Forall2 (stands_for l) after avs /\ word l file /\
  (forall b u, before = (b ++ [u])%list -> forall o, In o l -> In (u_name u) (o_names o) -> has_enough o (u_words u)) /\
  compatible (bvs ++ avs) /\ settings l file (bvs ++ avs) ns.
Proof.
  intros So H. unfold parse_args in H. destruct (seg_inv l line) as (W & F & E). destruct (segments l line) as [ws segs]. cbn [fst snd] in *.
  destruct (run true (give_words true ws (mkState (defaults l) None [] false)) segs) as [st'|] eqn:R; [|discriminate].
  destruct (st_file st') as [f|] eqn:Ef; [|discriminate]. cbn [andb] in H. destruct (st_extra st') eqn:X; [discriminate|]. injection H as <-.
  destruct ws as [|w [|w1 ws]].
  - cbn [give_words] in R. destruct (run_finds segs _ st' f F R X eq_refl Ef) as (A & before & bvs & after & avs & E1 & E2 & E3 & E4 & E5 & E6 & E7). cbn [st_seen st_ns] in *.
    assert (Fw : Forall2 (stands_for l) (before ++ after) (bvs ++ avs)) by (apply Forall2_app; assumption).
    exists before, bvs, after, avs, f. split; [rewrite (E A), E1; reflexivity|]. split; [exact E2|]. split; [exact E3|]. split; [exact E4|]. split; [exact E5|].
    split; [apply (compatible_allowed _ _ l N _ _ Fw); exact E6|]. rewrite E7. exact (the_settings _ _ l _ bvs avs f So Fw).
  - cbn [give_words st_file st_ns st_seen st_extra orb] in R.
    destruct (run_found segs _ st' w F R X eq_refl) as (A & us & ovs & E1 & E2 & E3 & E4 & E5). cbn [st_seen st_ns] in *. assert (w = f) by congruence. subst w.
    exists [], [], us, ovs, f. split; [rewrite (E A), E1; reflexivity|]. split; [constructor|]. split; [exact E2|]. split; [inversion W; assumption|].
    split; [intros b u Eb; destruct b; discriminate|]. split; [apply (compatible_allowed _ _ l N _ _ E2); exact E3|]. rewrite E4. exact (the_settings _ _ l us [] ovs f So E2).
  - exfalso. assert (Y : st_extra st' = true); [|congruence]. apply (run_extra _ _ _ R). reflexivity.
Qed.
End One_parser.

(** Every element of an accepted line is the file, or belongs to a use *)
Lemma line_parts l line ns : sound l -> parse_args int_of float_of (true, l) line = Ok ns -> forall s, In s line -> In s (flat_map o_names l) \/ word l s.
Proof.
  intros So H s I. destruct (parse_inv l (proj1 So) line ns So H) as (before & bvs & after & avs & file & -> & F1 & F2 & Wf & _).
  assert (G : forall us ovs, Forall2 (stands_for l) us ovs -> In s (written us) -> In s (flat_map o_names l) \/ word l s).
  { clear - I. intros us ovs F J. induction F as [|u ov us ovs (A & B & C & D) F IH]; [destruct J|]. cbn [written flat_map] in J. destruct J as [<-|J].
    - left. apply in_flat_map. exists (fst ov). split; assumption.
    - apply in_app_or in J. destruct J as [J|J]; [right; rewrite Forall_forall in C; exact (C s J)|exact (IH J)]. }
  apply in_app_or in I. destruct I as [I|[<-|I]]; [exact (G _ _ F1 I)|right; exact Wf|exact (G _ _ F2 I)].
Qed.
Lemma exclusive_refused l line o o' s s' g : sound l -> In o l -> In o' l -> In s (o_names o) -> In s' (o_names o') -> o_group o = Some g -> o_group o' = Some g -> o <> o' ->
  In s line -> In s' line -> exists e, parse_args int_of float_of (true, l) line = Err e.
Proof.
  intros So I I' S S' G G' Ne Il Il'. destruct (parse_args int_of float_of (true, l) line) as [ns|e] eqn:H; [|exists e; reflexivity]. exfalso.
  destruct (parse_inv l (proj1 So) line ns So H) as (before & bvs & after & avs & file & -> & F1 & F2 & Wf & _ & Co & _).
  assert (K : forall x n, In x l -> In n (o_names x) -> In n (written before ++ file :: written after) -> exists v, In (x, v) (bvs ++ avs)).
  { intros x n Ix In' Iw.
    assert (G1 : forall us ovs, Forall2 (stands_for l) us ovs -> In n (written us) -> exists v, In (x, v) ovs).
    { clear - So Ix In'. intros us ovs F J. induction F as [|u [y v] us ovs (A & B & C & D) F IH]; [destruct J|]. cbn [written flat_map] in J. cbn [fst snd] in *. destruct J as [<-|J].
      - exists v. left. rewrite (name_unique l x y (u_name u) (proj1 So) Ix A In' B). reflexivity.
      - apply in_app_or in J. destruct J as [J|J].
        + exfalso. rewrite Forall_forall in C. destruct (C n J) as [Z _]. apply Z. apply in_flat_map. exists x. split; assumption.
        + destruct (IH J) as (w & W). exists w. right. exact W. }
    apply in_app_or in Iw. destruct Iw as [Iw|[<-|Iw]].
    - destruct (G1 _ _ F1 Iw) as (v & V). exists v. apply in_or_app. left. exact V.
    - exfalso. destruct Wf as [Z _]. apply Z. apply in_flat_map. exists x. split; assumption.
    - destruct (G1 _ _ F2 Iw) as (v & V). exists v. apply in_or_app. right. exact V. }
  destruct (K o s I S Il) as (v & V). destruct (K o' s' I' S' Il') as (v' & V'). apply Ne. exact (Co o v o' v' g V V' G G').
Qed.
End Values.
