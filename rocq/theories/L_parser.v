(** Lemmas for C97: command lines. *)
From Coq Require Import String Ascii Permutation.
From Verif Require Import Base M_parser S_parser.
Open Scope string_scope.

Lemma mem_In s l : mem s l = true <-> In s l.
Proof.
  unfold mem. rewrite existsb_exists. split.
  - intros (x & I & E). apply String.eqb_eq in E. subst. exact I.
  - intros I. exists s. split; [exact I|apply String.eqb_refl].
Qed.
Lemma mem_false s l : mem s l = false <-> ~ In s l.
Proof. rewrite <- mem_In. destruct (mem s l); split; congruence. Qed.

(** Parsers whose names are distinct, with a file name of their own *)
Definition sound (l : list opt) : Prop :=
  NoDup (flat_map o_names l) /\ (forall o, In o l -> o_dest o <> "filename") /\
  (forall o o', In o l -> In o' l -> o_count o <> Help -> o_count o' <> Help -> o_dest o = o_dest o' -> o_default o = o_default o').
Lemma name_unique l o o' s : NoDup (flat_map o_names l) -> In o l -> In o' l -> In s (o_names o) -> In s (o_names o') -> o = o'.
Proof.
  induction l as [|a l IH]; cbn [flat_map]; [intros _ []|]. intros N I I' S S'.
  assert (D : forall x, In x (o_names a) -> ~ In x (flat_map o_names l)).
  { clear - N. induction (o_names a) as [|y t IHt]; [intros x []|]. cbn in N. inversion N as [|? ? N1 N2]; subst. intros x [->|I] J.
    - apply N1. apply in_or_app. right. exact J.
    - exact (IHt N2 x I J). }
  assert (N' : NoDup (flat_map o_names l)) by (clear - N; induction (o_names a) as [|y t IHt]; [exact N|]; cbn in N; inversion N; auto).
  destruct I as [<-|I], I' as [<-|I'].
  - reflexivity.
  - exfalso. apply (D s S). apply in_flat_map. exists o'. split; assumption.
  - exfalso. apply (D s S'). apply in_flat_map. exists o. split; assumption.
  - exact (IH N' I I' S S').
Qed.
Lemma classify_name l o s : NoDup (flat_map o_names l) -> In o l -> In s (o_names o) -> classify l s = IsOption s o.
Proof.
  intros N I S. unfold classify. destruct (find _ l) as [o'|] eqn:E.
  - apply find_some in E. destruct E as [I' M]. apply mem_In in M. rewrite (name_unique l o o' s N I I' S M). reflexivity.
  - exfalso. pose proof (find_none _ _ E o I) as M. cbn in M. apply mem_false in M. exact (M S).
Qed.
(** What looks like an option *)
Lemma is_digit_spec c : is_digit c = true <-> exists k, (k <= 9)%nat /\ c = ascii_of_nat (48 + k).
Proof.
  unfold is_digit. rewrite andb_true_iff, !Nat.leb_le. split.
  - intros [A B]. exists (nat_of_ascii c - 48)%nat. split; [lia|]. replace (48 + (nat_of_ascii c - 48))%nat with (nat_of_ascii c) by lia. symmetry. apply ascii_nat_embedding.
  - intros (k & K & ->). rewrite nat_ascii_embedding by lia. lia.
Qed.
Lemma all_digits_spec s : all_digits s = true <-> digits s.
Proof.
  unfold digits. induction s as [|c t IH]; cbn [all_digits list_ascii_of_string]; [split; [constructor|reflexivity]|].
  rewrite andb_true_iff, IH, is_digit_spec. split; [intros [A B]; constructor; assumption|intros F; inversion F; split; assumption].
Qed.
Lemma not_empty s : negb (String.eqb s "") = true <-> s <> "".
Proof. destruct s; cbn; split; congruence. Qed.
Lemma after_point_spec s : after_point s = true <-> exists a b, s = a ++ "." ++ b /\ digits a /\ digits b /\ b <> "".
Proof.
  induction s as [|c t IH]; cbn [after_point]; [split; [discriminate|intros ([|? ?] & b & E & _); discriminate E]|].
  destruct (Ascii.eqb_spec c ".") as [->|N].
  - rewrite andb_true_iff, all_digits_spec, not_empty. split.
    + intros [A B]. exists "", t. split; [reflexivity|]. split; [constructor|]. split; assumption.
    + intros ([|x a] & b & E & Da & Db & Nb); [injection E as ->; split; assumption|]. exfalso. injection E as <- _. inversion Da as [|? ? (k & K & X) _]; subst. 
      apply (f_equal nat_of_ascii) in X. rewrite nat_ascii_embedding in X by lia. cbn [nat_of_ascii] in X. vm_compute in X. lia.
  - rewrite andb_true_iff, IH, is_digit_spec. split.
    + intros [A (a & b & -> & Da & Db & Nb)]. exists (String c a), b. split; [reflexivity|]. split; [constructor; assumption|]. split; assumption.
    + intros ([|x a] & b & E & Da & Db & Nb); [injection E as -> _; contradiction|]. injection E as <- ->. inversion Da; subst. split; [assumption|]. exists a, b. split; [reflexivity|]. split; [assumption|]. split; assumption.
Qed.
Lemma number_like_spec s : number_like s = true <-> number s.
Proof. unfold number_like, number. rewrite orb_true_iff, andb_true_iff, all_digits_spec, not_empty, after_point_spec. reflexivity. Qed.
Lemma has_blank_spec s : has_blank s = true <-> In " "%char (list_ascii_of_string s).
Proof.
  induction s as [|c t IH]; cbn [has_blank list_ascii_of_string In]; [split; [discriminate|intros []]|]. rewrite orb_true_iff, IH, Ascii.eqb_eq. reflexivity.
Qed.
Lemma like_spec s : option_like s = false <-> ordinary s.
Proof.
  unfold option_like, ordinary. destruct s as [|c t]; [split; [intros _; left; discriminate|reflexivity]|]. rewrite !andb_false_iff, !negb_false_iff, number_like_spec, has_blank_spec, String.eqb_eq. split.
  - intros [[[H|H]|H]|H].
    + left. intros x X. injection X as -> _. discriminate H.
    + destruct (Ascii.eqb_spec c "-") as [->|N]; [right; left; subst; reflexivity|left; intros x X; injection X as -> _; apply N; reflexivity].
    + destruct (Ascii.eqb_spec c "-") as [->|N]; [right; right; left; exists t; split; [reflexivity|exact H]|left; intros x X; injection X as -> _; apply N; reflexivity].
    + right. right. right. exact H.
  - intros [H|[H|[(x & H & N)|H]]].
    + left. left. left. destruct (Ascii.eqb_spec c "-") as [->|N]; [exfalso; exact (H t eq_refl)|reflexivity].
    + left. left. right. congruence.
    + left. right. injection H as _ ->. exact N.
    + right. exact H.
Qed.
Lemma like_true s : option_like s = true <-> ~ ordinary s.
Proof. rewrite <- like_spec. destruct (option_like s); split; congruence. Qed.
Lemma classify_word l s : word l s -> classify l s = IsWord s.
Proof.
  intros [N O]. unfold classify. destruct (find _ l) as [o'|] eqn:E.
  - apply find_some in E. destruct E as [I' M]. apply mem_In in M. exfalso. apply N. apply in_flat_map. exists o'. split; assumption.
  - apply like_spec in O. rewrite O. reflexivity.
Qed.
Lemma classify_inv l s : match classify l s with
  | IsOption n o => n = s /\ In o l /\ In s (o_names o) | IsUnknown => ~ In s (flat_map o_names l) /\ option_like s = true | IsWord w => w = s /\ word l s end.
Proof.
  unfold classify. destruct (find _ l) as [o'|] eqn:E.
  - apply find_some in E. destruct E as [I' M]. apply mem_In in M. split; [reflexivity|]. split; assumption.
  - assert (N : ~ In s (flat_map o_names l)).
    { intros I. apply in_flat_map in I. destruct I as (o & I & S). pose proof (find_none _ _ E o I) as M. cbn in M. apply mem_false in M. exact (M S). }
    destruct (option_like s) eqn:O; [split; [exact N|reflexivity]|]. apply like_spec in O. split; [reflexivity|]. split; assumption.
Qed.

Section Lines.
Variable l : list opt.
Hypothesis N : NoDup (flat_map o_names l).
Lemma seg_words ws rest : Forall (word l) ws -> segments l (ws ++ rest) = ((ws ++ fst (segments l rest))%list, snd (segments l rest)).
Proof.
  induction 1 as [|w ws W _ IH]; [cbn [app]; destruct (segments l rest); reflexivity|]. cbn [app segments]. rewrite IH, (classify_word l w W). reflexivity.
Qed.
Lemma seg_use o u rest : In o l -> In (u_name u) (o_names o) -> Forall (word l) (u_words u) ->
  segments l (u_name u :: u_words u ++ rest) = ([], (Some (u_name u, o), (u_words u ++ fst (segments l rest))%list) :: snd (segments l rest)).
Proof. intros I S W. cbn [segments]. rewrite (classify_name l o _ N I S), (seg_words _ rest W). reflexivity. Qed.
End Lines.

Section Values.
Variables (int_of : string -> option Z) (float_of : string -> option R).
Notation reads_as := (reads_as int_of float_of). Notation means := (means int_of float_of). Notation stands_for := (stands_for int_of float_of).
Notation value := (value int_of float_of). Notation values := (values int_of float_of). Notation take := (take int_of float_of). Notation run := (run int_of float_of).

Lemma value_iff o s v : value o s = Ok v <-> reads_as o s v.
Proof.
  unfold M_parser.value, S_parser.reads_as. split.
  - intros H. destruct (convert int_of float_of (o_typ o) s) as [x|] eqn:E; [|discriminate].
    assert (x = v /\ match o_choices o with Some c => In s c | None => True end) as [-> C].
    { destruct (o_choices o) as [c|]; [destruct (mem s c) eqn:M; [|discriminate]; apply mem_In in M; split; [congruence|exact M]|split; [congruence|exact I]]. }
    split; [|exact C]. unfold convert in E. destruct (o_typ o) eqn:T.
    + injection E as <-. apply r_str. exact T.
    + destruct (int_of s) eqn:Z; [|discriminate]. injection E as <-. apply r_int; assumption.
    + destruct (float_of s) eqn:Z; [|discriminate]. injection E as <-. apply r_float; assumption.
  - intros [H C]. assert (E : convert int_of float_of (o_typ o) s = Some v) by (destruct H as [? T|? ? T Z|? ? T Z]; rewrite T; cbn; rewrite ?Z; reflexivity). rewrite E.
    destruct (o_choices o) as [c|]; [|reflexivity]. apply mem_In in C. rewrite C. reflexivity.
Qed.
Lemma values_iff o ws vs : values o ws = Ok vs <-> Forall2 (reads_as o) ws vs.
Proof.
  revert vs. induction ws as [|w ws IH]; intros vs; cbn [M_parser.values].
  - split; [intros H; injection H as <-; constructor|intros H; inversion H; reflexivity].
  - split.
    + intros H. destruct (value o w) as [v|] eqn:E; [|discriminate]. destruct (values o ws) as [r|] eqn:Er; [|discriminate]. injection H as <-.
      constructor; [apply value_iff; exact E|apply IH; reflexivity].
    + intros H. inversion H as [|? v ? r R1 R2]; subst. apply value_iff in R1. apply IH in R2. rewrite R1, R2. reflexivity.
Qed.
Lemma take_all n o ws v : means o ws v -> take n o ws = Ok (v, []).
Proof.
  intros H. unfold M_parser.take. destruct H as [b E|w v E R|ws vs E R|c w v E R|s v E R|c E Nc|ws vs E R|ws vs E Ne R]; rewrite E.
  - reflexivity.
  - apply value_iff in R. rewrite R. reflexivity.
  - rewrite Nat.ltb_irrefl, firstn_all, skipn_all. apply values_iff in R. rewrite R. reflexivity.
  - apply value_iff in R. rewrite R. reflexivity.
  - apply value_iff in R. rewrite R. reflexivity.
  - destruct c; try reflexivity. exfalso. eapply Nc. reflexivity.
  - rewrite firstn_all, skipn_all. apply values_iff in R. rewrite R. reflexivity.
  - destruct ws; [contradiction|]. rewrite firstn_all, skipn_all. apply values_iff in R. rewrite R. reflexivity.
Qed.
Lemma take_more n o ws v r : means o ws v -> has_enough o ws -> take n o (ws ++ r) = Ok (v, r).
Proof.
  intros H E. unfold M_parser.take, has_enough in *. destruct H as [b C|w v C R|ws vs C R|c w v C R|s v C R|c C Nc|ws vs C R|ws vs C Ne R]; rewrite C in *; try contradiction.
  - reflexivity.
  - apply value_iff in R. cbn [app]. rewrite R. reflexivity.
  - rewrite app_length. destruct (Nat.ltb_spec (length ws + length r) (length ws)); [lia|].
    rewrite firstn_app, firstn_all, Nat.sub_diag, skipn_app, skipn_all, Nat.sub_diag. cbn [firstn skipn app]. rewrite app_nil_r. apply values_iff in R. rewrite R. reflexivity.
  - apply value_iff in R. cbn [app]. rewrite R. reflexivity.
Qed.
(** What was taken *)
Lemma take_inv n o ws v r : take n o ws = Ok (v, r) -> exists used, ws = (used ++ r)%list /\ means o used v /\ (r <> [] -> has_enough o used).
Proof.
  unfold M_parser.take, has_enough. intros H. destruct (o_count o) as [|k|c| | |b|] eqn:C.
  - destruct ws as [|w t]; [discriminate|]. destruct (value o w) as [x|] eqn:E; [|discriminate]. injection H as <- <-. exists [w]. split; [reflexivity|]. split; [|trivial].
    apply m_one; [exact C|apply value_iff; exact E].
  - destruct (Nat.ltb_spec (length ws) k) as [|L]; [discriminate|]. destruct (values o (firstn k ws)) as [vs|] eqn:E; [|discriminate]. injection H as <- <-.
    exists (firstn k ws). split; [symmetry; apply firstn_skipn|]. split; [|trivial].
    apply m_fixed; [rewrite firstn_length_le by exact L; exact C|apply values_iff; exact E].
  - destruct ws as [|w t].
    + destruct c as [|b|s|z|x|vs]; try (injection H as <- <-; exists []; split; [reflexivity|]; split; [apply m_bare; [exact C|congruence]|congruence]).
      destruct (value o s) as [x|] eqn:E; [|discriminate]. injection H as <- <-. exists []. split; [reflexivity|]. split; [|congruence].
      apply (m_bare_str _ _ _ s); [exact C|apply value_iff; exact E].
    + destruct (value o w) as [x|] eqn:E; [|discriminate]. injection H as <- <-. exists [w]. split; [reflexivity|]. split; [|intros _; discriminate].
      apply (m_maybe _ _ _ c); [exact C|apply value_iff; exact E].
  - rewrite firstn_all, skipn_all in H. destruct (values o ws) as [vs|] eqn:E; [|discriminate]. injection H as <- <-. exists ws. rewrite app_nil_r. split; [reflexivity|].
    split; [apply m_any; [exact C|apply values_iff; exact E]|congruence].
  - destruct ws as [|w t] eqn:W; [discriminate|]. rewrite <- W in *. rewrite firstn_all, skipn_all in H. destruct (values o ws) as [vs|] eqn:E; [|discriminate]. injection H as <- <-.
    exists ws. rewrite app_nil_r. split; [reflexivity|]. split; [apply m_some; [exact C|congruence|apply values_iff; exact E]|congruence].
  - injection H as <- <-. exists []. split; [reflexivity|]. split; [apply m_flag; exact C|trivial].
  - discriminate.
Qed.

Definition sets (ovs : list (opt * val)) (ns : namespace) : namespace := fold_left (fun ns ov => set ns (o_dest (fst ov)) (snd ov)) ovs ns.
Definition seen_after (ovs : list (opt * val)) (seen : list opt) : list opt := (rev (map fst ovs) ++ seen)%list.

Section One_parser.
Variable l : list opt.
Hypothesis N : NoDup (flat_map o_names l).
Definition allowed (seen : list opt) (ovs : list (opt * val)) : Prop :=
  forall pre o v post, ovs = (pre ++ (o, v) :: post)%list -> forall o', In o' (map fst pre ++ seen)%list -> (same_group o o' && other_option o o')%bool = false.
Lemma allowed_cons seen o v ovs : allowed seen ((o, v) :: ovs) <-> existsb (fun o' => same_group o o' && other_option o o')%bool seen = false /\ allowed (o :: seen) ovs.
Proof.
  split.
  - intros H. split.
    + apply not_true_iff_false. intros X. apply existsb_exists in X. destruct X as (o' & I & X). rewrite (H [] o v ovs eq_refl o' I) in X. discriminate.
    + intros pre a w post E o' I. apply (H ((o, v) :: pre) a w post); [rewrite E; reflexivity|]. cbn [map fst app]. apply in_app_or in I. destruct I as [I|[<-|I]].
      * right. apply in_or_app. left. exact I.
      * left. reflexivity.
      * right. apply in_or_app. right. exact I.
  - intros [H1 H2] pre a w post E o' I. destruct pre as [|p pre].
    + injection E as <- <- <-. cbn in I. apply not_true_iff_false. intros X. rewrite <- not_true_iff_false in H1. apply H1. apply existsb_exists. exists o'. split; assumption.
    + injection E as <- ->. apply (H2 pre a w post eq_refl). cbn [map fst app] in I. apply in_or_app. destruct I as [<-|I]; [right; left; reflexivity|].
      apply in_app_or in I. destruct I as [I|I]; [left; exact I|right; right; exact I].
Qed.
Lemma allowed_split seen a b : allowed seen (a ++ b) <-> allowed seen a /\ allowed (seen_after a seen) b.
Proof.
  revert seen. induction a as [|[o v] a IH]; intros seen; cbn [app].
  - unfold seen_after. cbn. split; [intros H; split; [|exact H]|intros [_ H]; exact H]. intros pre o v post E. destruct pre; discriminate.
  - rewrite !allowed_cons, IH. unfold seen_after. cbn [map fst rev]. rewrite <- app_assoc. cbn [app]. tauto.
Qed.
(** A line of uses at the end *)
Lemma run_uses us ovs st : Forall2 (stands_for l) us ovs -> allowed (st_seen st) ovs ->
  fst (segments l (written us)) = [] /\ run true st (snd (segments l (written us))) = Ok (mkState (sets ovs (st_ns st)) (st_file st) (seen_after ovs (st_seen st)) (st_extra st)).
Proof.
  intros F. revert st. induction F as [|u [o v] us ovs (I & S & W & M) F IH]; intros st A.
  - split; [reflexivity|]. cbn. destruct st; reflexivity.
  - cbn [fst snd] in *. apply allowed_cons in A. destruct A as [A1 A2]. unfold written. cbn [flat_map app]. fold (written us). rewrite (seg_use l N o u (written us) I S W). cbn [fst snd].
    split; [reflexivity|]. destruct (IH (mkState (set (st_ns st) (o_dest o) v) (st_file st) (o :: st_seen st) (st_extra st)) A2) as [E1 E2].
    rewrite E1, app_nil_r. cbn [M_parser.run]. rewrite (take_all _ _ _ _ M), A1. cbn [give_words]. rewrite E2. unfold seen_after. cbn [st_ns st_file st_seen st_extra map fst rev].
    rewrite <- app_assoc. reflexivity.
Qed.
Lemma run_before before file after bvs avs st : before <> [] -> Forall2 (stands_for l) before bvs -> Forall2 (stands_for l) after avs -> word l file ->
  (forall b u, before = (b ++ [u])%list -> forall o, In o l -> In (u_name u) (o_names o) -> has_enough o (u_words u)) -> allowed (st_seen st) (bvs ++ avs) -> st_file st = None ->
  fst (segments l (written before ++ file :: written after)) = [] /\
  run true st (snd (segments l (written before ++ file :: written after)))
  = Ok (mkState (sets avs (set (sets bvs (st_ns st)) "filename" (VStr file))) (Some file) (seen_after (bvs ++ avs) (st_seen st)) (st_extra st)).
Proof.
  intros Nb F. revert st. induction F as [|u [o v] us ovs (I & S & W & M) F IH]; [contradiction|]. intros st Fa Wf En A Nf.
  cbn [fst snd app] in *. apply allowed_cons in A. destruct A as [A1 A2].
  change (written (u :: us)) with (u_name u :: u_words u ++ written us)%list. cbn [app]. rewrite <- app_assoc. rewrite (seg_use l N o u _ I S W). cbn [fst snd]. split; [reflexivity|].
  destruct us as [|u' us].
  - inversion F; subst ovs. cbn [written flat_map app] in *. fold (written after). assert (Eseg : segments l (file :: written after) = ([file], snd (segments l (written after))) /\ True).
    { split; [|trivial]. cbn [segments]. rewrite (classify_word l file Wf). destruct (run_uses after avs (mkState (st_ns st) None (o :: st_seen st) false) Fa A2) as [E1 _]. rewrite E1. reflexivity. }
    destruct Eseg as [-> _]. cbn [fst snd M_parser.run]. rewrite (take_more _ _ _ _ [file] M), A1; [|exact (En [] u eq_refl o I S)].
    cbn [give_words st_file]. rewrite Nf. cbn [st_ns st_file st_seen st_extra]. rewrite Bool.orb_false_r.
    destruct (run_uses after avs (mkState (set (set (st_ns st) (o_dest o) v) "filename" (VStr file)) (Some file) (o :: st_seen st) (st_extra st)) Fa A2) as [_ E2].
    rewrite E2. unfold sets at 1. cbn [fold_left]. unfold seen_after. cbn [map fst rev app st_ns st_file st_seen st_extra]. rewrite <- app_assoc. reflexivity.
  - assert (Nu : u' :: us <> []) by discriminate.
    destruct (IH Nu (mkState (set (st_ns st) (o_dest o) v) (st_file st) (o :: st_seen st) (st_extra st)) Fa Wf) as [E1 E2].
    + intros b x E. apply (En (u :: b)). rewrite E. reflexivity.
    + exact A2.
    + exact Nf.
    + rewrite E1, app_nil_r. cbn [M_parser.run]. rewrite (take_all _ _ _ _ M), A1. cbn [give_words]. rewrite E2. unfold seen_after. cbn [st_ns st_file st_seen st_extra map fst rev].
      rewrite <- app_assoc. reflexivity.
Qed.

Lemma compatible_allowed us ovs : Forall2 (stands_for l) us ovs -> compatible ovs <-> allowed [] ovs.
Proof.
  intros F. assert (J : forall ov, In ov ovs -> In (fst ov) l /\ exists s, In s (o_names (fst ov))).
  { clear - F. induction F as [|u ov us ovs (I & S & _) F IH]; [intros ? []|]. intros x [<-|X]; [split; [exact I|exists (u_name u); exact S]|exact (IH x X)]. }
  split.
  - intros C pre o v post E o' I. rewrite app_nil_r in I. apply in_map_iff in I. destruct I as ([a w] & Ea & I). cbn in Ea. subst a.
    assert (I1 : In (o, v) ovs) by (rewrite E; apply in_or_app; right; left; reflexivity). assert (I2 : In (o', w) ovs) by (rewrite E; apply in_or_app; left; exact I).
    unfold same_group. destruct (o_group o) as [g|] eqn:G; [|reflexivity]. destruct (o_group o') as [g'|] eqn:G'; [|reflexivity].
    destruct (Nat.eqb_spec g g') as [<-|]; [|reflexivity]. cbn [andb]. rewrite (C o v o' w g I1 I2 G G') in *. unfold other_option. apply Bool.negb_false_iff.
    apply existsb_exists. destruct (J _ I2) as (_ & s & S). exists s. split; [exact S|apply mem_In; exact S].
  - intros A o v o' v' g I1 I2 G G'.
    assert (K : forall a b x y, In (a, x) ovs -> In (b, y) ovs -> o_group a = Some g -> o_group b = Some g -> (exists pre post, ovs = (pre ++ (a, x) :: post)%list /\ In (b, y) pre) -> a = b).
    { intros a b x y Ia Ib Ga Gb (pre & post & E & P). specialize (A pre a x post E b). rewrite app_nil_r in A. specialize (A ltac:(apply in_map_iff; exists (b, y); split; [reflexivity|exact P])).
      unfold same_group in A. rewrite Ga, Gb, Nat.eqb_refl in A. cbn [andb] in A. unfold other_option in A. apply Bool.negb_false_iff in A. apply existsb_exists in A.
      destruct A as (s & S1 & S2). apply mem_In in S2. exact (name_unique l a b s N (proj1 (J _ Ia)) (proj1 (J _ Ib)) S1 S2). }
    destruct (in_split _ _ I1) as (pre & post & E). pose proof I2 as I2'. rewrite E in I2'. apply in_app_or in I2'. destruct I2' as [I2'|[I2'|I2']].
    + apply (K o o' v v' I1 I2 G G'). exists pre, post. split; assumption.
    + congruence.
    + symmetry. destruct (in_split _ _ I2') as (p2 & q2 & E2). apply (K o' o v' v I2 I1 G' G). exists (pre ++ (o, v) :: p2)%list, q2. split; [rewrite E, E2, <- app_assoc; reflexivity|].
      apply in_or_app. right. left. reflexivity.
Qed.

(** The settings *)
Lemma sets_app a b ns : sets (a ++ b) ns = sets b (sets a ns).
Proof. unfold sets. apply fold_left_app. Qed.
Lemma sets_other ovs ns d : (forall ov, In ov ovs -> o_dest (fst ov) <> d) -> sets ovs ns d = ns d.
Proof.
  revert ns. induction ovs as [|[o v] ovs IH]; intros ns H; [reflexivity|]. unfold sets. cbn [fold_left fst snd]. fold (sets ovs (set ns (o_dest o) v)). rewrite IH by (intros ov I; apply H; right; exact I).
  unfold set. destruct (String.eqb_spec (o_dest o) d) as [E|]; [exfalso; exact (H (o, v) (or_introl eq_refl) E)|reflexivity].
Qed.
Lemma sets_last pre o v post ns : (forall ov, In ov post -> o_dest (fst ov) <> o_dest o) -> sets (pre ++ (o, v) :: post) ns (o_dest o) = Some v.
Proof.
  intros H. rewrite sets_app. unfold sets at 1. cbn [fold_left fst snd]. fold (sets post (set (sets pre ns) (o_dest o) v)). rewrite sets_other by exact H. unfold set. rewrite String.eqb_refl. reflexivity.
Qed.
Lemma the_settings us before after file : sound l -> Forall2 (stands_for l) us (before ++ after) -> settings l file (before ++ after) (sets after (set (sets before (defaults l)) "filename" (VStr file))).
Proof.
  intros (_ & Sf & Sd) F.
  assert (J : forall ov, In ov (before ++ after) -> In (fst ov) l).
  { clear - F. induction F as [|u ov us ovs (I & _) F IH]; [intros ? []|]. intros x [<-|X]; [exact I|exact (IH x X)]. }
  assert (E : forall d, d <> "filename" -> sets after (set (sets before (defaults l)) "filename" (VStr file)) d = sets (before ++ after) (defaults l) d).
  { intros d Nd. rewrite sets_app. assert (G : forall ovs n n', n d = n' d -> sets ovs n d = sets ovs n' d).
    { induction ovs as [|[o v] ovs IH]; intros n n' En; [exact En|]. unfold sets. cbn [fold_left fst snd]. apply IH. unfold set. destruct (String.eqb _ _); [reflexivity|exact En]. }
    apply G. unfold set. destruct (String.eqb_spec "filename" d); [congruence|reflexivity]. }
  split; [|split; [|split]].
  - rewrite sets_other. { unfold set. rewrite String.eqb_refl. reflexivity. } intros ov I. apply Sf, J, in_or_app. right. exact I.
  - intros pre o v post Eo H. assert (Io : In (o, v) (before ++ after)) by (rewrite Eo; apply in_or_app; right; left; reflexivity).
    rewrite E by exact (Sf o (J _ Io)). rewrite Eo. apply sets_last. exact H.
  - intros o I Nh H. rewrite E by exact (Sf o I). rewrite sets_other by exact H. unfold defaults.
    destruct (find _ l) as [o'|] eqn:Ef.
    + apply find_some in Ef. destruct Ef as [I' P]. cbn. f_equal. assert (Nh' : o_count o' <> Help) by (intros X; rewrite X in P; discriminate).
      assert (D : o_dest o' = o_dest o) by (destruct (o_count o'); try discriminate; apply String.eqb_eq; exact P). apply Sd; assumption.
    + exfalso. pose proof (find_none _ _ Ef o I) as P. cbn in P. destruct (o_count o); try (rewrite String.eqb_refl in P; discriminate). apply Nh. reflexivity.
  - intros d Nd H. rewrite E by exact Nd. rewrite sets_other.
    + unfold defaults. destruct (find _ l) as [o'|] eqn:Ef; [|reflexivity]. apply find_some in Ef. destruct Ef as [I' P]. exfalso.
      assert (Nh' : o_count o' <> Help) by (intros X; rewrite X in P; discriminate).
      apply (H o' I' Nh'). destruct (o_count o'); try discriminate; apply String.eqb_eq; exact P.
    + intros ov I. apply H; [apply J; exact I|]. intros X.
      assert (M : exists ws, means (fst ov) ws (snd ov)).
      { clear - F I. revert I. induction F as [|u x us ovs (A & B & C & D) F IH]; [intros []|]. intros [<-|I]; [exists (u_words u); exact D|exact (IH I)]. }
      destruct M as (ws & M). destruct M; congruence.
Qed.

(** Lines that are understood *)
Lemma parse_good before file after bvs avs : sound l -> Forall2 (stands_for l) before bvs -> Forall2 (stands_for l) after avs -> word l file ->
  (forall b u, before = (b ++ [u])%list -> forall o, In o l -> In (u_name u) (o_names o) -> has_enough o (u_words u)) -> compatible (bvs ++ avs) ->
  exists ns, parse_args int_of float_of (true, l) (written before ++ file :: written after) = Ok ns /\ settings l file (bvs ++ avs) ns.
Proof.
  intros So Fb Fa Wf En Co. assert (Fw : Forall2 (stands_for l) (before ++ after) (bvs ++ avs)) by (apply Forall2_app; assumption).
  apply (compatible_allowed _ _ Fw) in Co. exists (sets avs (set (sets bvs (defaults l)) "filename" (VStr file))). split; [|exact (the_settings _ bvs avs file So Fw)].
  unfold parse_args. destruct before as [|u us].
  - inversion Fb; subst bvs. cbn [written flat_map app] in *. fold (written after). cbn [segments]. rewrite (classify_word l file Wf). cbn [fst snd].
    destruct (run_uses after avs (mkState (set (defaults l) "filename" (VStr file)) (Some file) [] false) Fa Co) as [E1 E2].
    rewrite E1. cbn [give_words st_file st_ns st_seen st_extra orb]. rewrite E2. reflexivity.
  - destruct (run_before (u :: us) file after bvs avs (mkState (defaults l) None [] false) ltac:(discriminate) Fb Fa Wf En Co eq_refl) as [E1 E2].
    rewrite E1. cbn [give_words]. rewrite E2. reflexivity.
Qed.
End One_parser.
End Values.
