From Coq Require Import String.
From Verif Require Import Base Cpx M_ref S_ref M_refdata M_dos L_ref.
Open Scope R_scope.

Fixpoint nodupb (l : list string) : bool := match l with [] => true | x :: r => (negb (existsb (String.eqb x) r) && nodupb r)%bool end.
Lemma nodupb_ok : forall l, nodupb l = true -> NoDup l.
Proof.
  induction l as [|x l IH]; cbn; intros H; [constructor|]. apply andb_prop in H. destruct H as [H1 H2].
  constructor; [|now apply IH]. intros Hi. apply negb_true_iff in H1. 
  assert (existsb (String.eqb x) l = true) by (apply existsb_exists; exists x; split; [exact Hi|apply String.eqb_refl]). congruence.
Qed.
Definition is_real (v : jval) : bool := match v with JFloat _ | JInt _ | JBool _ => true | _ => false end.
Definition has (k : string) (l : list (string * jval)) : bool := existsb (fun p => String.eqb k (fst p)) l.
Definition complexb (l : list (string * jval)) : bool :=
  (negb (has "__complex__" l) || match find "real" l, find "imag" l with Some a, Some b => is_real a && is_real b | _, _ => false end)%bool.
Fixpoint wfb (v : jval) : bool :=
  match v with
  | JObj l => (nodupb (map fst l) && complexb l &&
               (fix all (l : list (string * jval)) : bool := match l with [] => true | p :: r => (wfb (snd p) && all r)%bool end) l)%bool
  | _ => true
  end.
Lemma is_real_ok : forall v, is_real v = true -> exists x, real_number v x.
Proof. intros [x|z|s| |b|l] H; cbn in *; try discriminate; eexists; reflexivity. Qed.
Lemma has_in : forall k l, (exists w, In (k, w) l) -> has k l = true.
Proof. intros k l [w H]. apply existsb_exists. exists (k, w). split; [exact H|apply String.eqb_refl]. Qed.
Lemma wfb_ok : forall v, wfb v = true -> well_formed v.
Proof.
  fix IH 1. intros [x|z|s| |b|l] H; try exact I. cbn in H. apply andb_prop in H. destruct H as [H H3].
  apply andb_prop in H. destruct H as [H1 H2]. cbn [well_formed]. split; [now apply nodupb_ok|]. split.
  - intros Hc. unfold complexb in H2. rewrite (has_in _ _ Hc) in H2. cbn [negb orb] in H2.
    destruct (find "real" l) as [a|] eqn:Ea; [|discriminate]. destruct (find "imag" l) as [b|] eqn:Eb; [|discriminate].
    apply andb_prop in H2. destruct H2 as [Ha Hb]. destruct (is_real_ok _ Ha) as [x Hx]. destruct (is_real_ok _ Hb) as [y Hy].
    exists (mkC x y). split; [exact Hc|]. exists a, b. repeat split; [now apply find_in|now apply find_in|exact Hx|exact Hy].
  - clear H1 H2. induction l as [|p l IHl]; [exact I|]. cbn in H3. apply andb_prop in H3. destruct H3 as [H4 H5].
    split; [now apply IH|now apply IHl].
Qed.
Lemma sears_wf : well_formed sears.
Proof. apply wfb_ok. reflexivity. Qed.
Lemma bluebook_wf : well_formed bluebook.
Proof. apply wfb_ok. reflexivity. Qed.
Lemma no_key : forall k l, has k l = false -> ~ exists w, In (k, w) l.
Proof. intros k l H E. apply has_in in E. congruence. Qed.
Lemma sears_table : property_table sears "coherent_scattering_length" sears_coherent_scattering_length.
Proof.
  eexists _, _. split; [reflexivity|]. split; [apply no_key; reflexivity|]. split; [right; right; left; reflexivity|].
  split; [apply no_key; reflexivity|]. split; [left; reflexivity|apply no_key; reflexivity].
Qed.
Lemma bluebook_coh_table : property_table bluebook "coherent_cross_section" bluebook_coherent_cross_section.
Proof.
  eexists _, _. split; [reflexivity|]. split; [apply no_key; reflexivity|]. split; [right; right; left; reflexivity|].
  split; [apply no_key; reflexivity|]. split; [left; reflexivity|apply no_key; reflexivity].
Qed.
Lemma bluebook_inc_table : property_table bluebook "incoherent_cross_section" bluebook_incoherent_cross_section.
Proof.
  eexists _, _. split; [reflexivity|]. split; [apply no_key; reflexivity|]. split; [right; right; left; reflexivity|].
  split; [apply no_key; reflexivity|]. split; [right; left; reflexivity|apply no_key; reflexivity].
Qed.

Lemma table_nodup : forall file property data, well_formed file -> property_table file property data -> NoDup (map fst data).
Proof.
  intros file property data W [top [props [-> [_ [Ht [_ [Hp _]]]]]]].
  pose proof (wf_all _ W _ Ht) as Wp. pose proof (wf_all _ Wp _ Hp) as Wd. destruct Wd as [N _]. exact N.
Qed.
Section Use.
Context {U : Type}.
Variable unit_of : string -> option U.
(** An entry that is neither a decimal nor complex is not returned. *)
Lemma dropped : forall shipped disk collection property file data s u k v,
  (match shipped collection with Some f => Some f | None => disk collection end) = Some file ->
  well_formed file -> property_table file property data -> In ("__units__"%string, JStr s) data -> unit_of s = Some u ->
  In (k, v) data -> (forall z, ~ decimal_or_complex v z) ->
  exists d, get_reference_data unit_of shipped disk collection property = Ok d /\ ~ In k (map fst d).
Proof.
  intros sh disk coll prop file data s u k v Hf W T Hs Hu Hk Hn.
  destruct (entries unit_of sh disk coll prop file data s u Hf W T Hs Hu) as [d [E [_ B]]].
  exists d. split; [exact E|]. intros Hi. apply in_map_iff in Hi. destruct Hi as [[k' [z u']] [Hkk Hd]]. cbn in Hkk. subst k'.
  apply B in Hd. destruct Hd as [_ [v' [Hv' Hdc]]].
  pose proof (table_nodup _ _ _ W T) as N. apply (find_nodup _ _ _ N) in Hk, Hv'.
  assert (v' = v) by congruence. subst v'. exact (Hn z Hdc).
Qed.
Lemma int_not_decimal : forall n z, ~ decimal_or_complex (JInt n) z.
Proof. intros n z H. exact H. Qed.

Definition whole := ["Sm"; "Th"; "Xe"; "Yb"]%string.
Lemma blue_dropped : forall disk u, unit_of "barn"%string = Some u ->
  exists d, get_reference_data unit_of shipped disk "BlueBook" "incoherent_cross_section" = Ok d /\
    forall k, In k whole -> ~ In k (map fst d) /\ exists n, In (k, JInt n) bluebook_incoherent_cross_section.
Proof.
  intros disk u Hu.
  destruct (entries unit_of shipped disk "BlueBook" "incoherent_cross_section" bluebook bluebook_incoherent_cross_section "barn" u eq_refl bluebook_wf bluebook_inc_table (or_introl eq_refl) Hu) as [d [E _]].
  exists d. split; [exact E|].
  assert (G : forall k n, find k bluebook_incoherent_cross_section = Some (JInt n) -> ~ In k (map fst d) /\ exists n, In (k, JInt n) bluebook_incoherent_cross_section).
  { intros k n F. apply find_in in F. split; [|now exists n].
    destruct (dropped shipped disk "BlueBook" "incoherent_cross_section" bluebook bluebook_incoherent_cross_section "barn" u k (JInt n) eq_refl bluebook_wf bluebook_inc_table (or_introl eq_refl) Hu F (int_not_decimal n)) as [d' [E' H]].
    assert (d' = d) by congruence. now subst. }
  intros k [<-|[<-|[<-|[<-|[]]]]]; eapply G; reflexivity.
Qed.

(** The data set as calculate_pdos sees it *)
Definition as_dataset (name : nat -> string) (d : list (string * (C * U))) (el : nat) : option R :=
  match find (name el) d with Some (z, _) => Some (re z) | None => None end.
Lemma find_not_in {A} : forall k (l : list (string * A)), ~ In k (map fst l) -> find k l = None.
Proof.
  intros k l H. destruct (find k l) as [v|] eqn:E; [|reflexivity]. apply find_in in E. exfalso. apply H. apply (in_map fst) in E. exact E.
Qed.
Lemma blue_pdos : forall disk u, unit_of "barn"%string = Some u ->
  exists d, get_reference_data unit_of shipped disk "BlueBook" "incoherent_cross_section" = Ok d /\
    forall name element a coh k bins e mass widths wmin meth,
      (a < M_dos.n_atoms e)%nat -> In (name (element a)) whole ->
      calculate_pdos_weighted k bins e element mass widths wmin meth (Some Incoherent) (Dataset coh (as_dataset name d)) = Err MissingCrossSection /\
      calculate_pdos_weighted k bins e element mass widths wmin meth (Some Both) (Dataset coh (as_dataset name d)) = Err MissingCrossSection.
Proof.
  intros disk u Hu. destruct (blue_dropped disk u Hu) as [d [E H]]. exists d. split; [exact E|].
  intros name element a coh k bins e mass widths wmin meth Ha Hw.
  assert (F : as_dataset name d (element a) = None).
  { unfold as_dataset. rewrite find_not_in; [reflexivity|]. apply H. exact Hw. }
  assert (G : forall s : nat -> option R, s (element a) = None -> resolve_cs (M_dos.n_atoms e) element s = Err MissingCrossSection).
  { intros s Hs. unfold resolve_cs.
    destruct (forallb (fun a => match s (element a) with Some _ => true | None => false end) (seq 0 (M_dos.n_atoms e))) eqn:B; [|reflexivity].
    rewrite forallb_forall in B. assert (T : In a (seq 0 (M_dos.n_atoms e))) by (apply in_seq; lia). apply B in T. rewrite Hs in T. discriminate. }
  unfold calculate_pdos_weighted, choose_cross_sections. split; rewrite G; try reflexivity; [exact F|].
  rewrite F. destruct (coh (element a)); reflexivity.
Qed.
(** Everything else in the shipped files is there. *)
Definition not_int (v : jval) : Prop := forall n, v <> JInt n.
Lemma rest : forall shipped disk collection property file data s u,
  (match shipped collection with Some f => Some f | None => disk collection end) = Some file ->
  well_formed file -> property_table file property data -> In ("__units__"%string, JStr s) data -> unit_of s = Some u ->
  exists d, get_reference_data unit_of shipped disk collection property = Ok d /\
    forall k v z, In (k, v) data -> number v z -> not_int v -> In (k, (z, u)) d.
Proof.
  intros sh disk coll prop file data s u Hf W T Hs Hu.
  destruct (entries unit_of sh disk coll prop file data s u Hf W T Hs Hu) as [d [E [_ B]]].
  exists d. split; [exact E|]. intros k v z Hk Hz Hn. apply B. split; [reflexivity|]. exists v. split; [exact Hk|].
  destruct v as [x|n| | | |]; try exact Hz. exfalso. exact (Hn n eq_refl).
Qed.
Lemma no_ints : forall data : list (string * jval), forallb (fun p => match snd p with JInt _ => false | _ => true end) data = true ->
  forall k v, In (k, v) data -> not_int v.
Proof. intros data H k v Hk n ->. rewrite forallb_forall in H. apply H in Hk. discriminate. Qed.
Lemma sears_all : forall disk u, unit_of "fm"%string = Some u ->
  exists d, get_reference_data unit_of shipped disk "Sears1992" "coherent_scattering_length" = Ok d /\
    forall k v z, In (k, v) sears_coherent_scattering_length -> number v z -> In (k, (z, u)) d.
Proof.
  intros disk u Hu. destruct (rest shipped disk "Sears1992" "coherent_scattering_length" sears sears_coherent_scattering_length "fm" u eq_refl sears_wf sears_table (or_introl eq_refl) Hu) as [d [E H]].
  exists d. split; [exact E|]. intros k v z Hk Hz. apply (H k v z Hk Hz). eapply no_ints; [|exact Hk]. reflexivity.
Qed.
Lemma blue_all : forall disk u, unit_of "barn"%string = Some u ->
  exists d, get_reference_data unit_of shipped disk "BlueBook" "coherent_cross_section" = Ok d /\
    forall k v z, In (k, v) bluebook_coherent_cross_section -> number v z -> In (k, (z, u)) d.
Proof.
  intros disk u Hu. destruct (rest shipped disk "BlueBook" "coherent_cross_section" bluebook bluebook_coherent_cross_section "barn" u eq_refl bluebook_wf bluebook_coh_table (or_introl eq_refl) Hu) as [d [E H]].
  exists d. split; [exact E|]. intros k v z Hk Hz. apply (H k v z Hk Hz). eapply no_ints; [|exact Hk]. reflexivity.
Qed.

(** Errors *)
Lemma unknown : forall shipped disk collection property, shipped collection = None -> disk collection = None ->
  get_reference_data unit_of shipped disk collection property = Err UnknownCollection.
Proof. intros. unfold get_reference_data. rewrite H, H0. reflexivity. Qed.
Lemma no_property : forall shipped disk collection property file top props,
  (match shipped collection with Some f => Some f | None => disk collection end) = Some file ->
  well_formed file -> file = JObj top -> table top -> In ("physical_property"%string, JObj props) top -> table props ->
  ~ In property (map fst props) -> get_reference_data unit_of shipped disk collection property = Err NoSuchProperty.
Proof.
  intros sh disk coll prop file top props Hf W -> Tt Ht Tp Hn. unfold get_reference_data. rewrite Hf.
  destruct (load_table top W Tt) as [top' [Ft ->]]. cbn [extract].
  destruct (sub_table top top' _ _ W Ft Ht) as [dp [Lp Fp]]. rewrite Fp.
  assert (Wp : well_formed (JObj props)) by exact (wf_all top W _ Ht).
  destruct (load_table props Wp Tp) as [props' [Fps Lps]]. replace dp with (DDict props') by congruence.
  rewrite find_not_in; [reflexivity|]. rewrite (F2_keys _ _ (load_list_F2 _ _ Fps)). exact Hn.
Qed.
Lemma unit_errors : forall shipped disk collection property file data,
  (match shipped collection with Some f => Some f | None => disk collection end) = Some file ->
  well_formed file -> property_table file property data ->
  (~ In "__units__"%string (map fst data) -> get_reference_data unit_of shipped disk collection property = Err NoUnits) /\
  (forall s, In ("__units__"%string, JStr s) data -> unit_of s = None -> get_reference_data unit_of shipped disk collection property = Err BadUnits).
Proof.
  intros sh disk coll prop file data Hf W [top [props [-> [Tt [Ht [Tp [Hp Td]]]]]]].
  unfold get_reference_data. rewrite Hf.
  destruct (load_table top W Tt) as [top' [Ft ->]]. cbn [extract].
  destruct (sub_table top top' _ _ W Ft Ht) as [dp [Lp Fp]]. rewrite Fp.
  assert (Wp : well_formed (JObj props)) by exact (wf_all top W _ Ht).
  destruct (load_table props Wp Tp) as [props' [Fps Lps]]. replace dp with (DDict props') by congruence.
  destruct (sub_table props props' _ _ Wp Fps Hp) as [dd [Ld Fd]]. rewrite Fd.
  assert (Wd : well_formed (JObj data)) by exact (wf_all props Wp _ Hp).
  destruct (load_table data Wd Td) as [data' [Fda Lda]]. replace dd with (DDict data') by congruence.
  split.
  - intros Hn. rewrite find_not_in; [reflexivity|]. rewrite (F2_keys _ _ (load_list_F2 _ _ Fda)). exact Hn.
  - intros s Hs Hu. destruct (sub_table data data' _ _ Wd Fda Hs) as [ds [Ls Fs]]. rewrite Fs. cbn in Ls. injection Ls as <-. rewrite Hu. reflexivity.
Qed.
End Use.
