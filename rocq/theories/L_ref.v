From Coq Require Import String.
From Verif Require Import Base Cpx M_ref S_ref M_refdata.
Open Scope R_scope.

Lemma find_in {A} : forall k (l : list (string * A)) v, find k l = Some v -> In (k, v) l.
Proof.
  intros k l v. induction l as [|[k' v'] l IH]; cbn; [discriminate|].
  destruct (String.eqb_spec k k') as [->|]; [intros [= ->]; now left|]. intros H. right. now apply IH.
Qed.
Lemma find_nodup {A} : forall k (l : list (string * A)) v, NoDup (map fst l) -> In (k, v) l -> find k l = Some v.
Proof.
  intros k l v. induction l as [|[k' v'] l IH]; cbn; intros N H; [easy|].
  inversion N as [|? ? N1 N2]; subst. destruct (String.eqb_spec k k') as [->|D].
  - destruct H as [H|H]; [congruence|]. exfalso. apply N1. apply (in_map fst) in H. exact H.
  - destruct H as [H|H]; [congruence|]. now apply IH.
Qed.
Lemma find_none {A} : forall k (l : list (string * A)), find k l = None -> ~ exists v, In (k, v) l.
Proof.
  intros k l. induction l as [|[k' v'] l IH]; cbn; intros H [v Hv]; [easy|].
  destruct (String.eqb_spec k k') as [->|D]; [discriminate|].
  destruct Hv as [E|Hv]; [congruence|]. apply IH; [exact H|now exists v].
Qed.

(** Loading: entry by entry *)
Definition load_list := fix go (l : list (string * jval)) : res (list (string * dval)) rerr :=
  match l with
  | [] => Ok []
  | (k, x) :: r => match load x with Err e => Err e | Ok y => match go r with Err e => Err e | Ok r' => Ok ((k, y) :: r') end end
  end.
Lemma load_obj : forall l, load (JObj l) = match load_list l with Ok l' => custom_decode l' | Err e => Err e end.
Proof. reflexivity. Qed.
Lemma load_list_F2 : forall l l', load_list l = Ok l' -> Forall2 (fun p q => fst p = fst q /\ load (snd p) = Ok (snd q)) l l'.
Proof.
  induction l as [|[k x] l IH]; cbn; intros l' H; [injection H as <-; constructor|].
  destruct (load x) as [y|e] eqn:E; [|discriminate]. destruct (load_list l) as [r|e] eqn:F; [|discriminate].
  injection H as <-. constructor; [now split|now apply IH].
Qed.
Lemma load_list_ok : forall l, (forall p, In p l -> exists d, load (snd p) = Ok d) -> exists l', load_list l = Ok l'.
Proof.
  induction l as [|[k x] l IH]; cbn; intros H; [now exists []|].
  destruct (H (k, x) (or_introl eq_refl)) as [y E]. cbn in E. rewrite E.
  destruct IH as [r F]; [intros p Hp; apply H; now right|]. rewrite F. now exists ((k, y) :: r).
Qed.
Lemma F2_keys : forall (l : list (string * jval)) (l' : list (string * dval)),
  Forall2 (fun p q => fst p = fst q /\ load (snd p) = Ok (snd q)) l l' -> map fst l' = map fst l.
Proof. induction 1 as [|p q l l' [H _] _ IH]; cbn; congruence. Qed.
Lemma F2_in : forall (l : list (string * jval)) (l' : list (string * dval)) k v,
  Forall2 (fun p q => fst p = fst q /\ load (snd p) = Ok (snd q)) l l' -> In (k, v) l -> exists y, load v = Ok y /\ In (k, y) l'.
Proof.
  induction 1 as [|p q l l' [H E] _ IH]; cbn; [easy|]. intros [->|Hi].
  - destruct q as [k' y]. cbn in *. subst. exists y. split; [exact E|now left].
  - destruct (IH Hi) as [y [A B]]. exists y. split; [exact A|now right].
Qed.
Lemma F2_in' : forall (l : list (string * jval)) (l' : list (string * dval)) k y,
  Forall2 (fun p q => fst p = fst q /\ load (snd p) = Ok (snd q)) l l' -> In (k, y) l' -> exists v, load v = Ok y /\ In (k, v) l.
Proof.
  induction 1 as [|p q l l' [H E] _ IH]; cbn; [easy|]. intros [->|Hi].
  - destruct p as [k' v]. cbn in *. subst. exists v. split; [exact E|now left].
  - destruct (IH Hi) as [v [A B]]. exists v. split; [exact A|now right].
Qed.

Lemma wf_all : forall l, well_formed (JObj l) -> forall p, In p l -> well_formed (snd p).
Proof.
  intros l [_ [_ W]]. induction l as [|q l IH]; intros p Hp; [easy|]. destruct W as [W1 W2].
  destruct Hp as [->|Hp]; [exact W1|]. now apply IH.
Qed.
Lemma load_real : forall v x, real_number v x -> exists y, load v = Ok y /\ real_of y = Some x.
Proof. intros [y|z|s| |b|l] x H; cbn in *; try easy; subst; eexists; split; reflexivity. Qed.
Lemma load_real_inv : forall v y x, load v = Ok y -> real_of y = Some x -> real_number v x.
Proof.
  intros v y x H E. destruct v as [a|a|s| |b|l]; try (cbn in H; injection H as <-; cbn in E; try discriminate; injection E as <-; reflexivity).
  rewrite load_obj in H. destruct (load_list l) as [l'|e]; [|discriminate]. unfold custom_decode in H.
  destruct (find "__complex__" l'); [|injection H as <-; cbn in E; discriminate].
  destruct (find "real" l') as [d1|]; [|discriminate]. destruct (find "imag" l') as [d2|]; [|discriminate].
  destruct (real_of d1); [|discriminate]. destruct (real_of d2); [|discriminate]. injection H as <-. cbn in E. discriminate.
Qed.

(** A well-formed object: a dictionary, or the complex number it stands for *)
Lemma load_object : forall l l', load_list l = Ok l' -> well_formed (JObj l) ->
  (table l /\ load (JObj l) = Ok (DDict l')) \/ (exists z, complex_number (JObj l) z /\ load (JObj l) = Ok (DComplex z)).
Proof.
  intros l l' E W. pose proof (load_list_F2 _ _ E) as F. destruct W as [N [Wc _]].
  assert (N' : NoDup (map fst l')) by (rewrite (F2_keys _ _ F); exact N).
  rewrite load_obj, E. unfold custom_decode. destruct (find "__complex__" l') as [w|] eqn:Fc.
  - right. apply find_in in Fc. destruct (F2_in' _ _ _ _ F Fc) as [v [_ Hv]].
    destruct (Wc (ex_intro _ v Hv)) as [z [Hm [a [b [Ha [Hb [Ra Rb]]]]]]].
    destruct (F2_in _ _ _ _ F Ha) as [ya [La Ia]]. destruct (F2_in _ _ _ _ F Hb) as [yb [Lb Ib]].
    rewrite (find_nodup _ _ _ N' Ia), (find_nodup _ _ _ N' Ib).
    destruct (load_real _ _ Ra) as [y1 [L1 E1]]. destruct (load_real _ _ Rb) as [y2 [L2 E2]].
    replace y1 with ya in E1 by congruence. replace y2 with yb in E2 by congruence. rewrite E1, E2.
    exists z. destruct z as [x y]. split; [|reflexivity].
    split; [exact Hm|]. exists a, b. auto.
  - left. split; [|reflexivity]. intros [w Hw]. destruct (F2_in _ _ _ _ F Hw) as [y [_ Hy]].
    apply (find_none _ _ Fc). now exists y.
Qed.
Lemma load_ok : forall v, well_formed v -> exists d, load v = Ok d.
Proof.
  fix IH 1. intros [x|z|s| |b|l] W; try (eexists; reflexivity).
  assert (L : exists l', load_list l = Ok l').
  { pose proof (wf_all l W) as A. clear W. induction l as [|[k x] l IHl]; [now exists []|].
    destruct (IH x (A (k, x) (or_introl eq_refl))) as [y E].
    destruct IHl as [r F]; [intros p Hp; apply A; now right|].
    exists ((k, y) :: r). cbn. rewrite E. fold load_list. rewrite F. reflexivity. }
  destruct L as [l' E]. destruct (load_object l l' E W) as [[_ ->]|[z [_ ->]]]; eexists; reflexivity.
Qed.

Lemma complex_unique : forall l z z', NoDup (map fst l) -> complex_number (JObj l) z -> complex_number (JObj l) z' -> z = z'.
Proof.
  intros l [x y] [x' y'] N [_ [a [b [Ha [Hb [Ra Rb]]]]]] [_ [a' [b' [Ha' [Hb' [Ra' Rb']]]]]].
  apply (find_nodup _ _ _ N) in Ha, Hb, Ha', Hb'. rewrite Ha in Ha'. rewrite Hb in Hb'.
  injection Ha' as <-. injection Hb' as <-. cbn in *.
  destruct a, b; cbn in *; try easy; subst; reflexivity.
Qed.

Section Main.
Context {U : Type}.
Variable unit_of : string -> option U.
Lemma entry_ok : forall (u : U) v y k z u', well_formed v -> load v = Ok y ->
  In (k, (z, u')) (quantity u (k, y)) <-> u' = u /\ decimal_or_complex v z.
Proof.
  intros u v y k z u' W E. destruct v as [x|n|s| |b|l]; try (cbn in E; injection E as <-; cbn; intuition congruence).
  destruct (load_list l) as [l'|e] eqn:F; [|rewrite load_obj, F in E; discriminate].
  destruct (load_object l l' F W) as [[T E']|[z0 [C0 E']]]; rewrite E' in E; injection E as <-; cbn [quantity snd fst].
  - split; [easy|]. intros [_ [H _]]. now destruct T.
  - split.
    + intros [H|[]]. injection H as -> ->. split; [reflexivity|exact C0].
    + intros [-> H]. left. f_equal. f_equal. destruct W as [N _]. exact (complex_unique l z0 z N C0 H).
Qed.
Lemma quantity_key : forall (u : U) p k q, In (k, q) (quantity u p) -> k = fst p.
Proof. intros u [k' y] k q. destruct y; cbn; intros H; try easy; destruct H as [H|[]]; congruence. Qed.
Lemma extract_list : forall (u : U) l l', (forall p, In p l -> well_formed (snd p)) -> load_list l = Ok l' -> NoDup (map fst l) ->
  NoDup (map fst (flat_map (quantity u) l')) /\
  forall k z u', In (k, (z, u')) (flat_map (quantity u) l') <-> u' = u /\ exists v, In (k, v) l /\ decimal_or_complex v z.
Proof.
  intros u. induction l as [|[k0 x] l IH]; cbn; intros l' W E N.
  - injection E as <-. cbn. split; [constructor|]. intros k z u'. split; [easy|]. intros [_ [v [[] _]]].
  - destruct (load x) as [y|e] eqn:Ex; [|discriminate]. destruct (load_list l) as [r|e] eqn:F; [|discriminate].
    injection E as <-. inversion N as [|? ? N1 N2]; subst.
    destruct (IH r (fun p Hp => W p (or_intror Hp)) eq_refl N2) as [A B].
    assert (Wx : well_formed x) by exact (W (k0, x) (or_introl eq_refl)).
    assert (D : ~ In k0 (map fst (flat_map (quantity u) r))).
    { intros H. apply in_map_iff in H. destruct H as [[k [z u']] [Hk Hin]]. cbn in Hk. subst k.
      apply B in Hin. destruct Hin as [_ [v [Hv _]]]. apply N1. apply (in_map fst) in Hv. exact Hv. }
    cbn [flat_map]. split.
    + rewrite map_app. apply NoDup_app_intro.
      * destruct y; cbn; repeat constructor; easy.
      * exact A.
      * intros k H1 H2. apply in_map_iff in H1. destruct H1 as [[k' q] [Hk Hq]]. cbn in Hk. subst k'.
        apply quantity_key in Hq. cbn in Hq. subst k. now apply D.
    + intros k z u'. rewrite in_app_iff, B. split.
      * intros [H|[-> [v [Hv Hd]]]].
        -- pose proof (quantity_key _ _ _ _ H) as K. cbn in K. subst k. apply (entry_ok u x y k0 z u' Wx Ex) in H.
           destruct H as [-> H]. split; [reflexivity|]. exists x. auto.
        -- split; [reflexivity|]. exists v. auto.
      * intros [-> [v [[Hv|Hv] Hd]]].
        -- injection Hv as <- <-. left. apply (entry_ok u x y k0 z u Wx Ex). auto.
        -- right. split; [reflexivity|]. exists v. auto.
Qed.
Lemma load_table : forall l, well_formed (JObj l) -> table l -> exists l', load_list l = Ok l' /\ load (JObj l) = Ok (DDict l').
Proof.
  intros l W T. destruct (load_ok _ W) as [d E]. destruct (load_list l) as [l'|e] eqn:F; [|rewrite load_obj, F in E; discriminate].
  exists l'. split; [reflexivity|]. destruct (load_object l l' F W) as [[_ H]|[z [[Hc _] _]]]; [exact H|now destruct T].
Qed.
Lemma sub_table : forall l l' k s, well_formed (JObj l) -> load_list l = Ok l' -> In (k, s) l ->
  exists d, load s = Ok d /\ find k l' = Some d.
Proof.
  intros l l' k s W F H. pose proof (load_list_F2 _ _ F) as F2. destruct W as [N _].
  destruct (F2_in _ _ _ _ F2 H) as [y [L I]]. exists y. split; [exact L|].
  apply find_nodup; [rewrite (F2_keys _ _ F2); exact N|exact I].
Qed.

Theorem entries : forall shipped disk collection property file data s u,
  (match shipped collection with Some f => Some f | None => disk collection end) = Some file ->
  well_formed file -> property_table file property data -> In ("__units__"%string, JStr s) data -> unit_of s = Some u ->
  exists d, get_reference_data unit_of shipped disk collection property = Ok d /\ NoDup (map fst d) /\
    forall k z u', In (k, (z, u')) d <-> u' = u /\ exists v, In (k, v) data /\ decimal_or_complex v z.
Proof.
  intros shipped disk coll prop file data s u Hf W [top [props [-> [Tt [Ht [Tp [Hp Td]]]]]]] Hs Hu.
  unfold get_reference_data. rewrite Hf.
  destruct (load_table top W Tt) as [top' [Ft ->]]. cbn [extract].
  destruct (sub_table top top' _ _ W Ft Ht) as [dp [Lp Fp]]. rewrite Fp.
  assert (Wp : well_formed (JObj props)) by exact (wf_all top W _ Ht).
  destruct (load_table props Wp Tp) as [props' [Fps Lps]]. replace dp with (DDict props') by congruence.
  destruct (sub_table props props' _ _ Wp Fps Hp) as [dd [Ld Fd]]. rewrite Fd.
  assert (Wd : well_formed (JObj data)) by exact (wf_all props Wp _ Hp).
  destruct (load_table data Wd Td) as [data' [Fda Lda]]. replace dd with (DDict data') by congruence.
  destruct (sub_table data data' _ _ Wd Fda Hs) as [ds [Ls Fs]]. rewrite Fs. cbn in Ls. injection Ls as <-. rewrite Hu.
  eexists. split; [reflexivity|]. apply (extract_list u data data'); [exact (wf_all data Wd)|exact Fda|]. destruct Wd as [N _]. exact N.
Qed.
End Main.
