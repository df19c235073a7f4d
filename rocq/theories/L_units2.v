(** Attributes, assignments and scaling (C17, C33, C59). *)
From Coq Require Import String.
From Verif Require Import Base M_units S_units L_units.
Open Scope R_scope.

Section U.
Variables h c : R.
Hypothesis Hh : 0 < h.
Hypothesis Hc : 0 < c.

Lemma all_some_ok (f : R -> option R) l : (forall x, In x l -> exists y, f x = Some y) ->
  exists r, all_some (map f l) = Some r /\ length r = length l /\ forall i, (i < length l)%nat -> f (nth i l 0) = Some (nth i r 0).
Proof.
  induction l as [|x l IH]; intros H; [exists []; repeat split; intros i Hi; cbn in Hi; lia|].
  destruct (H x (or_introl eq_refl)) as [y Ey]. destruct IH as (r & Er & Lr & Nr); [intros z I; apply H; right; exact I|].
  exists (y :: r). cbn [map all_some]. rewrite Ey, Er. split; [reflexivity|]. split; [cbn; lia|].
  intros [|i] Hi; [exact Ey|]. cbn [nth]. apply Nr. cbn in Hi. lia.
Qed.
Lemma all_some_inv (f : R -> option R) l r : all_some (map f l) = Some r ->
  length r = length l /\ forall i, (i < length l)%nat -> f (nth i l 0) = Some (nth i r 0).
Proof.
  revert r. induction l as [|x l IH]; intros r H; cbn [map all_some] in H.
  - injection H as <-. split; [reflexivity|intros i Hi; cbn in Hi; lia].
  - destruct (f x) as [y|] eqn:Ey; [|discriminate]. destruct (all_some (map f l)) as [r'|] eqn:Er; [|discriminate]. injection H as <-.
    destruct (IH r' eq_refl) as [L N]. split; [cbn; lia|]. intros [|i] Hi; [exact Ey|]. cbn [nth]. apply N. cbn in Hi. lia.
Qed.
Lemma conv_inv f l r : conv_array f l = Ok r -> length r = length l /\ forall i, (i < length l)%nat -> f (nth i l 0) = Some (nth i r 0).
Proof. unfold conv_array. destruct (all_some (map f l)) eqn:E; [|discriminate]. intros H. injection H as <-. apply all_some_inv. exact E. Qed.

Lemma recip_ok k : in_recip k = true -> spectroscopic k.
Proof. apply in_recip_iff. Qed.
Lemma plain_ok k : in_plain k = true -> spectroscopic k.
Proof. destruct k; cbn; auto; discriminate. Qed.

(** ** Showing *)
Lemma spectral_shows a : usable a -> exists q, get_spectral h c a = Ok q /\ shows h c a q.
Proof.
  intros (P1 & P2 & Co & Sd). unfold get_spectral, conv_array.
  destruct (all_some_ok (to_recip h c (stored a) (shown a)) (raw a)) as (r & Er & Lr & Nr).
  { intros x _. apply convert_compat. exact Co. }
  rewrite Er. eexists. split; [reflexivity|]. split; [reflexivity|]. cbn [qmag qunit]. split; [exact Lr|].
  intros i Hi. apply (convert_photon h c Hh Hc in_recip _ _ _ _ P1 P2 (Nr i Hi)); [|exact recip_ok].
  destruct Sd as [Sd|Sd]; [left; exact Sd|right; apply Sd; apply nth_In; exact Hi].
Qed.

Lemma assign_units_keeps us : forall a, raw (assign_units h c a us) = raw a /\ stored (assign_units h c a us) = stored a /\
  compatible (shown a) (shown (assign_units h c a us)) /\
  (shown (assign_units h c a us) = shown a \/ In (shown (assign_units h c a us)) us).
Proof.
  induction us as [|u us IH]; intros a; cbn [assign_units fold_left].
  - split; [reflexivity|]. split; [reflexivity|]. split; [apply compat_refl|left; reflexivity].
  - fold (assign_units h c (fst (set_unit h c a u)) us). destruct (IH (fst (set_unit h c a u))) as (A & B & D & F).
    unfold set_unit in *. destruct (to_recip h c (shown a) u 1) as [y|] eqn:E; cbn [fst raw stored shown] in *.
    + assert (Co : compatible (shown a) u) by (apply (convert_compat h c _ _ 1); eauto).
      split; [exact A|]. split; [exact B|]. split; [apply (compat_trans _ u); assumption|]. right. destruct F as [F|F]; [left; congruence|right; exact F].
    + split; [exact A|]. split; [exact B|]. split; [exact D|]. destruct F as [F|F]; [left; exact F|right; right; exact F].
Qed.
Lemma history_shows a us : usable a -> (forall u, In u us -> proper u) -> (forall x, In x (raw a) -> x <> 0) ->
  exists q, get_spectral h c (assign_units h c a us) = Ok q /\ length (qmag q) = length (raw a) /\
  forall i, (i < length (raw a))%nat -> same_value h c (stored a) (nth i (raw a) 0) (qunit q) (nth i (qmag q) 0).
Proof.
  intros (P1 & P2 & Co & _) Pu Nz. destruct (assign_units_keeps us a) as (A & B & D & F).
  destruct (spectral_shows (assign_units h c a us)) as (q & Eq & Sq & Lq & Nq).
  { split; [rewrite B; exact P1|]. split; [destruct F as [F|F]; [rewrite F; exact P2|apply Pu; exact F]|].
    split; [rewrite B; apply (compat_trans _ (shown a)); assumption|]. right. rewrite A. exact Nz. }
  exists q. split; [exact Eq|]. rewrite A in Lq, Nq. rewrite B in Nq. split; assumption.
Qed.

(** What [to_plain] accepts. *)
Lemma plain_iff k : in_plain k = true <-> plain_kind k.
Proof. destruct k; cbn; split; auto; try discriminate; intros []. Qed.
Lemma plain_some u v x : plain_compatible u v -> exists y, to_plain h c u v x = Some y.
Proof.
  intros [E|[A B]]; unfold to_plain, convert; [rewrite (proj2 (kind_eqb_spec _ _) E); eauto|].
  destruct (kind_eqb (ukind u) (ukind v)); [eauto|]. rewrite (proj2 (plain_iff _) A), (proj2 (plain_iff _) B). cbn [andb]. eauto.
Qed.
Lemma plain_none u v x : ~ plain_compatible u v -> to_plain h c u v x = None.
Proof.
  intros N. unfold to_plain, convert. destruct (kind_eqb (ukind u) (ukind v)) eqn:K; [exfalso; apply N; left; apply kind_eqb_spec; exact K|].
  destruct (in_plain (ukind u)) eqn:A; [|reflexivity]. destruct (in_plain (ukind v)) eqn:B; [|reflexivity]. exfalso. apply N. right. split; apply plain_iff; assumption.
Qed.

(** On one side a conversion is a constant factor. *)
Lemma convert_linear con u v x y : same_side u v -> proper u -> proper v -> convert h c con u v 1 = Some y -> convert h c con u v x = Some (x * y).
Proof.
  unfold convert, same_side, proper. destruct u as [un uk uf], v as [vn vk vf]. cbn [ukind ufac]. intros Sd Pu Pv E.
  destruct (kind_eqb uk vk); [injection E as <-; f_equal; field; lra|].
  destruct (con uk && con vk)%bool; [|discriminate]. injection E as <-. f_equal.
  destruct (Req_dec x 0) as [Zx|Zx].
  - subst x. destruct uk, vk; cbn in Sd; try discriminate; cbn [to_energy from_energy]; unfold Rdiv;
      rewrite ?Rmult_0_l, ?Rinv_0, ?Rmult_0_r, ?Rmult_0_l, ?Rinv_0, ?Rmult_0_r, ?Rmult_0_l, ?Rinv_0, ?Rmult_0_r, ?Rmult_0_l; reflexivity.
  - destruct uk, vk; cbn in Sd; try discriminate; cbn [to_energy from_energy]; field; repeat split; lra.
Qed.

Lemma plain_shows a : proper (stored a) -> proper (shown a) -> same_side (stored a) (shown a) -> plain_compatible (stored a) (shown a) ->
  exists q, get_plain h c a = Ok q /\ shows h c a q.
Proof.
  intros P1 P2 Sd Pc. unfold get_plain. destruct (plain_some _ _ 1 Pc) as [f Ef]. rewrite Ef. eexists. split; [reflexivity|].
  split; [reflexivity|]. cbn [qmag qunit]. split; [apply map_length|]. intros i Hi.
  rewrite (map_nth_indep _ _ _ 0 0) by exact Hi.
  apply (convert_photon h c Hh Hc in_plain); [exact P1|exact P2|apply convert_linear; assumption|left; exact Sd|exact plain_ok].
Qed.

(** ** Assignment *)
Lemma set_unit_spec a u : (compatible (shown a) u /\ set_unit h c a u = (mkA (raw a) (stored a) u, None)) \/
  (~ compatible (shown a) u /\ set_unit h c a u = (a, Some BadUnit)).
Proof.
  unfold set_unit. destruct (to_recip h c (shown a) u 1) as [y|] eqn:E.
  - left. split; [apply (convert_compat h c _ _ 1); eauto|reflexivity].
  - right. split; [|reflexivity]. intros Co. apply (convert_compat h c _ _ 1) in Co. destruct Co as [y Ey]. congruence.
Qed.

(** Converting there and back. *)
Lemma back_and_forth con con' u v x y z : proper u -> proper v -> convert h c con u v x = Some y -> convert h c con' v u y = Some z ->
  (same_side u v \/ x <> 0) -> z = x.
Proof.
  unfold convert, same_side, proper. destruct u as [un uk uf], v as [vn vk vf]. cbn [ukind ufac]. intros Pu Pv E F Sd.
  assert (K : kind_eqb vk uk = kind_eqb uk vk).
  { destruct (kind_eqb uk vk) eqn:K; [apply kind_eqb_spec in K; subst; apply kind_eqb_spec; reflexivity|].
    destruct (kind_eqb vk uk) eqn:K2; [|reflexivity]. apply kind_eqb_spec in K2. subst. rewrite (proj2 (kind_eqb_spec uk uk) eq_refl) in K. discriminate. }
  rewrite K in F. destruct (kind_eqb uk vk) eqn:Ku; [injection E as <-; injection F as <-; field; lra|].
  destruct (con uk && con vk)%bool; [|discriminate]. destruct (con' vk && con' uk)%bool; [|discriminate]. injection E as <-. injection F as <-.
  destruct (Req_dec x 0) as [Zx|Zx].
  - subst x. destruct Sd as [Sd|Sd]; [|congruence]. destruct uk, vk; cbn in Sd; try discriminate; cbn [to_energy from_energy]; unfold Rdiv;
      rewrite ?Rmult_0_l, ?Rinv_0, ?Rmult_0_r, ?Rmult_0_l, ?Rinv_0, ?Rmult_0_r, ?Rmult_0_l, ?Rinv_0, ?Rmult_0_r, ?Rmult_0_l, ?Rinv_0, ?Rmult_0_r, ?Rmult_0_l, ?Rinv_0, ?Rmult_0_r, ?Rmult_0_l, ?Rinv_0; try reflexivity.
    all: cbn in Ku; try discriminate; try (injection Sd as ->; rewrite Nat.eqb_refl in Ku; discriminate).
  - destruct uk, vk; cbn in Ku; try discriminate; cbn [to_energy from_energy]; field; repeat split; try lra.
Qed.

Lemma assign_read a q a' : assign h c a q = (a', None) -> proper (stored a) -> proper (qunit q) ->
  (same_side (stored a) (qunit q) \/ forall x, In x (qmag q) -> x <> 0) ->
  stored a' = stored a /\ shown a' = qunit q /\ length (raw a') = length (qmag q) /\ get_spectral h c a' = Ok q.
Proof.
  unfold assign. intros E P1 P2 Sd. destruct (set_unit_spec a (qunit q)) as [[Co Es]|[_ Es]]; rewrite Es in E; [|discriminate].
  cbn [stored] in E. destruct (conv_array _ _) as [r|] eqn:Er; [|discriminate]. injection E as <-. cbn [stored shown raw].
  destruct (conv_inv _ _ _ Er) as [Lr Nr]. split; [reflexivity|]. split; [reflexivity|]. split; [exact Lr|].
  unfold get_spectral. cbn [stored shown raw]. unfold conv_array.
  assert (Pc : forall x, In x r -> exists y, to_recip h c (stored a) (qunit q) x = Some y).
  { intros x Ix. destruct (In_nth _ _ 0 Ix) as (i & Hi & Ei). rewrite Lr in Hi. specialize (Nr i Hi).
    apply convert_compat. unfold compatible. unfold to_plain, convert in Nr.
    destruct (kind_eqb (ukind (qunit q)) (ukind (stored a))) eqn:K; [apply kind_eqb_spec in K; left; congruence|].
    destruct (in_plain (ukind (qunit q))) eqn:A; [|discriminate]. destruct (in_plain (ukind (stored a))) eqn:B; [|discriminate].
    right. split; apply plain_ok; assumption. }
  destruct (all_some_ok (to_recip h c (stored a) (qunit q)) r Pc) as (r' & Er' & Lr' & Nr'). rewrite Er'. f_equal.
  destruct q as [m u]. cbn [qmag qunit] in *. f_equal. apply (nth_ext _ _ 0 0); [lia|]. intros i Hi.
  rewrite Lr' in Hi. specialize (Nr' i Hi). rewrite Lr in Hi. specialize (Nr i Hi).
  apply (back_and_forth in_plain in_recip u (stored a) _ _ _ P2 P1 Nr Nr').
  destruct Sd as [Sd|Sd]; [left; symmetry; exact Sd|right; apply Sd, nth_In; exact Hi].
Qed.

Lemma assign_read_plain a q a' : assign h c a q = (a', None) -> proper (stored a) -> proper (qunit q) -> same_side (stored a) (qunit q) ->
  (qmag q <> []) -> get_plain h c a' = Ok q.
Proof.
  intros E P1 P2 Sd Ne. destruct (assign_read a q a' E P1 P2 (or_introl Sd)) as (S1 & S2 & S3 & G).
  unfold get_plain. rewrite S1, S2. unfold assign in E. destruct (set_unit_spec a (qunit q)) as [[Co Es]|[_ Es]]; rewrite Es in E; [|discriminate].
  cbn [stored] in E. destruct (conv_array _ _) as [r|] eqn:Er; [|discriminate]. injection E as <-. cbn [raw stored shown] in *.
  destruct (conv_inv _ _ _ Er) as [Lr Nr]. 
  assert (Pc : plain_compatible (stored a) (qunit q)).
  { destruct (qmag q) as [|x m] eqn:Em; [congruence|]. specialize (Nr 0%nat ltac:(cbn; lia)). unfold to_plain, convert in Nr.
    destruct (kind_eqb (ukind (qunit q)) (ukind (stored a))) eqn:K; [apply kind_eqb_spec in K; left; congruence|].
    destruct (in_plain (ukind (qunit q))) eqn:A; [|discriminate]. destruct (in_plain (ukind (stored a))) eqn:B; [|discriminate]. right. split; apply plain_iff; assumption. }
  destruct (plain_some _ _ 1 Pc) as [f Ef]. rewrite Ef. f_equal. destruct q as [m u]. cbn [qmag qunit] in *. f_equal.
  apply (nth_ext _ _ 0 0); [rewrite map_length; lia|]. intros i Hi. rewrite map_length in Hi. rewrite (map_nth_indep _ _ _ 0 0) by exact Hi.
  rewrite Lr in Hi. specialize (Nr i Hi).
  apply (back_and_forth in_plain in_plain u (stored a) _ _ _ P2 P1 Nr); [apply convert_linear; assumption|left; symmetry; exact Sd].
Qed.

Lemma failed_assign a q : usable a -> compatible (shown a) (qunit q) -> ~ plain_compatible (qunit q) (stored a) -> qmag q <> [] ->
  assign h c a q = (mkA (raw a) (stored a) (qunit q), Some Dimensionality).
Proof.
  intros _ Co N Ne. unfold assign. destruct (set_unit_spec a (qunit q)) as [[_ Es]|[Nc _]]; [|contradiction]. rewrite Es. cbn [stored].
  destruct (qmag q) as [|x m]; [congruence|]. unfold conv_array. cbn [map all_some]. rewrite plain_none by exact N. reflexivity.
Qed.

(** ** Scaling *)
Lemma scaled_shows a k q : same_side (stored a) (shown a) -> proper (stored a) -> proper (shown a) -> get_spectral h c a = Ok q ->
  get_spectral h c (scale_raw a k) = Ok (scale_q q k).
Proof.
  intros Sd P1 P2 E. unfold get_spectral in *. cbn [scale_raw stored shown raw].
  destruct (conv_array (to_recip h c (stored a) (shown a)) (raw a)) as [r|] eqn:Er; [|discriminate]. injection E as <-. unfold scale_q. cbn [qmag qunit].
  destruct (conv_inv _ _ _ Er) as [Lr Nr]. unfold conv_array.
  destruct (all_some_ok (to_recip h c (stored a) (shown a)) (map (fun x => x * k) (raw a))) as (r' & Er' & Lr' & Nr').
  { intros x Ix. destruct (raw a) as [|x0 l] eqn:El; [destruct Ix|]. specialize (Nr 0%nat ltac:(cbn; lia)).
    apply convert_compat. apply (convert_compat h c _ _ (nth 0 (x0 :: l) 0)). eauto. }
  rewrite Er'. f_equal. f_equal. rewrite map_length in *. apply (nth_ext _ _ 0 0); [rewrite map_length; lia|].
  intros i Hi. rewrite Lr' in Hi. specialize (Nr' i Hi). specialize (Nr i Hi). rewrite (map_nth_indep _ _ _ 0 0) in Nr' by exact Hi.
  rewrite (map_nth_indep _ _ _ 0 0) by lia.
  assert (Cp : compatible (stored a) (shown a)) by (apply (convert_compat h c _ _ (nth i (raw a) 0)); eauto).
  destruct (proj2 (convert_compat h c (stored a) (shown a) 1) Cp) as [f Ef].
  unfold to_recip in *. rewrite (convert_linear in_recip _ _ _ f Sd P1 P2 Ef) in Nr. rewrite (convert_linear in_recip _ _ _ f Sd P1 P2 Ef) in Nr'. injection Nr as <-. injection Nr' as <-. ring.
Qed.

Lemma set_data_shown q : proper (qunit q) -> get_spectral h c (set_data q) = Ok q.
Proof.
  intros P. unfold get_spectral, set_data. cbn [stored shown raw]. unfold conv_array.
  destruct (all_some_ok (to_recip h c (qunit q) (qunit q)) (qmag q)) as (r & Er & Lr & Nr).
  { intros x _. apply convert_compat. apply compat_refl. }
  rewrite Er. f_equal. destruct q as [m u]. cbn [qmag qunit] in *. f_equal. apply (nth_ext _ _ 0 0); [exact Lr|]. intros i Hi. rewrite Lr in Hi.
  specialize (Nr i Hi). unfold to_recip, convert in Nr. rewrite (proj2 (kind_eqb_spec _ _) eq_refl) in Nr. injection Nr as <-. unfold proper in P. cbn in P. field. lra.
Qed.
Lemma get_unit a q : get_spectral h c a = Ok q -> qunit q = shown a.
Proof. unfold get_spectral. destruct (conv_array _ _); [|discriminate]. intros E. injection E as <-. reflexivity. Qed.

Lemma assign_self a q k : get_spectral h c a = Ok q -> proper (stored a) -> proper (shown a) -> same_side (stored a) (shown a) ->
  plain_compatible (stored a) (shown a) -> exists a', assign h c a (scale_q q k) = (a', None) /\ get_spectral h c a' = Ok (scale_q q k).
Proof.
  intros E P1 P2 Sd Pc. pose proof (get_unit a q E) as Eu.
  assert (Ex : exists a', assign h c a (scale_q q k) = (a', None)).
  { unfold assign. destruct (set_unit_spec a (qunit (scale_q q k))) as [[_ Es]|[Nc _]].
    2:{ exfalso. apply Nc. cbn. rewrite Eu. apply compat_refl. }
    rewrite Es. cbn [stored scale_q qunit qmag]. unfold conv_array.
    destruct (all_some_ok (to_plain h c (qunit q) (stored a)) (map (fun x => x * k) (qmag q))) as (r & Er & _).
    { intros x _. apply plain_some. rewrite Eu. destruct Pc as [K|[A B]]; [left; congruence|right; tauto]. }
    rewrite Er. eauto. }
  destruct Ex as [a' Ea]. exists a'. split; [exact Ea|].
  destruct (assign_read a (scale_q q k) a' Ea P1) as (_ & _ & _ & G); [cbn; rewrite Eu; exact P2|left; cbn; rewrite Eu; exact Sd|exact G].
Qed.

Lemma imul_ok s k q : scls s <> TwoColl -> get_spectral h c (intensity s) = Ok q ->
  proper (stored (intensity s)) -> proper (shown (intensity s)) -> same_side (stored (intensity s)) (shown (intensity s)) ->
  plain_compatible (stored (intensity s)) (shown (intensity s)) ->
  exists s', imul h c s k = (s', None) /\ scls s' = scls s /\ get_spectral h c (intensity s') = Ok (scale_q q k) /\ same_axes_shown h c s s'.
Proof.
  destruct s as [cl x y z]. unfold intensity, imul, same_axes_shown. cbn [scls sx sy sz]. intros Nc E P1 P2 Sd Pc. destruct cl; try congruence.
  - eexists. split; [reflexivity|]. cbn [scls sx sy sz]. split; [reflexivity|]. split; [apply scaled_shows; assumption|]. split; [reflexivity|exact I].
  - eexists. split; [reflexivity|]. cbn [scls sx sy sz]. split; [reflexivity|]. split; [apply scaled_shows; assumption|]. split; [reflexivity|exact I].
  - rewrite E. destruct (assign_self z q k E P1 P2 Sd Pc) as (z' & Ea & G). rewrite Ea.
    eexists. split; [reflexivity|]. cbn [scls sx sy sz]. split; [reflexivity|]. split; [exact G|]. split; reflexivity.
Qed.

Lemma copy_ok s : usable (sx s) -> usable (sy s) -> usable (sz s) ->
  exists t, copy h c s = Ok t /\ scls t = scls s /\ get_spectral h c (sx t) = get_spectral h c (sx s) /\
  get_spectral h c (sy t) = get_spectral h c (sy s) /\ get_spectral h c (intensity t) = get_spectral h c (intensity s) /\
  shown (intensity t) = shown (intensity s) /\ stored (intensity t) = shown (intensity s).
Proof.
  intros Ux Uy Uz. destruct (spectral_shows _ Ux) as (qx & Ex & Sx & _). destruct (spectral_shows _ Uy) as (qy & Ey & Sy & _).
  destruct (spectral_shows _ Uz) as (qz & Ez & Sz & _). destruct Ux as (_ & Px & _). destruct Uy as (_ & Py & _). destruct Uz as (_ & Pz & _).
  unfold copy. rewrite Ex, Ey, Ez.
  assert (Gx : get_spectral h c (set_data qx) = Ok qx) by (apply set_data_shown; rewrite Sx; exact Px).
  assert (Gy : get_spectral h c (set_data qy) = Ok qy) by (apply set_data_shown; rewrite Sy; exact Py).
  assert (Gz : get_spectral h c (set_data qz) = Ok qz) by (apply set_data_shown; rewrite Sz; exact Pz).
  destruct s as [cl x y z]. unfold intensity. cbn [scls sx sy sz] in *.
  destruct cl; (eexists; split; [reflexivity|]); cbn [scls sx sy sz]; rewrite ?Ex, ?Ey, ?Ez; repeat split; try assumption; try reflexivity.
Qed.

Lemma mul_ok s k q : scls s <> TwoColl -> usable (sx s) -> usable (sy s) -> usable (sz s) -> get_spectral h c (intensity s) = Ok q ->
  exists s', mul h c s k = Ok s' /\ scls s' = scls s /\ get_spectral h c (intensity s') = Ok (scale_q q k) /\ same_axes_shown h c s s'.
Proof.
  intros Nc Ux Uy Uz E. destruct (copy_ok s Ux Uy Uz) as (t & Et & Ct & Gx & Gy & Gi & Sh & St). unfold mul. rewrite Et.
  assert (Pi : proper (shown (intensity s))) by (unfold intensity; destruct (scls s); [apply Uy|apply Uy|apply Uz|apply Uz]).
  destruct (imul_ok t k q) as (s' & Ei & Cs & Gs & Ax).
  - congruence.
  - congruence.
  - rewrite St. exact Pi.
  - rewrite Sh. exact Pi.
  - rewrite St, Sh. reflexivity.
  - rewrite St, Sh. left. reflexivity.
  - exists s'. rewrite Ei. split; [reflexivity|]. split; [congruence|]. split; [exact Gs|]. unfold same_axes_shown in *. rewrite Ct in Ax.
    destruct (scls s); (split; [destruct Ax; congruence|]); try exact I; destruct Ax; congruence.
Qed.

Lemma coll2d_imul s k : scls s = TwoColl -> exists s', imul h c s k = (s', None) /\ sz s' = sz s /\ sy s' = scale_raw (sy s) k.
Proof. intros E. unfold imul. rewrite E. eexists. split; [reflexivity|]. split; reflexivity. Qed.

(** ** Collections *)
Lemma map_res_ok {A B} (f : A -> res B uerr) l : (forall a, In a l -> exists b, f a = Ok b) ->
  exists bs, map_res f l = Ok bs /\ length bs = length l /\ forall i da db, (i < length l)%nat -> f (nth i l da) = Ok (nth i bs db).
Proof.
  induction l as [|a l IH]; intros H; [exists []; repeat split; intros i da db Hi; cbn in Hi; lia|].
  destruct (H a (or_introl eq_refl)) as [b Eb]. destruct IH as (bs & E & L & N); [intros x I; apply H; right; exact I|].
  exists (b :: bs). cbn [map_res]. rewrite Eb, E. split; [reflexivity|]. split; [cbn; lia|]. intros [|i] da db Hi; [exact Eb|]. cbn [nth]. apply N. cbn in Hi. lia.
Qed.
Lemma lines_1d_ok ys u : ys <> [] -> (forall y, In y ys -> usable y /\ shown y = u) ->
  exists ls, lines_1d h c ys = Ok (ls, u) /\ shown_lines h c ys u ls.
Proof.
  intros Ne H. unfold lines_1d. destruct ys as [|y0 rest]; [congruence|].
  replace (forallb _ rest) with true.
  2:{ symmetry. apply forallb_forall. intros y I. unfold same_unit. apply String.eqb_eq.
      rewrite (proj2 (H y (or_intror I))), (proj2 (H y0 (or_introl eq_refl))). reflexivity. }
  set (ys := y0 :: rest) in *.
  destruct (map_res_ok (get_spectral h c) ys) as (qs & E & L & N).
  { intros y I. destruct (spectral_shows y (proj1 (H y I))) as (q & Eq & _). eauto. }
  rewrite E. exists (map qmag qs). rewrite (proj2 (H y0 (or_introl eq_refl))). split; [reflexivity|]. split; [rewrite map_length; exact L|].
  intros i d Hi. pose proof (N i d (mkQ [] u) Hi) as Ni. rewrite Ni. f_equal.
  rewrite (map_nth_indep _ _ _ (mkQ [] u) []) by lia. pose proof (get_unit _ _ Ni) as Gu. destruct (nth i qs (mkQ [] u)) as [m v]. cbn [qunit qmag] in *.
  rewrite Gu. f_equal. apply H. apply nth_In. exact Hi.
Qed.

(** ** Witnesses *)
Definition angstrom := mkU "angstrom" Length 1.
Definition per_angstrom := mkU "1/angstrom" Wavenum 1.
Definition second := mkU "second" Time 1.
Definition gram := mkU "gram" (Other 0) 1.
Definition mev := mkU "meV" Energy 1.
Definition ev := mkU "eV" Energy 1000.
Definition per_mev := mkU "1/meV" InvEnergy 1.

Lemma w_failed : let a := mkA [1] per_mev per_mev in let q := mkQ [2] angstrom in
  usable a /\ proper (qunit q) /\ compatible (shown a) (qunit q) /\
  assign h c a q = (mkA [1] per_mev angstrom, Some Dimensionality).
Proof.
  cbn zeta. assert (U : usable (mkA [1] per_mev per_mev)).
  { split; [cbv; lra|]. split; [cbv; lra|]. split; [left; reflexivity|left; reflexivity]. }
  split; [exact U|]. split; [cbv; lra|]. split; [right; split; exact I|].
  apply (failed_assign (mkA [1] per_mev per_mev) (mkQ [2] angstrom) U); [right; split; exact I| |discriminate].
  intros [E|[_ []]]. discriminate.
Qed.

Lemma inverse_side x : x <> 0 -> x * x <> 1 ->
  let a := mkA [x] angstrom angstrom in
  exists a' q, set_unit h c a per_angstrom = (a', None) /\ get_plain h c a' = Ok q /\ ~ same_value h c (stored a) (nth 0 (raw a) 0) (qunit q) (nth 0 (qmag q) 0).
Proof.
  intros Nx Nx2. cbn zeta. eexists. eexists. split; [reflexivity|]. split; [reflexivity|]. cbn [stored raw nth qunit qmag map].
  intros [_ E]. unfold photon in E. cbn in E. apply Nx2.
  assert (F : h * (c / x) = h * (c * x)).
  { replace (c / x) with (c / (x * 1)) by (f_equal; ring). rewrite E. field. repeat split; lra. }
  apply (Rmult_eq_reg_l (h * c)); [|apply Rgt_not_eq; nra]. replace (h * c * (x * x)) with (x * (h * (c * x))) by ring. rewrite <- F. field. exact Nx.
Qed.

Lemma w_unreadable : let a := mkA [1] angstrom angstrom in
  exists a', set_unit h c a second = (a', None) /\ get_plain h c a' = Err Dimensionality.
Proof. cbn zeta. eexists. split; reflexivity. Qed.

Lemma w_unchecked x : let a := mkA [x] per_mev per_mev in ~ compatible (shown a) gram /\
  exists a', set_unit_unchecked a gram = (a', None) /\ get_spectral h c a' = Err Dimensionality.
Proof. cbn zeta. split; [intros [E|[_ []]]; discriminate|]. eexists. split; reflexivity. Qed.

Lemma w_scale_inverse k : k <> 0 -> k * k <> 1 -> let y := mkA [1] angstrom per_angstrom in let s := mkSp One (mkA [] mev mev) y y in
  usable y /\ exists q s' q', get_spectral h c (intensity s) = Ok q /\ imul h c s k = (s', None) /\ get_spectral h c (intensity s') = Ok q' /\
  q' = scale_q q (/ k) /\ q' <> scale_q q k.
Proof.
  intros Nk Nk2. cbn zeta. split.
  { split; [cbv; lra|]. split; [cbv; lra|]. split; [right; split; exact I|]. right. intros x [E|[]]. subst x. apply Rgt_not_eq. lra. }
  eexists. eexists. eexists. split; [reflexivity|]. split; [reflexivity|]. split; [reflexivity|]. unfold scale_q.
  cbn. split.
  - f_equal. f_equal. field. repeat split; lra.
  - intros E. injection E as E. apply Nk2. assert (F : / k = k).
    { replace (/ k) with (h * c / (1 * k * 1) / (h * c) / 1) by (field; repeat split; lra). rewrite E. field. repeat split; lra. }
    rewrite <- F at 1. apply Rinv_l. exact Nk.
Qed.

Lemma coll2d_scale s k q : scls s = TwoColl -> get_spectral h c (intensity s) = Ok q -> (exists x, In x (qmag q) /\ x <> 0) -> k <> 1 ->
  exists s', imul h c s k = (s', None) /\ get_spectral h c (intensity s') = Ok q /\ q <> scale_q q k /\ sy s' = scale_raw (sy s) k.
Proof.
  intros Cl E (x & Ix & Nx) Nk. destruct (coll2d_imul s k Cl) as (s' & Ei & Ez & Ey). exists s'. split; [exact Ei|].
  assert (Cl' : scls s' = TwoColl) by (unfold imul in Ei; rewrite Cl in Ei; injection Ei as <-; reflexivity).
  unfold intensity in *. rewrite Cl in E. rewrite Cl', Ez. split; [exact E|]. split; [|exact Ey].
  intros F. destruct q as [m u]. unfold scale_q in F. cbn [qmag qunit] in *. injection F as F. destruct (In_nth _ _ 0 Ix) as (i & Hi & Ex).
  assert (G : nth i m 0 = nth i m 0 * k) by (rewrite F at 1; apply (map_nth_indep (fun x => x * k) m i 0 0); exact Hi).
  rewrite Ex in G. apply Nk. apply (Rmult_eq_reg_l x); [lra|exact Nx].
Qed.
Lemma coll2d_mul s k q qy : scls s = TwoColl -> usable (sx s) -> usable (sy s) -> usable (sz s) -> get_spectral h c (intensity s) = Ok q ->
  get_spectral h c (sy s) = Ok qy -> (exists x, In x (qmag q) /\ x <> 0) -> k <> 1 ->
  exists s', mul h c s k = Ok s' /\ get_spectral h c (intensity s') = Ok q /\ q <> scale_q q k /\ get_spectral h c (sy s') = Ok (scale_q qy k).
Proof.
  intros Cl Ux Uy Uz E Ey Nz Nk. destruct (copy_ok s Ux Uy Uz) as (t & Et & Ct & Gx & Gy & Gi & Sh & St). unfold mul. rewrite Et.
  assert (Sy : shown (sy t) = shown (sy s) /\ stored (sy t) = shown (sy s)).
  { unfold copy in Et. destruct (get_spectral h c (sx s)) as [qx|] eqn:Ex; [|discriminate]. rewrite Ey, Cl in Et.
    destruct (get_spectral h c (sz s)); [|discriminate]. injection Et as <-. cbn. rewrite (get_unit _ _ Ey). split; reflexivity. }
  destruct Sy as [Sy1 Sy2]. destruct (coll2d_scale t k q) as (s' & Ei & Gs & Ne & Es); [congruence|congruence|exact Nz|exact Nk|].
  rewrite Ei. exists s'. split; [reflexivity|]. split; [exact Gs|]. split; [exact Ne|]. rewrite Es. apply scaled_shows.
  - rewrite Sy1, Sy2. reflexivity.
  - rewrite Sy2. apply Uy.
  - rewrite Sy1. apply Uy.
  - congruence.
Qed.

Lemma lines_2d_raw : let z0 := mkA [1] mev mev in let z1 := mkA [2] ev mev in
  usable z0 /\ usable z1 /\ lines_2d h c [z0; z1] = Ok ([[1 * 1 / 1]; [2]], mev) /\ ~ shown_lines h c [z0; z1] mev [[1 * 1 / 1]; [2]].
Proof.
  cbn zeta. split; [|split; [|split]].
  - split; [cbv; lra|]. split; [cbv; lra|]. split; [left; reflexivity|left; reflexivity].
  - split; [unfold proper; cbn; lra|]. split; [unfold proper; cbn; lra|]. split; [left; reflexivity|left; reflexivity].
  - reflexivity.
  - intros [_ H]. specialize (H 1%nat (mkA [] mev mev) ltac:(cbn; lia)). cbn in H. injection H as H. lra.
Qed.
(** First spectrum shown in its stored unit, the others too: then the values are right. *)
Lemma lines_2d_ok zs u : zs <> [] -> (forall z, In z zs -> usable z /\ shown z = u /\ stored z = u) ->
  exists ls, lines_2d h c zs = Ok (ls, u) /\ shown_lines h c zs u ls.
Proof.
  intros Ne H. unfold lines_2d. destruct zs as [|z0 rest]; [congruence|].
  assert (G : forall z, In z (z0 :: rest) -> get_spectral h c z = Ok (mkQ (raw z) u)).
  { intros z I. destruct (H z I) as (Uz & Sh & St). pose proof (set_data_shown (mkQ (raw z) u)) as D. cbn in D.
    unfold set_data in D. cbn in D. destruct z as [r st sh]. cbn in *. subst. apply D. apply Uz. }
  rewrite (G z0 (or_introl eq_refl)). replace (forallb _ rest) with true.
  2:{ symmetry. apply forallb_forall. intros y I. unfold same_unit. apply String.eqb_eq.
      destruct (H y (or_intror I)) as (_ & A & _). destruct (H z0 (or_introl eq_refl)) as (_ & B & _). rewrite A, B. reflexivity. }
  eexists. split; [destruct (H z0 (or_introl eq_refl)) as (_ & B & _); rewrite B; reflexivity|]. split; [cbn; rewrite map_length; reflexivity|].
  intros i d Hi. cbn [qmag]. rewrite (G (nth i (z0 :: rest) d)) by (apply nth_In; exact Hi). f_equal. f_equal.
  change (raw z0 :: map raw rest) with (map raw (z0 :: rest)). symmetry. apply map_nth_indep. exact Hi.
Qed.
End U.
