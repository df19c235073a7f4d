(** Lemmas added after mutation testing of M_bins and M_coll (C29, C30, C31). *)
From Coq Require Import String.
From Verif Require Import Base M_qpts M_path M_broad M_dos M_bins M_coll S_coll L_bins L_coll.
Open Scope R_scope.

Lemma no_bins_refused rtol atol x : (length x <= 1)%nat -> assert_regular_bins rtol atol 0 x = Err EmptyAxis.
Proof. destruct x as [|a [|b x]]; intros H; [reflexivity|reflexivity|cbn in H; lia]. Qed.

Lemma clip_neg n m : (0 < m <= Z.of_nat n)%Z -> clip n (- m) = Z.to_nat (Z.of_nat n - m).
Proof. intros H. unfold clip. destruct (Z.ltb_spec (- m) 0) as [L|L]; [|lia]. f_equal. lia. Qed.

Lemma split_negative {A} (s : xspec A) (t : ticks) m : length (xs s) = length (ys s) -> xticks s = Some t ->
  (forall p, In p t -> (0 <= fst p)%Z) -> (0 < m <= Z.of_nat (length (ys s)))%Z ->
  let n := Z.to_nat (Z.of_nat (length (ys s)) - m) in
  split s (Some [(- m)%Z]) None =
  Ok [mkX (firstn n (xs s)) (firstn n (ys s)) (Some []);
      mkX (skipn n (xs s)) (skipn n (ys s)) (Some (map (fun p => ((fst p + m)%Z, snd p)) t))].
Proof.
  intros L Et Hp Hm n. unfold split, split_by_indices, ranges_from_indices. cbn [pairs_from mapE fst snd]. unfold pyslice.
  rewrite L. rewrite !clip_neg by exact Hm. fold n. replace (clip (length (ys s)) 0) with 0%nat by (rewrite clip_in by lia; reflexivity).
  rewrite !skipn_O, Nat.sub_0_r. rewrite (firstn_all2 (skipn n (xs s))) by (rewrite skipn_length; lia). rewrite (firstn_all2 (skipn n (ys s))) by (rewrite skipn_length; lia).
  unfold mk_xspec. rewrite !firstn_length, !skipn_length, L, !Nat.eqb_refl. cbn [orb]. rewrite Et. unfold cut_x_ticks.
  replace (filter (fun p => ((0 <=? fst p)%Z && (fst p <? - m)%Z)%bool) t) with (@nil (Z * string)).
  2:{ symmetry. clear Et. induction t as [|p t IH]; [reflexivity|]. cbn [filter]. pose proof (Hp p (or_introl eq_refl)) as P.
      replace (fst p <? - m)%Z with false by (symmetry; apply Z.ltb_ge; lia). rewrite andb_false_r. apply IH. intros q I. apply Hp. right. exact I. }
  replace (filter (fun p => ((- m <=? fst p)%Z && true)%bool) t) with t.
  2:{ clear Et. induction t as [|p t IH]; [reflexivity|]. cbn [filter]. pose proof (Hp p (or_introl eq_refl)) as P.
      replace (- m <=? fst p)%Z with true by (symmetry; apply Z.leb_le; lia). cbn [andb]. f_equal. apply IH. intros q I. apply Hp. right. exact I. }
  cbn [map]. rewrite (map_ext (fun p : Z * string => ((fst p - - m)%Z, snd p)) (fun p => ((fst p + m)%Z, snd p))) by (intros p; f_equal; lia). reflexivity.
Qed.

Lemma dict_set_in (d : dict) (kv x : string * value) : NoDup (map fst d) ->
  NoDup (map fst (dict_set d kv)) /\ (In x (dict_set d kv) <-> x = kv \/ In x d /\ fst x <> fst kv) /\
  (forall k, In k (map fst (dict_set d kv)) <-> k = fst kv \/ In k (map fst d)).
Proof.
  intros N. destruct (in_dec string_dec (fst kv) (map fst d)) as [I|I].
  - rewrite (dict_set_keys d kv I). split; [exact N|]. split; [|intros k; split; [auto|intros [->|H]; assumption]].
    revert N I. induction d as [|[k' v'] d IH]; [intros _ []|]. cbn [map fst dict_set]. intros N I. inversion N as [|? ? Nk Nd]; subst.
    destruct (String.eqb_spec (fst kv) k') as [E|E].
    + subst k'. cbn [In]. rewrite <- surjective_pairing. split.
      * intros [H|H]; [left; auto|right]. split; [right; exact H|]. intros F. apply Nk. rewrite <- F. apply in_map. exact H.
      * intros [H|[[H|H] F]]; [left; auto|subst x; exfalso; apply F; reflexivity|right; exact H].
    + destruct I as [I|I]; [congruence|]. specialize (IH Nd I). cbn [In]. rewrite IH. split.
      * intros [H|[H|[H F]]]; [right; split; [left; exact H|subst x; cbn; congruence]|left; exact H|right; split; [right; exact H|exact F]].
      * intros [H|[[H|H] F]]; [right; left; exact H|left; exact H|right; right; split; assumption].
  - rewrite (dict_set_new d kv I). rewrite map_app. cbn [map]. split; [|split].
    + apply (Permutation_NoDup (Permutation_cons_append (map fst d) (fst kv))). constructor; assumption.
    + rewrite in_app_iff. cbn [In]. split; [intros [H|[H|[]]]; [right; split; [exact H|intros F; apply I; rewrite <- F; apply in_map; exact H]|left; auto]|intros [H|[H _]]; auto].
    + intros k. rewrite in_app_iff. cbn [In]. split; [intros [H|[H|[]]]; auto|intros [H|H]; auto].
Qed.
Lemma dict_union_in (b a : dict) (x : string * value) : NoDup (map fst a) -> NoDup (map fst b) ->
  (In x (dict_union a b) <-> In x b \/ In x a /\ ~ In (fst x) (map fst b)).
Proof.
  unfold dict_union. revert a. induction b as [|kv b IH]; intros a Na Nb; cbn [fold_left map].
  - split; [auto|intros [[]|[H _]]; exact H].
  - inversion Nb as [|? ? Nk Nd]; subst. destruct (dict_set_in a kv x Na) as (N' & I' & _). rewrite (IH _ N' Nd), I'. cbn [In]. split.
    + intros [H|[[H|[H F]] G]]; [left; right; exact H|left; left; auto|right; split; [exact H|intros [Q|Q]; [congruence|contradiction]]].
    + intros [[H|H]|[H F]]; [right; split; [left; auto|subst x; exact Nk]|left; exact H|right; split; [right; split; [exact H|intros Q; apply F; left; auto]|intros Q; apply F; right; exact Q]].
Qed.
Lemma line_entries (c : coll) ds i s : line_data (c_meta c) = Some ds -> length ds = clen c -> NoDup (map fst (top (c_meta c))) ->
  (forall d, In d ds -> NoDup (map fst d)) -> (i < clen c)%nat -> at_pos c i s ->
  forall kv, In kv (s_meta s) <-> In kv (nth i ds []) \/ In kv (top (c_meta c)) /\ ~ In (fst kv) (map fst (nth i ds [])).
Proof.
  intros E Ln Nt Nd Hi At kv. unfold at_pos, get_int, take in At.
  assert (P : forall n, n = clen c -> py_index n (Z.of_nat i) = Some i).
  { intros n ->. unfold py_index. replace (- Z.of_nat (clen c) <=? Z.of_nat i)%Z with true by (symmetry; apply Z.leb_le; lia).
    replace (Z.of_nat i <? Z.of_nat (clen c))%Z with true by (symmetry; apply Z.ltb_lt; lia). cbn [andb].
    replace (Z.of_nat i <? 0)%Z with false by (symmetry; apply Z.ltb_ge; lia). f_equal. apply Nat2Z.id. }
  rewrite (P (length (c_lines c)) eq_refl) in At. cbn [bind] in At. unfold iter_metadata in At. rewrite E in At. rewrite (P _) in At by (rewrite map_length; exact Ln).
  cbn [bind] in At. injection At as <-. cbn [s_meta]. rewrite (map_nth_indep _ _ _ [] []) by lia.
  apply dict_union_in; [exact Nt|]. apply Nd. apply nth_In. lia.
Qed.
