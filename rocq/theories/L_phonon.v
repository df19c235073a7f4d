(** Lemmas for the .phonon reader (C46, C48). *)
From Verif Require Import Base M_qpts M_phonon S_phonon.
Open Scope Z_scope.

Section Read.
Context {L : Type}.
Variable P : parser L.

Lemma readlines_app (a r : list L) : readlines (length a) (a ++ r) = (map Some a, r).
Proof. induction a as [|x a IH]; [reflexivity|]. cbn [length readlines app readline map]. rewrite IH. reflexivity. Qed.
Lemma parse_ok {A} e (p : L -> option A) ls xs : Forall2 (fun l x => p l = Some x) ls xs -> parse_all e p (map Some ls) = Ok xs.
Proof. induction 1 as [|l x ls xs H F IH]; [reflexivity|]. unfold parse_all in *. cbn [map mapE]. rewrite H, IH. reflexivity. Qed.
Lemma same_length_ok {A} n (l : list (list A)) : (forall r, In r l -> length r = n) -> same_length n l = true.
Proof. intros H. apply forallb_forall. intros r I. apply Nat.eqb_eq, H, I. Qed.
Lemma F2_weaken {A B} (Q R : A -> B -> Prop) l m : (forall a b, Q a b -> R a b) -> Forall2 Q l m -> Forall2 R l m.
Proof. intros H. induction 1; constructor; [apply H; assumption|assumption]. Qed.
Lemma F2_right {A B} (Q : A -> B -> Prop) (R : B -> Prop) l m : (forall a b, Q a b -> R b) -> Forall2 Q l m -> forall b, In b m -> R b.
Proof. intros H. induction 1 as [|a b l m Q0 F IH]; intros x []; [subst; apply (H a); exact Q0|apply IH; assumption]. Qed.
Lemma F2_len {A B} (Q : A -> B -> Prop) l m : Forall2 Q l m -> length l = length m.
Proof. induction 1; cbn; congruence. Qed.

Definition block_of (eig : bool) (d : qdata) : block :=
  {| b_id := num d; b_qpt := pt d; b_dir := direction d; b_weight := wt d; b_freqs := freqs d; b_evec := if eig then vecs d else [] |}.

Lemma freq_block_ok na nb b d rest : says P na nb b d ->
  read_frequency_block P nb (ql b :: fls b ++ rest) =
    Ok (Some {| b_id := num d; b_qpt := pt d; b_dir := direction d; b_weight := wt d; b_freqs := freqs d; b_evec := [] |}, rest).
Proof.
  intros (I & N & L3 & FL & LD & Lf & Ff & Le & Fe). unfold read_frequency_block. cbn [readline]. rewrite I, FL. cbv zeta.
  rewrite nth_error_app2 by lia. rewrite L3. cbn [Nat.sub nth_error]. rewrite <- Lf, readlines_app. rewrite (parse_ok None (freq_of P) (fls b) (freqs d) Ff).
  assert (Q : firstn 3 (pt d ++ wt d :: match direction d with Some v => v | None => [] end) = pt d).
  { rewrite firstn_app, L3, Nat.sub_diag, firstn_O, app_nil_r. apply firstn_all2. lia. }
  rewrite Q. do 4 f_equal. destruct (direction d) as [v|] eqn:D.
  - specialize (LD v eq_refl). rewrite app_length, L3. cbn [length]. rewrite LD. cbn [Nat.leb Nat.add]. f_equal.
    rewrite skipn_app, L3. rewrite skipn_all2 by lia. cbn [Nat.sub skipn app]. apply firstn_all2. lia.
  - rewrite app_length, L3. reflexivity.
Qed.
Lemma evecs_ok na nb b d eig rest : (0 < na)%nat -> (0 < nb)%nat -> says P na nb b d ->
  read_evecs P eig (na * nb) ([lab1 b; lab2 b] ++ els b ++ rest) = Ok (if eig then vecs d else [], rest).
Proof.
  intros Ha Hb (I & N & L3 & FL & LD & Lf & Ff & Le & Fe). unfold read_evecs. cbn [app readlines readline]. rewrite <- Le, readlines_app. destruct eig; [|reflexivity].
  rewrite (parse_ok (Some []) (evec_row P) (els b) (vecs d)) by (apply (F2_weaken _ _ _ _ (fun a b H => proj1 H) Fe)).
  assert (A : forall r, In r (vecs d) -> length r = 6%nat) by (apply (F2_right _ _ _ _ (fun a b H => proj2 H) Fe)).
  assert (NE : vecs d <> []) by (intros E; apply F2_len in Fe; rewrite E in Fe; cbn in Fe; nia).
  assert (H6 : length (hd [] (vecs d)) = 6%nat) by (destruct (vecs d) as [|v l]; [congruence|apply A; left; reflexivity]).
  rewrite H6. rewrite same_length_ok by exact A. cbn [Nat.leb andb]. do 2 f_equal. transitivity (map (fun r => r) (vecs d)); [|apply map_id]. apply map_ext_in. intros r Ir. apply firstn_all2. rewrite (A r Ir). lia.
Qed.
Lemma blocks_ok na nb eig bs ds : (0 < na)%nat -> (0 < nb)%nat -> Forall2 (says P na nb) bs ds ->
  forall fuel, (length bs < fuel)%nat -> read_blocks P fuel eig na nb (flat_map lines_of bs) = Ok (map (block_of eig) ds).
Proof.
  intros Ha Hb F. induction F as [|b d bs ds S F IH]; intros fuel Hf; (destruct fuel as [|fuel]; [cbn in Hf; lia|]); [reflexivity|].
  cbn [flat_map]. unfold lines_of at 1. cbn [read_blocks]. change ((ql b :: fls b ++ [lab1 b; lab2 b] ++ els b) ++ flat_map lines_of bs) with (ql b :: (fls b ++ [lab1 b; lab2 b] ++ els b) ++ flat_map lines_of bs).
  rewrite <- !app_assoc. rewrite (freq_block_ok na nb b d _ S). rewrite (evecs_ok na nb b d eig _ Ha Hb S). cbn [length] in Hf. rewrite IH by lia. reflexivity.
Qed.
Lemma length_lines bs : (length bs <= length (flat_map (@lines_of L) bs))%nat.
Proof. induction bs as [|b bs IH]; [cbn; lia|]. cbn [flat_map length]. rewrite app_length. unfold lines_of at 1. cbn [length]. lia. Qed.
Lemma find_cell_ok more c rest : (forall x, In x more -> has_ucv P x = false) -> has_ucv P c = true -> find_cell P (more ++ c :: rest) = Ok rest.
Proof. intros H C. induction more as [|x more IH]; cbn [find_cell app]; [rewrite C; reflexivity|]. rewrite (H x) by (left; reflexivity). apply IH. intros y I. apply H. right. exact I. Qed.
Lemma crystal_ok h na nb nq cell ats rest : header_says P h na nb nq cell ats ->
  read_crystal_info P na (hmore h ++ [hcell h] ++ hvec h ++ [hlab h] ++ hat h ++ [hend h] ++ rest) = Ok ((cell, ats), rest).
Proof.
  intros (Ha & Hb & I1 & I2 & I3 & M & C & L3 & Fc & La & Fa). unfold read_crystal_info. cbn [app]. rewrite (find_cell_ok _ _ _ M C).
  rewrite <- L3, readlines_app. rewrite (parse_ok (Some []) (cell_row P) (hvec h) cell) by (apply (F2_weaken _ _ _ _ (fun a b H => proj1 H) Fc)).
  assert (A : forall r, In r cell -> length r = 3%nat) by (apply (F2_right _ _ _ _ (fun a b H => proj2 H) Fc)).
  rewrite same_length_ok.
  2:{ intros r I. rewrite (A r I). destruct cell as [|x l]; [contradiction|]. symmetry. apply A. left. reflexivity. }
  cbn [negb readline]. rewrite <- La, readlines_app. rewrite (parse_ok None (atom_row P) (hat h) ats Fa). reflexivity.
Qed.

Lemma fill_ok bs : forall pre suf, fill (length pre) bs (pre ++ suf) = pre ++ map row_of bs ++ skipn (length bs) suf.
Proof.
  induction bs as [|b bs IH]; intros pre suf; [reflexivity|]. cbn [fill map length]. rewrite app_length. destruct suf as [|s suf].
  - rewrite (proj2 (Nat.ltb_ge _ _)) by (cbn; lia). replace (S (length pre)) with (length (pre ++ [row_of b])) by (rewrite app_length; cbn; lia). rewrite app_nil_r.
    rewrite <- (app_nil_r (pre ++ [row_of b])) at 2. rewrite IH, <- app_assoc. cbn [app]. do 2 f_equal. rewrite !skipn_nil. reflexivity.
  - rewrite (proj2 (Nat.ltb_lt _ _)) by (cbn; lia). rewrite firstn_app, Nat.sub_diag, firstn_all. cbn [firstn]. rewrite app_nil_r, skipn_app. rewrite skipn_all2 by lia. replace (S (length pre) - length pre)%nat with 1%nat by lia. cbn [skipn app].
    replace (S (length pre)) with (length (pre ++ [row_of b])) by (rewrite app_length; cbn; lia). replace (pre ++ row_of b :: suf) with ((pre ++ [row_of b]) ++ suf) by (rewrite <- app_assoc; reflexivity). rewrite IH, <- app_assoc. reflexivity.
Qed.

(** Everything up to the weights. *)
Lemma read_upto eig avg pref h na nb nq cell ats bs ds : header_says P h na nb nq cell ats -> Forall2 (says P na nb) bs ds ->
  let blocks := map (block_of eig) ds in
  let rows := map row_of blocks ++ repeat (zero_row eig na nb) (nq - length ds) in
  read_phonon_data P eig avg pref (header_lines h ++ flat_map lines_of bs) =
    (let '(rep, split) := track avg pref 0 (-1) blocks [] [] in
     match correct avg pref split rep (map r_weight rows) with Err e => Err e | Ok ws => Ok {| p_cell := cell; p_atoms := ats; p_rows := rows; p_weights := ws |} end).
Proof.
  intros H F. cbv zeta. pose proof H as (Ha & Hb & I1 & I2 & I3 & _). unfold read_phonon_data, header_lines. rewrite <- !app_assoc. cbn [app readline readlines].
  change [Some (hna h); Some (hnb h); Some (hnq h)] with (map Some [hna h; hnb h; hnq h]).
  rewrite (parse_ok None (last_int P) [hna h; hnb h; hnq h] [Z.of_nat na; Z.of_nat nb; Z.of_nat nq]) by (repeat constructor; assumption).
  rewrite !(proj2 (Z.ltb_ge _ _)) by lia. cbn [orb]. rewrite !Nat2Z.id.
  pose proof (crystal_ok h na nb nq cell ats (flat_map lines_of bs) H) as C. cbn [app] in C. rewrite C. clear C.
  rewrite (blocks_ok na nb eig bs ds Ha Hb F) by (pose proof (length_lines bs); lia).
  pose proof (fill_ok (map (block_of eig) ds) [] (repeat (zero_row eig na nb) nq)) as E. cbn [length app] in E. rewrite E. rewrite map_length.
  assert (S : skipn (length ds) (repeat (zero_row eig na nb) nq) = repeat (zero_row eig na nb) (nq - length ds)).
  { generalize (length ds) as k. generalize nq as n. clear. induction n as [|n IH]; intros [|k]; cbn; try reflexivity. apply IH. }
  rewrite S. reflexivity.
Qed.
End Read.

(** ** Index sets *)
Lemma mem_iff i s : mem i s = true <-> In i s.
Proof. unfold mem. rewrite existsb_exists. split; [intros (x & I & E); apply Nat.eqb_eq in E; subst; exact I|intros I; exists i; split; [exact I|apply Nat.eqb_refl]]. Qed.
Lemma mem_false i s : mem i s = false <-> ~ In i s.
Proof. rewrite <- mem_iff. destruct (mem i s); split; intros H; congruence. Qed.
Lemma set_add_in i j s : In j (set_add i s) <-> In j s \/ j = i.
Proof. unfold set_add. destruct (mem i s) eqn:E; [apply mem_iff in E; split; [tauto|intros [H| ->]; assumption]|]. rewrite in_app_iff. cbn. intuition. Qed.
Lemma set_add_nodup i s : NoDup s -> NoDup (set_add i s).
Proof. intros H. unfold set_add. destruct (mem i s) eqn:E; [exact H|]. apply mem_false in E. apply NoDup_app_intro; [exact H|repeat constructor; intros []|]. intros x I [<-|[]]. exact (E I). Qed.
Definition adds (new s : list nat) := fold_left (fun s i => set_add i s) new s.
Lemma adds_in new : forall s j, In j (adds new s) <-> In j s \/ In j new.
Proof. induction new as [|i new IH]; intros s j; [cbn; tauto|]. cbn [adds fold_left]. fold (adds new (set_add i s)). rewrite IH, set_add_in. cbn. intuition. Qed.
Lemma adds_nodup new : forall s, NoDup s -> NoDup (adds new s).
Proof. induction new as [|i new IH]; intros s H; [exact H|]. cbn [adds fold_left]. apply IH, set_add_nodup, H. Qed.

Definition keys (d : list (Z * list nat)) := map fst d.
Lemma update_in k new d : NoDup (keys d) -> forall k' s', In (k', s') (dict_update k new d) <->
  (k' <> k /\ In (k', s') d) \/ (k' = k /\ exists s0, (In (k, s0) d \/ (s0 = [] /\ ~ In k (keys d))) /\ s' = adds new s0).
Proof.
  induction d as [|[k1 s1] d IH]; intros ND k' s'; cbn [dict_update].
  - cbn. split.
    + intros [E|[]]. right. assert (k' = k) by congruence. subst. split; [reflexivity|]. exists []. split; [right; tauto|]. unfold adds. congruence.
    + intros [[_ []]|(-> & s0 & [[]|(-> & _)] & ->)]. left. reflexivity.
  - cbn [keys map fst] in ND. inversion ND as [|? ? N1 N2]; subst. destruct (Z.eqb_spec k k1) as [<-|N].
    + cbn [In]. split.
      * intros [E|I].
        -- right. assert (k' = k) by congruence. subst. split; [reflexivity|]. exists s1. split; [left; left; reflexivity|]. unfold adds. congruence.
        -- left. split; [|right; exact I]. intros ->. apply N1. apply (in_map fst) in I. exact I.
      * intros [[Nk [E|I]]|(-> & s0 & [[E|I]|(-> & Nk)] & ->)].
        -- congruence.
        -- right. exact I.
        -- left. assert (s0 = s1) by congruence. subst. reflexivity.
        -- exfalso. apply N1. apply (in_map fst) in I. exact I.
        -- exfalso. apply Nk. left. reflexivity.
    + cbn [In]. rewrite (IH N2). split.
      * intros [E|[(A & B)|(-> & s0 & B & ->)]].
        -- left. split; [congruence|left; exact E].
        -- left. split; [exact A|right; exact B].
        -- right. split; [reflexivity|]. exists s0. split; [|reflexivity]. destruct B as [B|(-> & B)]; [left; right; exact B|]. right. split; [reflexivity|]. cbn. intros [E|E]; [congruence|exact (B E)].
      * intros [[Nk [E|I]]|(-> & s0 & B & ->)].
        -- left. exact E.
        -- right. left. split; assumption.
        -- right. right. split; [reflexivity|]. exists s0. split; [|reflexivity]. destruct B as [[E|B]|(-> & B)]; [congruence|left; exact B|]. right. split; [reflexivity|]. intros I. apply B. right. exact I.
Qed.
Lemma update_keys k new d : NoDup (keys d) -> NoDup (keys (dict_update k new d)).
Proof.
  induction d as [|[k1 s1] d IH]; intros ND; cbn [dict_update keys map fst]; [repeat constructor; intros []|]. cbn [keys map fst] in ND. inversion ND as [|? ? N1 N2]; subst.
  destruct (Z.eqb_spec k k1) as [->|N]; cbn [keys map fst]; [exact ND|]. constructor; [|apply IH; exact N2].
  intros I. apply in_map_iff in I. destruct I as ([k' s'] & E & I). cbn in E. subst k'. apply (update_in k new d N2) in I. destruct I as [(_ & I)|(E & _)]; [apply N1; apply (in_map fst) in I; exact I|congruence].
Qed.

(** Neighbouring blocks of the same number. *)
Definition linked (ids : list Z) (i : nat) : Prop :=
  (i < length ids)%nat /\ (((0 < i)%nat /\ nth (i - 1) ids 0 = nth i ids 0) \/ ((S i < length ids)%nat /\ nth (S i) ids 0 = nth i ids 0)).
Definition good_rep (ids : list Z) (rep : list (Z * list nat)) : Prop :=
  NoDup (keys rep) /\ (forall k s, In (k, s) rep -> NoDup s /\ forall i, In i s <-> linked ids i /\ nth i ids 0 = k) /\
  (forall i, linked ids i -> exists s, In (nth i ids 0, s) rep).

Lemma linked_snoc ids z i : linked (ids ++ [z]) i <-> linked ids i \/ (ids <> [] /\ nth (length ids - 1) ids 0 = z /\ (i = length ids \/ i = (length ids - 1)%nat)).
Proof.
  unfold linked. rewrite app_length. cbn [length].
  assert (N1 : forall j, (j < length ids)%nat -> nth j (ids ++ [z]) 0 = nth j ids 0) by (intros; apply app_nth1; assumption).
  assert (N2 : nth (length ids) (ids ++ [z]) 0 = z) by (rewrite app_nth2, Nat.sub_diag by lia; reflexivity).
  assert (NE : ids <> [] <-> (0 < length ids)%nat) by (destruct ids; cbn; split; intros; try lia; try congruence; try discriminate).
  destruct (Nat.lt_trichotomy i (length ids)) as [H|[H|H]].
  - rewrite (N1 i H). split.
    + intros (_ & [(A & B)|(A & B)]).
      * left. split; [exact H|]. left. split; [exact A|]. rewrite <- B. symmetry. apply N1. lia.
      * destruct (Nat.eq_dec (S i) (length ids)) as [E|E].
        -- right. rewrite E, N2 in B. split; [apply NE; lia|]. replace (length ids - 1)%nat with i by lia. split; [congruence|right; reflexivity].
        -- left. split; [exact H|]. right. split; [lia|]. rewrite <- B. symmetry. apply N1. lia.
    + intros [(_ & [(A & B)|(A & B)])|(A & B & [E|E])].
      * split; [lia|]. left. split; [exact A|]. rewrite N1 by lia. exact B.
      * split; [lia|]. right. split; [lia|]. rewrite N1 by lia. exact B.
      * lia.
      * subst i. split; [lia|]. right. replace (S (length ids - 1))%nat with (length ids) by lia. split; [lia|]. rewrite N2. congruence.
  - subst i. rewrite N2. split.
    + intros (_ & [(A & B)|(A & B)]); [|lia]. right. split; [apply NE; exact A|]. rewrite N1 in B by lia. split; [exact B|left; reflexivity].
    + intros [(A & _)|(A & B & _)]; [lia|]. apply NE in A. split; [lia|]. left. split; [exact A|]. rewrite N1 by lia. exact B.
  - split; [intros (A & _); lia|intros [(A & _)|(A & B & [E|E])]; lia].
Qed.

Lemma track_rep avg pref bs : (avg || pref)%bool = true -> (forall b, In b bs -> 0 <= b_id b) -> forall pre rep split,
  (forall z, In z pre -> 0 <= z) -> good_rep pre rep ->
  good_rep (pre ++ map b_id bs) (fst (track avg pref (length pre) (last pre (-1)) bs rep split)).
Proof.
  intros AP. induction bs as [|b bs IH]; intros HB pre rep split HP G; [cbn; rewrite app_nil_r; exact G|]. cbn [track map].
  set (sp := if (pref && _)%bool then _ else _). clearbody sp. rewrite AP. cbn [andb].
  set (rep' := if (b_id b =? last pre (-1)) then _ else _).
  replace (S (length pre)) with (length (pre ++ [b_id b])) by (rewrite app_length; cbn; lia).
  replace (b_id b) with (last (pre ++ [b_id b]) (-1)) at 3 by apply last_last.
  replace (pre ++ b_id b :: map b_id bs) with ((pre ++ [b_id b]) ++ map b_id bs) by (rewrite <- app_assoc; reflexivity).
  apply IH; [intros x I; apply HB; right; exact I|intros z I; apply in_app_or in I; destruct I as [I|[<-|[]]]; [apply HP; exact I|apply HB; left; reflexivity]|].
  assert (Bp : 0 <= b_id b) by (apply HB; left; reflexivity).
  assert (LS : pre <> [] -> last pre (-1) = nth (length pre - 1) pre 0).
  { intros N. destruct (exists_last N) as (l & z & ->). rewrite last_last, app_length. cbn [length]. replace (length l + 1 - 1)%nat with (length l) by lia. rewrite app_nth2, Nat.sub_diag by lia. reflexivity. }
  destruct G as (G1 & G2 & G3).
  assert (N1 : forall j, (j < length pre)%nat -> nth j (pre ++ [b_id b]) 0 = nth j pre 0) by (intros; apply app_nth1; assumption).
  assert (N2 : nth (length pre) (pre ++ [b_id b]) 0 = b_id b) by (rewrite app_nth2, Nat.sub_diag by lia; reflexivity).
  unfold rep'. destruct (Z.eqb_spec (b_id b) (last pre (-1))) as [E|E].
  - assert (NE : pre <> []) by (intros ->; cbn in E; lia). rewrite (LS NE) in E. assert (LP : (0 < length pre)%nat) by (destruct pre; [congruence|cbn; lia]).
    assert (NN : forall j, j = (length pre - 1)%nat \/ j = length pre -> nth j (pre ++ [b_id b]) 0 = b_id b) by (intros j [->| ->]; [rewrite N1 by lia; congruence|exact N2]).
    split; [apply update_keys; exact G1|]. split.
    + intros k s I. apply (update_in _ _ _ G1) in I. destruct I as [(Nk & I)|(-> & s0 & H0 & ->)].
      * destruct (G2 k s I) as (A & B). split; [exact A|]. intros i. rewrite B, linked_snoc. split.
        -- intros (C & D). split; [left; exact C|]. rewrite N1 by (destruct C; assumption). exact D.
        -- intros ([C|(_ & _ & C)] & D); [split; [exact C|rewrite N1 in D by (destruct C; assumption); exact D]|]. exfalso. apply Nk. rewrite <- D. symmetry. symmetry. apply NN. tauto.
      * assert (S0 : NoDup s0 /\ forall i, In i s0 <-> linked pre i /\ nth i pre 0 = b_id b).
        { destruct H0 as [H0|(-> & H0)]; [exact (G2 _ _ H0)|]. split; [constructor|]. intros i. split; [intros []|]. intros (C & D). destruct (G3 i C) as (s & I). rewrite D in I. apply H0. apply (in_map fst) in I. exact I. }
        destruct S0 as (A & B). split; [apply adds_nodup; exact A|]. intros i. rewrite adds_in, B, linked_snoc. cbn [In]. split.
        -- intros [(C & D)|[<-|[<-|[]]]].
           ++ split; [left; exact C|]. rewrite N1 by (destruct C; assumption). exact D.
           ++ split; [right; split; [exact NE|split; [congruence|right; reflexivity]]|]. apply NN. left. reflexivity.
           ++ split; [right; split; [exact NE|split; [congruence|left; reflexivity]]|]. exact N2.
        -- intros ([C|(_ & _ & [->| ->])] & D).
           ++ left. split; [exact C|]. rewrite N1 in D by (destruct C; assumption). exact D.
           ++ right. right. left. reflexivity.
           ++ right. left. reflexivity.
    + intros i C. apply linked_snoc in C.
      assert (Up : forall k, (exists s, In (k, s) rep) \/ k = b_id b -> exists s, In (k, s) (dict_update (b_id b) [(length pre - 1)%nat; length pre] rep)).
      { intros k Hk. destruct (Z.eq_dec k (b_id b)) as [->|Nk].
        - destruct (in_dec Z.eq_dec (b_id b) (keys rep)) as [Q|Q].
          + apply in_map_iff in Q. destruct Q as ([k' s] & Q1 & Q2). cbn in Q1. subst k'. exists (adds [(length pre - 1)%nat; length pre] s). apply (update_in _ _ _ G1). right. split; [reflexivity|]. exists s. split; [left; exact Q2|reflexivity].
          + exists (adds [(length pre - 1)%nat; length pre] []). apply (update_in _ _ _ G1). right. split; [reflexivity|]. exists []. split; [right; split; [reflexivity|exact Q]|reflexivity].
        - destruct Hk as [(s & Hs)|Hk]; [|congruence]. exists s. apply (update_in _ _ _ G1). left. split; assumption. }
      destruct C as [C|(_ & _ & C)].
      * rewrite N1 by (destruct C; assumption). apply Up. left. apply G3. exact C.
      * rewrite NN by tauto. apply Up. right. reflexivity.
  - assert (Lk : forall i, linked (pre ++ [b_id b]) i <-> linked pre i).
    { intros i. rewrite linked_snoc. split; [intros [C|(C & D & _)]; [exact C|]|tauto]. exfalso. apply E. rewrite (LS C). congruence. }
    split; [exact G1|]. split.
    + intros k s I. destruct (G2 k s I) as (A & B). split; [exact A|]. intros i. rewrite B, Lk. split; intros (C & D); (split; [exact C|]); [rewrite N1|rewrite N1 in D]; try exact D; destruct C; assumption.
    + intros i C. apply Lk in C. rewrite N1 by (destruct C; assumption). apply G3. exact C.
Qed.
Lemma track_none bs : forall idx prev rep split, track false false idx prev bs rep split = (rep, split).
Proof. induction bs as [|b bs IH]; intros; [reflexivity|]. cbn [track andb orb]. apply IH. Qed.
Lemma track_split avg pref bs : forall pre rep split, (forall i, In i split <-> pref = true /\ exists b, nth_error pre i = Some b /\ b_dir b <> None) -> forall prev,
  forall i, In i (snd (track avg pref (length pre) prev bs rep split)) <-> pref = true /\ exists b, nth_error (pre ++ bs) i = Some b /\ b_dir b <> None.
Proof.
  induction bs as [|b bs IH]; intros pre rep split H prev i; [cbn; rewrite app_nil_r; apply H|]. cbn [track].
  replace (S (length pre)) with (length (pre ++ [b])) by (rewrite app_length; cbn; lia). replace (pre ++ b :: bs) with ((pre ++ [b]) ++ bs) by (rewrite <- app_assoc; reflexivity).
  apply IH. intros j.
  assert (X : (exists x, nth_error (pre ++ [b]) j = Some x /\ b_dir x <> None) <-> (exists x, nth_error pre j = Some x /\ b_dir x <> None) \/ (j = length pre /\ b_dir b <> None)).
  { destruct (le_lt_dec (length pre) j) as [Q|Q].
    - rewrite nth_error_app2 by exact Q. split.
      + intros (x & A & B). right. destruct (j - length pre)%nat as [|m] eqn:M; cbn in A; [|destruct m; discriminate]. split; [lia|]. congruence.
      + intros [(x & A & _)|(-> & A)]; [assert (nth_error pre j <> None) by congruence; apply nth_error_Some in H0; lia|]. exists b. rewrite Nat.sub_diag. split; [reflexivity|exact A].
    - rewrite nth_error_app1 by exact Q. split; [tauto|intros [A|(A & _)]; [exact A|lia]]. }
  rewrite X. destruct pref; cbn [andb].
  - destruct (b_dir b) eqn:D.
    + rewrite set_add_in, H. split; [intros [(_ & A)|A]; (split; [reflexivity|]); [left; exact A|right; split; [exact A|discriminate]]|intros (_ & [A|(A & _)]); [left; split; [reflexivity|exact A]|right; exact A]].
    + rewrite H. split; [intros (A & B); split; [exact A|left; exact B]|intros (A & [B|(_ & B)]); [split; assumption|congruence]].
  - rewrite H. split; intros (A & _); discriminate.
Qed.

(** ** Correcting the weights *)
Lemma at_indices_len s g ws : length (at_indices s g ws) = length ws.
Proof. unfold at_indices. rewrite map_length, combine_length, seq_length. lia. Qed.
Lemma nth_at_indices s g ws i : (i < length ws)%nat -> nth i (at_indices s g ws) 0%R = if mem i s then g (nth i ws 0%R) else nth i ws 0%R.
Proof.
  intros H. unfold at_indices. rewrite (map_nth_indep _ _ _ (0%nat, 0%R) 0%R) by (rewrite combine_length, seq_length; lia). rewrite combine_nth by apply seq_length. rewrite seq_nth by exact H. reflexivity.
Qed.
Section Correct.
Variables (avg pref : bool) (split : list nat).
Definition inter (s : list nat) := filter (fun i => mem i split) s.
Definition mixed (s : list nat) : bool := (pref && Nat.ltb 0 (length (inter s)) && Nat.ltb (length (inter s)) (length s))%bool.
Definition value (s : list nat) (i : nat) (w : R) : R :=
  if mixed s then (if mem i split then 0%R else w) else if avg then (w / INR (length s))%R else w.
Lemma correct_ok rep : forall ws, (forall k s, In (k, s) rep -> mixed s = true -> (length s - length (inter s))%nat = 1%nat) ->
  (forall k s k' s' i, In (k, s) rep -> In (k', s') rep -> In i s -> In i s' -> k = k') -> NoDup (keys rep) ->
  exists ws', correct avg pref split rep ws = Ok ws' /\ length ws' = length ws /\
    (forall k s i, In (k, s) rep -> In i s -> (i < length ws)%nat -> nth i ws' 0%R = value s i (nth i ws 0%R)) /\
    (forall i, (i < length ws)%nat -> (forall k s, In (k, s) rep -> ~ In i s) -> nth i ws' 0%R = nth i ws 0%R).
Proof.
  induction rep as [|[k s] rep IH]; intros ws HM HD ND.
  - exists ws. split; [reflexivity|]. split; [reflexivity|]. split; [intros k s i []|reflexivity].
  - cbn [keys map fst] in ND. inversion ND as [|? ? N1 N2]; subst. cbn [correct]. fold (inter s). change (pref && Nat.ltb 0 (length (inter s)) && Nat.ltb (length (inter s)) (length s))%bool with (mixed s).
    assert (HD' : forall k s k' s' i, In (k, s) rep -> In (k', s') rep -> In i s -> In i s' -> k = k') by (intros a b a' b' i A B; apply HD; right; assumption).
    assert (HM' : forall k s, In (k, s) rep -> mixed s = true -> (length s - length (inter s))%nat = 1%nat) by (intros a b A; apply (HM a b); right; exact A).
    assert (Dis : forall k' s' i, In (k', s') rep -> In i s' -> ~ In i s).
    { intros k' s' i A B C. assert (k = k') by (apply (HD k s k' s' i); [left; reflexivity|right; exact A|exact C|exact B]). subst k'. apply N1. apply (in_map fst) in A. exact A. }
    assert (Step : forall ws1, length ws1 = length ws -> (forall i, (i < length ws)%nat -> nth i ws1 0%R = if mem i s then value s i (nth i ws 0%R) else nth i ws 0%R) ->
      exists ws', correct avg pref split rep ws1 = Ok ws' /\ length ws' = length ws /\
        (forall k0 s0 i, In (k0, s0) ((k, s) :: rep) -> In i s0 -> (i < length ws)%nat -> nth i ws' 0%R = value s0 i (nth i ws 0%R)) /\
        (forall i, (i < length ws)%nat -> (forall k0 s0, In (k0, s0) ((k, s) :: rep) -> ~ In i s0) -> nth i ws' 0%R = nth i ws 0%R)).
    { intros ws1 L1 V1. destruct (IH ws1 HM' HD' N2) as (ws' & E & L' & A & B). exists ws'. split; [exact E|]. split; [congruence|]. split.
      - intros k0 s0 i [Q|Q] Ii Hi.
        + assert (s0 = s) by congruence. subst s0. rewrite B; [rewrite V1 by exact Hi; rewrite (proj2 (mem_iff i s) Ii); reflexivity|lia|]. intros k1 s1 Q1 Q2. exact (Dis k1 s1 i Q1 Q2 Ii).
        + rewrite (A k0 s0 i Q Ii) by lia. rewrite V1 by exact Hi. rewrite (proj2 (mem_false i s)) by exact (Dis k0 s0 i Q Ii). reflexivity.
      - intros i Hi N. rewrite B; [rewrite V1 by exact Hi; rewrite (proj2 (mem_false i s)) by (apply (N k s); left; reflexivity); reflexivity|lia|]. intros k0 s0 Q. apply (N k0 s0). right. exact Q. }
    destruct (mixed s) eqn:MX.
    + rewrite (proj2 (Nat.eqb_eq _ _)) by (apply (HM k s); [left; reflexivity|exact MX]). apply Step; [apply at_indices_len|]. intros i Hi. rewrite nth_at_indices by exact Hi. unfold value. rewrite MX.
      destruct (mem i s) eqn:M1.
      * destruct (mem i split) eqn:M2.
        -- rewrite (proj2 (mem_iff i (inter s))); [reflexivity|]. apply filter_In. split; [apply mem_iff; exact M1|exact M2].
        -- rewrite (proj2 (mem_false i (inter s))); [reflexivity|]. intros Q. apply filter_In in Q. destruct Q as [_ Q]. congruence.
      * rewrite (proj2 (mem_false i (inter s))); [reflexivity|]. intros Q. apply filter_In in Q. destruct Q as [Q _]. apply mem_iff in Q. congruence.
    + assert (Vs : forall i w, value s i w = if avg then (w / INR (length s))%R else w) by (intros; unfold value; rewrite MX; reflexivity).
      apply Step; [case avg; [apply at_indices_len|reflexivity]|]. intros i Hi. rewrite Vs. case avg; [apply nth_at_indices; exact Hi|]. case (mem i s); reflexivity.
Qed.
Lemma correct_ambiguous rep : forall ws k s, In (k, s) rep -> mixed s = true -> (length s - length (inter s))%nat <> 1%nat -> correct avg pref split rep ws = Err Ambiguous.
Proof.
  induction rep as [|[k1 s1] rep IH]; intros ws k s [] MX N; cbn [correct]; fold (inter s1); change (pref && Nat.ltb 0 (length (inter s1)) && Nat.ltb (length (inter s1)) (length s1))%bool with (mixed s1).
  - assert (s1 = s) by congruence. subst s1. rewrite MX, (proj2 (Nat.eqb_neq _ _)) by exact N. reflexivity.
  - destruct (mixed s1) eqn:M1; [destruct (Nat.eqb _ _); [|reflexivity]|]; apply (IH _ k s); assumption.
Qed.
End Correct.
