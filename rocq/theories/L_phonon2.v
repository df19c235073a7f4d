(** Weights and truncation of .phonon files (C46, C48). *)
From Verif Require Import Base M_qpts M_phonon S_phonon L_phonon.
Require Import Permutation.
Open Scope Z_scope.

(** ** Groups *)
Lemma group_in ids i j : In j (group ids i) <-> (j < length ids)%nat /\ nth j ids 0 = nth i ids 0.
Proof. unfold group. rewrite filter_In, in_seq, Z.eqb_eq. split; intros (A & B); (split; [lia|exact B]). Qed.
Lemma group_nodup ids i : NoDup (group ids i).
Proof. apply NoDup_filter, seq_NoDup. Qed.
Lemma linked_not_alone ids i : contiguous ids -> (i < length ids)%nat -> (linked ids i <-> exists j, j <> i /\ In j (group ids i)).
Proof.
  intros C H. split.
  - intros (_ & [(A & B)|(A & B)]); [exists (i - 1)%nat|exists (S i)]; (split; [lia|]); apply group_in; (split; [lia|exact B]).
  - intros (j & N & J). apply group_in in J. destruct J as (J & E). split; [exact H|]. destruct (Nat.lt_ge_cases j i) as [Q|Q].
    + left. split; [lia|]. rewrite <- E. apply (C j (i - 1)%nat i); [lia|lia|exact H|exact E].
    + right. split; [lia|]. apply (C i (S i) j); [lia|lia|exact J|congruence].
Qed.
Lemma linked_group ids i j : contiguous ids -> linked ids i -> In j (group ids i) -> linked ids j.
Proof.
  intros C K J. pose proof K as (Hi & _). apply group_in in J. destruct J as (J & E). destruct (Nat.eq_dec j i) as [->|N]; [exact K|].
  apply linked_not_alone; [exact C|exact J|]. exists i. split; [congruence|]. apply group_in. split; [exact Hi|congruence].
Qed.
Lemma entry_group ids rep i k s : contiguous ids -> good_rep ids rep -> In (k, s) rep -> In i s -> Permutation s (group ids i).
Proof.
  intros C (_ & G & _) I Ii. destruct (G k s I) as (ND & M). pose proof (proj1 (M i) Ii) as (Li & Ei). apply NoDup_Permutation; [exact ND|apply group_nodup|].
  intros j. rewrite M. split.
  - intros ((A & _) & B). apply group_in. split; [exact A|congruence].
  - intros J. split; [exact (linked_group ids i j C Li J)|]. apply group_in in J. destruct J as [_ J]. congruence.
Qed.
Lemma alone_group ids i : contiguous ids -> (i < length ids)%nat -> ~ linked ids i -> length (group ids i) = 1%nat.
Proof.
  intros C H N. assert (P : Permutation (group ids i) [i]).
  { apply NoDup_Permutation; [apply group_nodup|repeat constructor; intros []|]. intros j. rewrite group_in. cbn. split.
    - intros (A & B). left. destruct (Nat.eq_dec i j) as [E|E]; [exact E|]. exfalso. apply N. apply linked_not_alone; [exact C|exact H|]. exists j. split; [congruence|]. apply group_in. split; assumption.
    - intros [<-|[]]. split; [exact H|reflexivity]. }
  apply Permutation_length in P. exact P.
Qed.
Lemma filter_len_perm {A} (f : A -> bool) l m : Permutation l m -> length (filter f l) = length (filter f m).
Proof. induction 1 as [|x l m Q IH|x y l|l m n Q1 IH1 Q2 IH2]; cbn [filter]; [reflexivity|destruct (f x); cbn; congruence|destruct (f x), (f y); reflexivity|congruence]. Qed.
Lemma filter_len_compl {A} (f : A -> bool) l : (length l - length (filter f l))%nat = length (filter (fun x => negb (f x)) l).
Proof. assert (H : (length (filter f l) + length (filter (fun x => negb (f x)) l) = length l)%nat) by (induction l as [|x l IH]; [reflexivity|cbn [filter]; destruct (f x); cbn [negb length]; lia]). lia. Qed.

Lemma filter_len_le {A} (f : A -> bool) l : (length (filter f l) <= length l)%nat.
Proof. induction l as [|x l IH]; [cbn; lia|]. cbn [filter]. destruct (f x); cbn [length]; lia. Qed.

Lemma rep_of avg pref (ds : list qdata) eig : (forall d, In d ds -> 0 <= num d) -> (avg || pref)%bool = true ->
  good_rep (map num ds) (fst (track avg pref 0 (-1) (map (block_of eig) ds) [] [])).
Proof.
  intros H AP. pose proof (track_rep avg pref (map (block_of eig) ds) AP) as T. rewrite map_map in T. cbn [block_of b_id] in T. change (map (fun x => num x) ds) with (map num ds) in T.
  specialize (T ltac:(intros b I; apply in_map_iff in I; destruct I as (d & <- & I); apply H, I) [] [] []). cbn [length last app] in T. apply T; [intros z []|].
  split; [constructor|]. split; [intros k s []|]. intros i (A & _). cbn in A. lia.
Qed.
Lemma split_of avg pref (ds : list qdata) eig i : In i (snd (track avg pref 0 (-1) (map (block_of eig) ds) [] [])) <-> pref = true /\ split_at ds i = true.
Proof.
  rewrite (track_split avg pref (map (block_of eig) ds) [] [] []).
  - cbn [app]. unfold split_at. rewrite nth_error_map. destruct (nth_error ds i) as [d|]; cbn [option_map].
    + split; (intros (A & B); split; [exact A|]).
      * destruct B as (b & B & C). injection B as B. subst b. cbn in C. destruct (direction d); [reflexivity|congruence].
      * exists (block_of eig d). split; [reflexivity|]. cbn. destruct (direction d); [discriminate|discriminate].
    + split; (intros (A & B); split; [exact A|]); [destruct B as (b & B & _); discriminate|discriminate].
  - intros j. split; [intros []|]. intros (_ & b & B & _). destruct j; discriminate.
Qed.

(** The weight of block i after the corrections. *)
Definition share (avg pref : bool) (ds : list qdata) (i : nat) (w : R) : R :=
  let g := group (map num ds) i in
  let apart := filter (fun j => negb (split_at ds j)) g in
  if (pref && existsb (split_at ds) g && Nat.ltb 0 (length apart))%bool then (if split_at ds i then 0%R else w)
  else if avg then (w / INR (length g))%R else w.

Lemma existsb_filter {A} (f : A -> bool) l : existsb f l = Nat.ltb 0 (length (filter f l)).
Proof. induction l as [|x l IH]; [reflexivity|]. cbn [existsb filter]. destruct (f x); [reflexivity|exact IH]. Qed.

Lemma share_alone avg pref ds i w : (i < length (map num ds))%nat -> length (group (map num ds) i) = 1%nat -> share avg pref ds i w = w.
Proof.
  intros Hl L1. unfold share. assert (Q : In i (group (map num ds) i)) by (apply group_in; split; [exact Hl|reflexivity]).
  destruct (group (map num ds) i) as [|j [|? ?]]; cbn in L1; try lia. destruct Q as [->|[]]. cbn [existsb filter].
  destruct (split_at ds i); cbn [negb length orb]; destruct pref, avg; cbn [andb Nat.ltb Nat.leb length INR]; try reflexivity; field.
Qed.

Section Whole.
Context {L : Type}.
Variable P : parser L.
Variables (eig avg pref : bool) (h : header L) (na nb nq : nat) (cell : list (list R)) (ats : list atom) (bs : list (fblock L)) (ds : list qdata).
Hypothesis H : header_says P h na nb nq cell ats.
Hypothesis F : Forall2 (says P na nb) bs ds.
Let ids := map num ds.
Let rows := map row_of (map (block_of eig) ds) ++ repeat (zero_row eig na nb) (nq - length ds).
Let file := header_lines h ++ flat_map lines_of bs.

Lemma nums_pos d : In d ds -> 0 <= num d.
Proof. apply (F2_right _ (fun d => 0 <= num d) bs ds (fun b d S => proj1 (proj2 S)) F). Qed.
Lemma length_rows : length rows = Nat.max nq (length ds).
Proof. unfold rows. rewrite app_length, !map_length, repeat_length. lia. Qed.
Lemma nth_weight i : (i < length ds)%nat -> forall d0, nth i (map r_weight rows) 0%R = wt (nth i ds d0).
Proof.
  intros Hi d0. unfold rows. rewrite map_app, app_nth1 by (rewrite !map_length; exact Hi). rewrite !map_map. rewrite (map_nth_indep _ _ _ d0 0%R) by exact Hi. reflexivity.
Qed.
Lemma nth_weight_extra i : (length ds <= i)%nat -> nth i (map r_weight rows) 0%R = 0%R.
Proof.
  intros Hi. unfold rows. rewrite map_app, app_nth2 by (rewrite !map_length; exact Hi). rewrite !map_length. generalize (i - length ds)%nat as k. generalize (nq - length ds)%nat as n. induction n as [|n IH]; intros [|k]; try reflexivity. apply IH.
Qed.

Lemma mixed_group s rep i k : contiguous ids -> good_rep ids rep -> In (k, s) rep -> In i s -> forall spl, (forall j, In j spl <-> pref = true /\ split_at ds j = true) ->
  mixed pref spl s = (pref && existsb (split_at ds) (group ids i) && Nat.ltb 0 (length (filter (fun j => negb (split_at ds j)) (group ids i))))%bool /\
  (pref = true -> (length s - length (inter spl s))%nat = length (filter (fun j => negb (split_at ds j)) (group ids i))) /\
  (pref = true -> forall j, mem j spl = split_at ds j).
Proof.
  intros C G I Ii spl HS. pose proof (entry_group ids rep i k s C G I Ii) as Pm.
  destruct pref eqn:PR; [|split; [reflexivity|split; discriminate]].
  assert (M : forall j, mem j spl = split_at ds j).
  { intros j. destruct (split_at ds j) eqn:E; [apply mem_iff, HS; split; [reflexivity|exact E]|]. apply mem_false. rewrite HS. intros (_ & Q). congruence. }
  assert (I1 : inter spl s = filter (split_at ds) s) by (unfold inter; apply filter_ext; exact M).
  assert (I2 : length (inter spl s) = length (filter (split_at ds) (group ids i))) by (rewrite I1; apply filter_len_perm; exact Pm).
  assert (I3 : (length s - length (inter spl s))%nat = length (filter (fun j => negb (split_at ds j)) (group ids i))) by (rewrite I2, (Permutation_length Pm); apply filter_len_compl).
  split; [|split; [intros _; exact I3|intros _; exact M]]. unfold mixed. cbn [andb]. rewrite existsb_filter, <- I2, <- I3. f_equal. destruct (Nat.ltb_spec (length (inter spl s)) (length s)), (Nat.ltb_spec 0 (length s - length (inter spl s))); try reflexivity; lia.
Qed.

Lemma share_ok : contiguous ids ->
  (pref = true -> forall i, (i < length ds)%nat -> existsb (split_at ds) (group ids i) = true -> (length (filter (fun j => negb (split_at ds j)) (group ids i)) <= 1)%nat) ->
  exists d, read_phonon_data P eig avg pref file = Ok d /\ p_cell d = cell /\ p_atoms d = ats /\ p_rows d = rows /\ length (p_weights d) = Nat.max nq (length ds) /\
    (forall i d0, (i < length ds)%nat -> nth i (p_weights d) 0%R = share avg pref ds i (wt (nth i ds d0))) /\
    (forall i, (length ds <= i)%nat -> nth i (p_weights d) 0%R = 0%R).
Proof.
  intros C HM. pose proof (read_upto P eig avg pref h na nb nq cell ats bs ds H F) as RU. cbv zeta in RU. fold rows in RU. fold file in RU.
  assert (Lw : length (map r_weight rows) = Nat.max nq (length ds)) by (rewrite map_length; apply length_rows).
  destruct (Bool.bool_dec (avg || pref) true) as [AP|AP].
  - pose proof (rep_of avg pref ds eig nums_pos AP) as G. pose proof (split_of avg pref ds eig) as S. destruct (track avg pref 0 (-1) (map (block_of eig) ds) [] []) as [rep spl]. cbn [fst snd] in G, S. fold ids in G.
    destruct (correct_ok avg pref spl rep (map r_weight rows)) as (ws & E & Lws & V1 & V2).
    + intros k s I MX. pose proof G as (_ & G2 & _). assert (NE : exists i, In i s).
      { destruct s as [|i s]; [|exists i; left; reflexivity]. unfold mixed in MX. cbn in MX. rewrite andb_false_r in MX. discriminate. }
      destruct NE as (i & Ii). destruct (mixed_group s rep i k C G I Ii spl S) as (A & B & _). rewrite A in MX. apply andb_prop in MX. destruct MX as (MX & M3). apply andb_prop in MX. destruct MX as (M1 & M2).
      rewrite (B M1). apply Nat.ltb_lt in M3. assert (Hi : (i < length ds)%nat) by (apply (G2 k s I) in Ii; destruct Ii as ((Q & _) & _); unfold ids in Q; rewrite map_length in Q; exact Q). specialize (HM M1 i Hi M2). lia.
    + intros k s k' s' i I I' Ii Ii'. destruct G as (_ & G2 & _). apply (G2 k s I) in Ii. apply (G2 k' s' I') in Ii'. destruct Ii as (_ & <-), Ii' as (_ & <-). reflexivity.
    + destruct G as (G1 & _). exact G1.
    + rewrite E in RU. eexists. split; [exact RU|]. cbn [p_cell p_atoms p_rows p_weights]. split; [reflexivity|]. split; [reflexivity|]. split; [reflexivity|]. split; [congruence|].
      assert (Hent : forall i, (length ds <= i)%nat -> forall k s, In (k, s) rep -> ~ In i s).
      { intros i Hi k s I Ii. destruct G as (_ & G2 & _). apply (G2 k s I) in Ii. destruct Ii as ((Q & _) & _). unfold ids in Q. rewrite map_length in Q. lia. }
      split.
      * intros i d0 Hi. rewrite <- (nth_weight i Hi d0). assert (Hi' : (i < length (map r_weight rows))%nat) by lia.
        destruct (in_dec Z.eq_dec (nth i ids 0) (keys rep)) as [K|K].
        -- apply in_map_iff in K. destruct K as ([k s] & K1 & K2). cbn in K1. subst k. destruct G as (G1 & G2 & G3) eqn:GE. destruct (G2 _ _ K2) as (_ & M).
           destruct (in_dec Nat.eq_dec i s) as [Ii|Ni].
           ++ rewrite (V1 _ _ i K2 Ii Hi'). pose proof (mixed_group s rep i (nth i ids 0) C (conj G1 (conj G2 G3)) K2 Ii spl S) as (A & B & D). unfold value, share. fold ids. rewrite A.
              destruct (pref && existsb (split_at ds) (group ids i) && Nat.ltb 0 (length (filter (fun j => negb (split_at ds j)) (group ids i))))%bool eqn:MX.
              ** assert (PR : pref = true) by (destruct pref; [reflexivity|discriminate]). rewrite (D PR). reflexivity.
              ** rewrite (Permutation_length (entry_group ids rep i _ s C (conj G1 (conj G2 G3)) K2 Ii)). reflexivity.
           ++ assert (NL : ~ linked ids i) by (intros Q; apply Ni, M; split; [exact Q|reflexivity]).
              rewrite V2; [|exact Hi'|].
              2:{ intros k1 s1 Q1 Q2. apply (G2 k1 s1 Q1) in Q2. destruct Q2 as (Q2 & _). exact (NL Q2). }
              assert (Hl : (i < length ids)%nat) by (unfold ids; rewrite map_length; exact Hi). pose proof (alone_group ids i C Hl NL) as L1.
              symmetry. apply share_alone; assumption.
        -- assert (NL : ~ linked ids i) by (intros Q; destruct G as (_ & _ & G3); destruct (G3 i Q) as (s & I); apply K; apply (in_map fst) in I; exact I).
           rewrite V2; [|exact Hi'|].
           2:{ intros k1 s1 Q1 Q2. destruct G as (_ & G2 & _). apply (G2 k1 s1 Q1) in Q2. destruct Q2 as (Q2 & _). exact (NL Q2). }
           assert (Hl : (i < length ids)%nat) by (unfold ids; rewrite map_length; exact Hi). pose proof (alone_group ids i C Hl NL) as L1.
           symmetry. apply share_alone; assumption.
      * intros i Hi. destruct (Nat.lt_ge_cases i (length (map r_weight rows))) as [Q|Q]; [|apply nth_overflow; lia]. rewrite V2 by (try exact Q; exact (Hent i Hi)). apply nth_weight_extra. exact Hi.
  - destruct avg, pref; try (exfalso; apply AP; reflexivity). rewrite track_none in RU. cbn [correct] in RU. eexists. split; [exact RU|]. cbn [p_cell p_atoms p_rows p_weights]. split; [reflexivity|]. split; [reflexivity|]. split; [reflexivity|]. split; [exact Lw|].
    split; [intros i d0 Hi; rewrite (nth_weight i Hi d0); reflexivity|exact nth_weight_extra].
Qed.

Lemma ambiguous_ok i : contiguous ids -> pref = true -> (i < length ds)%nat -> existsb (split_at ds) (group ids i) = true ->
  (1 < length (filter (fun j => negb (split_at ds j)) (group ids i)))%nat -> read_phonon_data P eig avg pref file = Err Ambiguous.
Proof.
  intros C PR Hi ES Two. pose proof (read_upto P eig avg pref h na nb nq cell ats bs ds H F) as RU. cbv zeta in RU. fold rows in RU. fold file in RU.
  assert (AP : (avg || pref)%bool = true) by (rewrite PR; apply orb_true_r).
  pose proof (rep_of avg pref ds eig nums_pos AP) as G. pose proof (split_of avg pref ds eig) as S. destruct (track avg pref 0 (-1) (map (block_of eig) ds) [] []) as [rep spl]. cbn [fst snd] in G, S. fold ids in G.
  assert (Hl : (i < length ids)%nat) by (unfold ids; rewrite map_length; exact Hi).
  assert (Lk : linked ids i).
  { apply linked_not_alone; [exact C|exact Hl|]. set (g := group ids i) in *. assert (ND : NoDup g) by apply group_nodup.
    assert (L2 : (1 < length g)%nat) by (pose proof (filter_len_le (fun j => negb (split_at ds j)) g); lia).
    destruct g as [|a [|b g]]; cbn in L2; try lia. destruct (Nat.eq_dec a i) as [->|N]; [exists b|exists a; split; [exact N|left; reflexivity]]. split; [|right; left; reflexivity]. inversion ND as [|? ? N1 N2]. intros ->. apply N1. left. reflexivity. }
  pose proof G as (G1 & G2 & G3). destruct (G3 i Lk) as (s & I). destruct (G2 _ _ I) as (_ & M). assert (Ii : In i s) by (apply M; split; [exact Lk|reflexivity]).
  destruct (mixed_group s rep i _ C G I Ii spl S) as (A & B & _).
  rewrite (correct_ambiguous avg pref spl rep (map r_weight rows) _ s I) in RU; [exact RU| |].
  - rewrite A, PR, ES. cbn [andb]. apply Nat.ltb_lt. lia.
  - rewrite (B PR). lia.
Qed.
End Whole.

(** ** Total weight *)
Lemma Sum_groups_Z {A} (label : A -> Z) (l : list A) (labels : list Z) (f : A -> R) : NoDup labels ->
  (forall a, In a l -> In (label a) labels) -> Sum labels (fun s => Sum (filter (fun a => label a =? s) l) f) = Sum l f.
Proof.
  intros ND Hin. induction l as [|a l IH].
  - cbn [filter]. rewrite Sum_nil. apply Sum_zero_ext. intros; exact (Sum_nil f).
  - rewrite Sum_cons, <- IH by (intros b Hb; apply Hin; right; exact Hb).
    rewrite (Sum_ext _ _ (fun s => (if label a =? s then f a else 0) + Sum (filter (fun a => label a =? s) l) f)%R).
    2:{ intros s _. cbn [filter]. destruct (label a =? s); [rewrite Sum_cons|]; lra. }
    rewrite Sum_plus. f_equal. assert (Hl : In (label a) labels) by (apply Hin; left; reflexivity). clear - ND Hl.
    induction labels as [|s ls IH]; [destruct Hl|]. inversion ND as [|? ? N1 N2]. subst. rewrite Sum_cons. destruct (Z.eqb_spec (label a) s) as [E|E].
    + rewrite (Sum_zero_ext ls); [lra|]. intros t Ht. destruct (Z.eqb_spec (label a) t) as [E'|]; [|reflexivity]. exfalso. apply N1. congruence.
    + destruct Hl as [Hl|Hl]; [congruence|]. rewrite (IH N2 Hl). lra.
Qed.
Lemma Rsum_nth l : Rsum l = Sum (seq 0 (length l)) (fun i => nth i l 0%R).
Proof. induction l as [|x l IH]; [reflexivity|]. cbn [length seq]. rewrite Sum_cons. change (Rsum (x :: l)) with (x + Rsum l)%R. rewrite IH, <- seq_shift, Sum_map. reflexivity. Qed.
Lemma total_of (ids : list Z) (w : Z -> R) :
  Sum (seq 0 (length ids)) (fun i => (w (nth i ids 0%Z) / INR (length (group ids i)))%R) = Sum (nodup Z.eq_dec ids) w.
Proof.
  rewrite <- (Sum_groups_Z (fun i => nth i ids 0) (seq 0 (length ids)) (nodup Z.eq_dec ids)).
  2:{ apply NoDup_nodup. } 2:{ intros i I. apply in_seq in I. apply nodup_In, nth_In. lia. }
  apply Sum_ext. intros k K. apply nodup_In in K. apply (In_nth _ _ 0) in K. destruct K as (i & Hi & <-). fold (group ids i).
  rewrite (Sum_ext _ _ (fun _ => (w (nth i ids 0%Z) / INR (length (group ids i)))%R)).
  - rewrite Sum_const. field. apply not_0_INR. assert (In i (group ids i)) by (apply group_in; split; [exact Hi|reflexivity]). destruct (group ids i); [contradiction|discriminate].
  - intros j J. apply group_in in J. destruct J as (Hj & E). rewrite E. f_equal. f_equal. f_equal. unfold group. rewrite E. reflexivity.
Qed.

(** ** Truncation *)
Section Cut.
Context {L : Type}.
Variable P : parser L.
Lemma readlines_short n (f : list L) : (length f <= n)%nat -> readlines n f = (map Some f ++ repeat None (n - length f), []).
Proof.
  revert f. induction n as [|n IH]; intros f H; [destruct f; [reflexivity|cbn in H; lia]|]. destruct f as [|x f]; cbn [readlines readline].
  - rewrite IH by (cbn; lia). cbn [length map app Nat.sub]. rewrite Nat.sub_0_r. reflexivity.
  - rewrite IH by (cbn in H; lia). reflexivity.
Qed.
Lemma parse_missing {A} (p : L -> option A) l : In None l -> parse_all None p l = Err Raise.
Proof. unfold parse_all. induction l as [|o l IH]; intros []; cbn [mapE]; [subst; reflexivity|]. destruct o as [x|]; [|reflexivity]. destruct (p x); [|reflexivity]. rewrite IH by assumption. reflexivity. Qed.
Lemma parse_err {A} e (p : L -> option A) l x : parse_all e p l = Err x -> x = Raise.
Proof. unfold parse_all. induction l as [|o l IH]; cbn [mapE]; [discriminate|]. destruct (match o with None => e | Some x => p x end); [|congruence]. destruct (mapE _ l); [discriminate|intros E; apply IH; congruence]. Qed.
Lemma parse_empty {A} (p : L -> option (list A)) l rows : In None l -> parse_all (Some []) p l = Ok rows -> In [] rows.
Proof.
  unfold parse_all. revert rows. induction l as [|o l IH]; intros rows I E; [destruct I|]. cbn [mapE] in E. destruct (match o with None => Some [] | Some x => p x end) as [a|] eqn:Q; [|discriminate].
  destruct (mapE _ l) as [r|] eqn:R; [|discriminate]. assert (rows = a :: r) by congruence. subst. destruct I as [->|I]; [left; congruence|right; apply (IH r I eq_refl)].
Qed.
Lemma missing_in n (f : list L) : (length f < n)%nat -> In None (fst (readlines n f)).
Proof. intros H. rewrite readlines_short by lia. cbn. apply in_or_app. right. destruct (n - length f)%nat eqn:E; [lia|]. left. reflexivity. Qed.
Lemma readlines_skip n : forall f : list L, snd (readlines n f) = skipn n f.
Proof. induction n as [|n IH]; intros f; [reflexivity|]. cbn [readlines]. destruct f as [|x f]; cbn [readline]; [|specialize (IH f); destruct (readlines n f); exact IH]. specialize (IH []). destruct (readlines n []). cbn in *. rewrite IH. destruct n; reflexivity. Qed.

(** A block with a line missing is never accepted. *)
Lemma short_block na nb fuel (f : list L) : (0 < na)%nat -> (0 < nb)%nat -> (0 < length f)%nat -> (length f < 3 + nb + na * nb)%nat ->
  read_blocks P (S fuel) true na nb f = Err Raise.
Proof.
  intros Ha Hb H0 H1. cbn [read_blocks]. unfold read_frequency_block. destruct f as [|q f]; [cbn in H0; lia|]. cbn [readline length] in *.
  destruct (q_id P q); [|reflexivity]. destruct (nth_error (q_floats P q) 3); [|reflexivity].
  destruct (le_lt_dec nb (length f)) as [Q|Q].
  2:{ pose proof (missing_in nb f Q) as M. destruct (readlines nb f) as [ls f2]. cbn [fst] in M. rewrite (parse_missing (freq_of P) ls M). reflexivity. }
  pose proof (readlines_skip nb f) as Sk. destruct (readlines nb f) as [ls f2]. cbn [snd] in Sk. destruct (parse_all None (freq_of P) ls) as [fr|e] eqn:PF; [|rewrite (parse_err _ _ _ _ PF); reflexivity].
  unfold read_evecs. pose proof (readlines_skip 2 f2) as Sk2. destruct (readlines 2 f2) as [l2 f3]. cbn [snd] in Sk2.
  assert (L3 : (length f3 < na * nb)%nat) by (rewrite Sk2, skipn_length, Sk, skipn_length; nia).
  pose proof (missing_in (na * nb) f3 L3) as M. destruct (readlines (na * nb) f3) as [ls3 f4]. cbn [fst] in M.
  destruct (parse_all (Some []) (evec_row P) ls3) as [rows|e] eqn:PE; [|rewrite (parse_err _ _ _ _ PE); reflexivity].
  pose proof (parse_empty (evec_row P) ls3 rows M PE) as E. destruct (Nat.leb 6 (length (hd [] rows)) && same_length (length (hd [] rows)) rows)%bool eqn:T; [|reflexivity].
  exfalso. apply andb_prop in T. destruct T as (T1 & T2). apply Nat.leb_le in T1. unfold same_length in T2. rewrite forallb_forall in T2. specialize (T2 [] E). apply Nat.eqb_eq in T2. cbn in T2. lia.
Qed.
Lemma blocks_then na nb eig bs ds rest : (0 < na)%nat -> (0 < nb)%nat -> Forall2 (says P na nb) bs ds ->
  forall fuel, (length bs < fuel)%nat -> exists fuel', (0 < fuel')%nat /\ (forall e, read_blocks P fuel' eig na nb rest = Err e -> read_blocks P fuel eig na nb (flat_map lines_of bs ++ rest) = Err e).
Proof.
  intros Ha Hb F. induction F as [|b d bs ds S F IH]; intros fuel Hf.
  - exists fuel. split; [exact Hf|]. intros e E. exact E.
  - destruct fuel as [|fuel]; [cbn in Hf; lia|]. cbn [length] in Hf. destruct (IH fuel ltac:(lia)) as (fuel' & Hp & K). exists fuel'. split; [exact Hp|]. intros e E. cbn [flat_map]. unfold lines_of at 1. cbn [read_blocks]. rewrite <- !app_assoc. cbn [app]. rewrite <- !app_assoc.
    rewrite (freq_block_ok P na nb b d _ S). pose proof (evecs_ok P na nb b d eig (flat_map lines_of bs ++ rest) Ha Hb S) as EV. cbn [app] in EV |- *. rewrite EV. rewrite (K e E). reflexivity.
Qed.
Lemma header_then h na nb nq cell ats eig avg pref f : header_says P h na nb nq cell ats -> forall e, read_blocks P (S (length f)) eig na nb f = Err e ->
  read_phonon_data P eig avg pref (header_lines h ++ f) = Err e.
Proof.
  intros H e E. pose proof H as (Ha & Hb & I1 & I2 & I3 & _). unfold read_phonon_data, header_lines. rewrite <- !app_assoc. cbn [app readline readlines].
  change [Some (hna h); Some (hnb h); Some (hnq h)] with (map Some [hna h; hnb h; hnq h]).
  rewrite (parse_ok None (last_int P) [hna h; hnb h; hnq h] [Z.of_nat na; Z.of_nat nb; Z.of_nat nq]) by (repeat constructor; assumption).
  rewrite !(proj2 (Z.ltb_ge _ _)) by lia. cbn [orb]. rewrite !Nat2Z.id.
  pose proof (crystal_ok P h na nb nq cell ats f H) as C. cbn [app] in C. rewrite C, E. reflexivity.
Qed.
Lemma cut_block h na nb nq cell ats bs ds avg pref rest : header_says P h na nb nq cell ats -> Forall2 (says P na nb) bs ds ->
  (0 < length rest)%nat -> (length rest < 3 + nb + na * nb)%nat ->
  read_phonon_data P true avg pref (header_lines h ++ flat_map lines_of bs ++ rest) = Err Raise.
Proof.
  intros H F H0 H1. pose proof H as (Ha & Hb & _). apply (header_then h na nb nq cell ats true avg pref _ H).
  destruct (blocks_then na nb true bs ds rest Ha Hb F (S (length (flat_map lines_of bs ++ rest)))) as (fuel' & Hp & K).
  - rewrite app_length. pose proof (length_lines bs). lia.
  - apply K. destruct fuel' as [|fuel']; [lia|]. apply short_block; assumption.
Qed.

(** Header *)
Lemma cut_first (f : list L) eig avg pref : (length f < 4)%nat -> read_phonon_data P eig avg pref f = Err Raise.
Proof.
  intros H. unfold read_phonon_data. destruct f as [|x f]; cbn [readline].
  - pose proof (missing_in 3 ([] : list L) ltac:(cbn; lia)) as M. destruct (readlines 3 []) as [l r]. cbn [fst] in M. rewrite (parse_missing _ l M). reflexivity.
  - pose proof (missing_in 3 f ltac:(cbn in H; lia)) as M. destruct (readlines 3 f) as [l r]. cbn [fst] in M. rewrite (parse_missing _ l M). reflexivity.
Qed.
Lemma find_cell_none f : (forall x, In x f -> has_ucv P x = false) -> find_cell P f = Err Hang.
Proof. induction f as [|x f IH]; intros H; [reflexivity|]. cbn [find_cell]. rewrite (H x) by (left; reflexivity). apply IH. intros y I. apply H. right. exact I. Qed.
Lemma four_lines a b c d rest na nb nq eig avg pref : last_int P b = Some (Z.of_nat na) -> last_int P c = Some (Z.of_nat nb) -> last_int P d = Some (Z.of_nat nq) ->
  forall e, read_crystal_info P na rest = Err e -> read_phonon_data P eig avg pref ([a; b; c; d] ++ rest) = Err e.
Proof.
  intros I1 I2 I3 e E. unfold read_phonon_data. cbn [app readline readlines]. change [Some b; Some c; Some d] with (map Some [b; c; d]).
  rewrite (parse_ok None (last_int P) [b; c; d] [Z.of_nat na; Z.of_nat nb; Z.of_nat nq]) by (repeat constructor; assumption).
  rewrite !(proj2 (Z.ltb_ge _ _)) by lia. cbn [orb]. rewrite !Nat2Z.id, E. reflexivity.
Qed.
Lemma cut_atoms na more c f : (0 < na)%nat -> (forall x, In x more -> has_ucv P x = false) -> has_ucv P c = true -> (length f < 4 + na)%nat ->
  read_crystal_info P na (more ++ c :: f) = Err Raise.
Proof.
  intros Ha M C H. unfold read_crystal_info. rewrite (find_cell_ok P more c f M C). pose proof (readlines_skip 3 f) as S3. destruct (readlines 3 f) as [l f2]. cbn [snd] in S3.
  destruct (parse_all (Some []) (cell_row P) l) as [rows|e] eqn:PC; [|rewrite (parse_err _ _ _ _ PC); reflexivity]. destruct (negb (same_length (length (hd [] rows)) rows)); [reflexivity|].
  assert (Q : exists o, readline f2 = (o, skipn 1 f2)) by (destruct f2; cbn; eexists; reflexivity). destruct Q as (o & ->).
  assert (Hs : (length (skipn 1 f2) < na)%nat) by (rewrite skipn_length, S3, skipn_length; lia).
  pose proof (missing_in na (skipn 1 f2) Hs) as Mi. destruct (readlines na (skipn 1 f2)) as [l2 r2]. cbn [fst] in Mi. rewrite (parse_missing _ l2 Mi). reflexivity.
Qed.
End Cut.

Lemma group_same ids i j : In j (group ids i) -> group ids j = group ids i.
Proof. intros J. apply group_in in J. destruct J as (_ & E). unfold group. rewrite E. reflexivity. Qed.
Lemma Sum_choice {A} (l : list A) (f : A -> bool) (w : R) : Sum l (fun j => if f j then 0%R else w) = (INR (length (filter (fun j => negb (f j)) l)) * w)%R.
Proof.
  induction l as [|x l IH]; [cbn [filter length INR]; rewrite Sum_nil; ring|]. rewrite Sum_cons, IH. cbn [filter]. destruct (f x); cbn [negb]; [ring|].
  change (length (x :: filter (fun j => negb (f j)) l)) with (S (length (filter (fun j => negb (f j)) l))). rewrite S_INR. ring.
Qed.
Lemma share_total pref ds (w : Z -> R) : let ids := map num ds in
  (pref = true -> forall i, (i < length ds)%nat -> existsb (split_at ds) (group ids i) = true -> (length (filter (fun j => negb (split_at ds j)) (group ids i)) <= 1)%nat) ->
  Sum (seq 0 (length ids)) (fun i => share true pref ds i (w (nth i ids 0))) = Sum (nodup Z.eq_dec ids) w.
Proof.
  intros ids HM. rewrite <- (Sum_groups_Z (fun i => nth i ids 0) (seq 0 (length ids)) (nodup Z.eq_dec ids)).
  2:{ apply NoDup_nodup. } 2:{ intros i I. apply in_seq in I. apply nodup_In, nth_In. lia. }
  apply Sum_ext. intros k K. apply nodup_In in K. apply (In_nth _ _ 0) in K. destruct K as (i & Hi & <-). fold (group ids i).
  set (c := (pref && existsb (split_at ds) (group ids i) && Nat.ltb 0 (length (filter (fun j => negb (split_at ds j)) (group ids i))))%bool).
  rewrite (Sum_ext _ _ (fun j => if c then (if split_at ds j then 0%R else w (nth i ids 0)) else (w (nth i ids 0%Z) / INR (length (group ids i)))%R)).
  2:{ intros j J. unfold share. fold ids. rewrite (group_same ids i j J). fold c. apply group_in in J. destruct J as (_ & ->). reflexivity. }
  destruct c eqn:Ec.
  - rewrite Sum_choice. apply andb_prop in Ec. destruct Ec as (Ec & E3). apply andb_prop in Ec. destruct Ec as (E1 & E2). apply Nat.ltb_lt in E3.
    assert (Hd : (i < length ds)%nat) by (unfold ids in Hi; rewrite map_length in Hi; exact Hi). specialize (HM E1 i Hd E2).
    replace (length (filter (fun j => negb (split_at ds j)) (group ids i))) with 1%nat by lia. cbn [INR]. ring.
  - rewrite Sum_const. field. apply not_0_INR. assert (In i (group ids i)) by (apply group_in; split; [exact Hi|reflexivity]). destruct (group ids i); [contradiction|discriminate].
Qed.
Lemma sum_beyond (l : list R) n : (n <= length l)%nat -> (forall i, (n <= i)%nat -> nth i l 0%R = 0%R) -> Rsum l = Sum (seq 0 n) (fun i => nth i l 0%R).
Proof.
  intros H Z. rewrite Rsum_nth. replace (length l) with (n + (length l - n))%nat by lia. rewrite seq_app, Sum_app. rewrite (Sum_zero_ext (seq (0 + n) _)); [ring|]. intros i I. apply in_seq in I. apply Z. lia.
Qed.

Section Main.
Context {L : Type}.
Variable P : parser L.
Variables (eig avg pref : bool) (h : header L) (na nb nq : nat) (cell : list (list R)) (ats : list atom) (bs : list (fblock L)) (ds : list qdata).
Hypothesis H : header_says P h na nb nq cell ats.
Hypothesis F : Forall2 (says P na nb) bs ds.
Hypothesis C : contiguous (map num ds).
Let ids := map num ds.
Let file := header_lines h ++ flat_map lines_of bs.

Lemma average_main : exists d, read_phonon_data P eig true false file = Ok d /\ length (p_weights d) = Nat.max nq (length ds) /\
  (forall i d0, (i < length ds)%nat -> nth i (p_weights d) 0%R = (wt (nth i ds d0) / INR (length (group ids i)))%R) /\
  (forall i, (length ds <= i)%nat -> nth i (p_weights d) 0%R = 0%R).
Proof.
  destruct (share_ok P eig true false h na nb nq cell ats bs ds H F C ltac:(discriminate)) as (d & E & _ & _ & _ & Lw & V & Z). exists d. split; [exact E|]. split; [exact Lw|]. split; [|exact Z].
  intros i d0 Hi. rewrite (V i d0 Hi). reflexivity.
Qed.
Lemma total_main (w : Z -> R) : (forall x, In x ds -> wt x = w (num x)) ->
  (pref = true -> forall i, (i < length ds)%nat -> existsb (split_at ds) (group ids i) = true -> (length (filter (fun j => negb (split_at ds j)) (group ids i)) <= 1)%nat) ->
  exists d, read_phonon_data P eig true pref file = Ok d /\ Rsum (p_weights d) = Sum (nodup Z.eq_dec ids) w.
Proof.
  intros W HM. destruct (share_ok P eig true pref h na nb nq cell ats bs ds H F C HM) as (d & E & _ & _ & _ & Lw & V & Z). exists d. split; [exact E|].
  rewrite (sum_beyond (p_weights d) (length ds)) by (try exact Z; lia). refine (eq_trans _ (share_total pref ds w HM)). rewrite map_length. apply Sum_ext. intros i I. apply in_seq in I.
  assert (Hi : (i < length ds)%nat) by lia. set (d0 := {| num := 0; pt := []; wt := 0%R; direction := None; freqs := []; vecs := [] |}). rewrite (V i d0 Hi). f_equal. rewrite (map_nth_indep num ds i d0 0 Hi). apply W, nth_In, Hi.
Qed.
Lemma prefer_main : 
  (forall i, (i < length ds)%nat -> existsb (split_at ds) (group ids i) = true -> (length (filter (fun j => negb (split_at ds j)) (group ids i)) <= 1)%nat) ->
  exists d, read_phonon_data P eig avg true file = Ok d /\
    forall i d0, (i < length ds)%nat ->
      ((exists j, In j (group ids i) /\ split_at ds j = true) -> (exists j, In j (group ids i) /\ split_at ds j = false) ->
        nth i (p_weights d) 0%R = if split_at ds i then 0%R else wt (nth i ds d0)) /\
      ((forall j, In j (group ids i) -> split_at ds j = split_at ds i) ->
        nth i (p_weights d) 0%R = if avg then (wt (nth i ds d0) / INR (length (group ids i)))%R else wt (nth i ds d0)).
Proof.
  intros HM. destruct (share_ok P eig avg true h na nb nq cell ats bs ds H F C (fun _ => HM)) as (d & E & _ & _ & _ & Lw & V & Z). exists d. split; [exact E|].
  intros i d0 Hi. rewrite (V i d0 Hi). unfold share. fold ids. split.
  - intros (j & J1 & J2) (k & K1 & K2). rewrite (proj2 (existsb_exists _ _)) by (exists j; split; assumption). rewrite (proj2 (Nat.ltb_lt _ _)); [reflexivity|].
    assert (Q : In k (filter (fun j => negb (split_at ds j)) (group ids i))) by (apply filter_In; split; [exact K1|rewrite K2; reflexivity]). destruct (filter _ _); [destruct Q|cbn; lia].
  - intros S. destruct (split_at ds i) eqn:Si.
    + replace (filter (fun j => negb (split_at ds j)) (group ids i)) with (@nil nat); [rewrite andb_false_r; reflexivity|]. symmetry. destruct (filter _ _) as [|x l] eqn:Q; [reflexivity|]. exfalso.
      assert (I : In x (x :: l)) by (left; reflexivity). rewrite <- Q in I. apply filter_In in I. destruct I as (I1 & I2). rewrite (S x I1) in I2. discriminate.
    + replace (existsb (split_at ds) (group ids i)) with false; [reflexivity|]. symmetry. destruct (existsb _ _) eqn:Q; [|reflexivity]. apply existsb_exists in Q. destruct Q as (x & I1 & I2). rewrite (S x I1) in I2. discriminate.
Qed.
End Main.

Lemma rows_main {L} (P : parser L) eig avg h na nb nq cell ats bs ds : header_says P h na nb nq cell ats -> Forall2 (says P na nb) bs ds -> contiguous (map num ds) ->
  exists d, read_phonon_data P eig avg false (header_lines h ++ flat_map lines_of bs) = Ok d /\ p_cell d = cell /\ p_atoms d = ats /\
    map r_qpt (p_rows d) = map pt ds ++ repeat [0; 0; 0]%R (nq - length ds) /\
    map r_freqs (p_rows d) = map freqs ds ++ repeat (repeat 0%R nb) (nq - length ds) /\
    (eig = true -> map r_evec (p_rows d) = map vecs ds ++ repeat (repeat (repeat 0%R 6) (na * nb)) (nq - length ds)).
Proof.
  intros H F C. destruct (share_ok P eig avg false h na nb nq cell ats bs ds H F C ltac:(discriminate)) as (d & E & E1 & E2 & E3 & _). exists d. split; [exact E|]. split; [exact E1|]. split; [exact E2|].
  assert (R : forall {A} (f : row -> A) x n, map f (repeat x n) = repeat (f x) n) by (intros A f x n; induction n as [|n IH]; cbn; congruence).
  rewrite E3, !map_app, !R, !map_map. split; [reflexivity|]. split; [reflexivity|]. intros ->. reflexivity.
Qed.

(** Without any option the weights and rows are those of the file, whatever the numbers. *)
Lemma plain_main {L} (P : parser L) eig h na nb nq cell ats bs ds : header_says P h na nb nq cell ats -> Forall2 (says P na nb) bs ds ->
  exists d, read_phonon_data P eig false false (header_lines h ++ flat_map lines_of bs) = Ok d /\ p_weights d = map wt ds ++ repeat 0%R (nq - length ds).
Proof.
  intros H F. pose proof (read_upto P eig false false h na nb nq cell ats bs ds H F) as E. cbv zeta in E. rewrite track_none in E. cbn [correct] in E. eexists. split; [exact E|]. cbn [p_weights].
  rewrite map_app, !map_map. f_equal. clear. generalize (nq - length ds)%nat as n. induction n as [|n IH]; [reflexivity|]. cbn [repeat map]. rewrite IH. reflexivity.
Qed.

Lemma phonopy_sum ws : Rsum ws <> 0%R -> Rsum (convert_weights ws) = 1%R.
Proof.
  intros N. unfold convert_weights. change (Rsum (map (fun w => (w / Rsum ws)%R) ws)) with (Sum ws (fun w => (w / Rsum ws)%R)).
  rewrite (Sum_ext _ _ (fun w => (w * / Rsum ws)%R)) by reflexivity. rewrite Sum_scal_r. replace (Sum ws (fun w => w)) with (Rsum ws) by (unfold Sum; rewrite map_id; reflexivity). field. exact N.
Qed.

Lemma phonopy_main ws : Rsum ws <> 0%R -> Rsum (convert_weights ws) = 1%R /\ length (convert_weights ws) = length ws /\
  forall i, (i < length ws)%nat -> (nth i (convert_weights ws) 0 * Rsum ws = nth i ws 0)%R.
Proof.
  intros N. split; [apply phonopy_sum; exact N|]. split; [apply map_length|]. intros i Hi. unfold convert_weights. rewrite (map_nth_indep _ _ _ 0%R 0%R Hi). field. exact N.
Qed.
Lemma cut_len na nb n : (n < 1 + nb + 2 + na * nb)%nat -> (n < 3 + nb + na * nb)%nat.
Proof. lia. Qed.
Lemma contents_main (L : Type) (P : parser L) (eig avg : bool) h na nb nq cell ats bs ds :
  header_says P h na nb nq cell ats -> Forall2 (says P na nb) bs ds -> contiguous (map num ds) -> (nq <= length ds)%nat ->
  exists d, read_phonon_data P eig avg false (header_lines h ++ flat_map lines_of bs) = Ok d /\ p_cell d = cell /\ p_atoms d = ats /\
    map r_qpt (p_rows d) = map pt ds /\ map r_freqs (p_rows d) = map freqs ds /\ (eig = true -> map r_evec (p_rows d) = map vecs ds).
Proof.
  intros H F C Q. destruct (rows_main P eig avg h na nb nq cell ats bs ds H F C) as (d & E & E1 & E2 & E3 & E4 & E5). replace (nq - length ds)%nat with 0%nat in * by lia. cbn [repeat] in *. rewrite app_nil_r in *.
  exists d. repeat (split; [assumption|]). exact E5.
Qed.
Lemma cut_header_main (L : Type) (P : parser L) (eig avg pref : bool) h na nb nq cell ats f :
  header_says P h na nb nq cell ats ->
  ((length f < 4)%nat -> read_phonon_data P eig avg pref f = Err Raise) /\
  ((length f < 3 + 1 + na)%nat -> read_phonon_data P eig avg pref ([h0 h; hna h; hnb h; hnq h] ++ hmore h ++ [hcell h] ++ f) = Err Raise).
Proof.
  intros (Ha & Hb & I1 & I2 & I3 & M & C & _). split; [apply cut_first|]. intros Q. apply (four_lines P _ _ _ _ _ na nb nq eig avg pref I1 I2 I3). apply cut_atoms; try assumption; try lia.
Qed.
Lemma hang_main (L : Type) (P : parser L) (eig avg pref : bool) h na nb nq cell ats k :
  header_says P h na nb nq cell ats -> (4 <= k)%nat -> (k <= 4 + length (hmore h))%nat ->
  read_phonon_data P eig avg pref (firstn k (header_lines h)) = Err Hang.
Proof.
  intros (Ha & Hb & I1 & I2 & I3 & M & _) K1 K2. unfold header_lines. rewrite firstn_app. cbn [length]. rewrite firstn_all2 by (cbn; lia). apply (four_lines P _ _ _ _ _ na nb nq eig avg pref I1 I2 I3).
  unfold read_crystal_info. rewrite find_cell_none; [reflexivity|]. intros x I. rewrite firstn_app in I. replace (k - 4 - length (hmore h))%nat with 0%nat in I by lia. cbn [firstn] in I. rewrite app_nil_r in I. apply M.
  rewrite <- (firstn_skipn (k - 4) (hmore h)). apply in_or_app. left. exact I.
Qed.
Lemma missing_main (L : Type) (P : parser L) (eig : bool) h na nb nq cell ats bs ds :
  header_says P h na nb nq cell ats -> Forall2 (says P na nb) bs ds -> contiguous (map num ds) -> (length ds < nq)%nat ->
  exists d, read_phonon_data P eig true false (header_lines h ++ flat_map lines_of bs) = Ok d /\
    map r_qpt (p_rows d) = map pt ds ++ repeat [0; 0; 0]%R (nq - length ds) /\
    map r_freqs (p_rows d) = map freqs ds ++ repeat (repeat 0%R nb) (nq - length ds) /\
    (forall i, (length ds <= i)%nat -> nth i (p_weights d) 0%R = 0%R).
Proof.
  intros H F C Q. destruct (rows_main P eig true h na nb nq cell ats bs ds H F C) as (d & E & E1 & E2 & E3 & E4 & E5). destruct (average_main P eig h na nb nq cell ats bs ds H F C) as (d' & E' & _ & _ & Z).
  assert (d' = d) by congruence. subst d'. exists d. repeat (split; [assumption|]). exact Z.
Qed.
Lemma printed_header nq : header_says printed (print_header 1 3 nq cube one_atom) 1 3 nq cube one_atom.
Proof. unfold header_says, print_header, cube, one_atom. cbn. do 5 (split; [first [lia|reflexivity]|]). split; [intros x [<-|[<-|[]]]; reflexivity|]. repeat (split; [first [reflexivity|repeat constructor]|]). repeat constructor. Qed.
Lemma printed_block i q w dir : 0 <= i -> (forall v, dir = Some v -> length v = 3%nat) -> says printed 1 3 (print_block (sample i q w dir)) (sample i q w dir).
Proof. intros Hi Hd. unfold says, print_block, sample. cbn. split; [reflexivity|]. split; [exact Hi|]. split; [reflexivity|]. split; [reflexivity|]. split; [exact Hd|]. split; [reflexivity|]. split; [repeat constructor|]. split; [reflexivity|]. repeat constructor. Qed.
Lemma separated_main : exists h bs ds (w : Z -> R) d,
  header_says printed h 1 3 3 cube one_atom /\ Forall2 (says printed 1 3) bs ds /\ (forall x, In x ds -> wt x = w (num x)) /\
  read_phonon_data printed true true false (header_lines h ++ flat_map lines_of bs) = Ok d /\
  Sum (nodup Z.eq_dec (map num ds)) w = 1%R /\ Rsum (p_weights d) = (3 / 2)%R.
Proof.
  set (ds := [sample 1 0 (1/2) None; sample 2 1 (1/2) None; sample 1 0 (1/2) None]%R). exists (print_header 1 3 3 cube one_atom), (map print_block ds), ds, (fun _ => (1/2)%R).
  assert (F : Forall2 (says printed 1 3) (map print_block ds) ds) by (repeat constructor; apply printed_block; try lia; discriminate).
  pose proof (read_upto printed true true false _ 1 3 3 cube one_atom (map print_block ds) ds (printed_header 3) F) as E. cbv zeta in E.
  eexists. split; [apply printed_header|]. split; [exact F|]. split; [intros x [<-|[<-|[<-|[]]]]; reflexivity|]. split; [rewrite E; reflexivity|]. split.
  - change (nodup Z.eq_dec (map num ds)) with [2; 1]. unfold Sum. cbn. lra.
  - cbn. lra.
Qed.
Lemma case_main : header_says printed (print_header 1 3 2 cube one_atom) 1 3 2 cube one_atom /\
  (let ds := [sample 1 0 (1/2) None; sample 1 0 (1/2) (Some [1; 0; 0]); sample 1 0 (1/2) (Some [0; 1; 0]); sample 2 1 (1/2) None]%R in
   Forall2 (says printed 1 3) (map print_block ds) ds /\ contiguous (map num ds) /\ group (map num ds) 1 = [0; 1; 2]%nat /\
   (forall i, (i < length ds)%nat -> existsb (split_at ds) (group (map num ds) i) = true -> (length (filter (fun j => negb (split_at ds j)) (group (map num ds) i)) <= 1)%nat)).
Proof.
  split; [apply printed_header|]. cbv zeta. split; [repeat constructor; apply printed_block; try lia; intros v E; try discriminate E; injection E as <-; reflexivity|]. split.
  - intros i j k A B D. cbn in D. destruct i as [|[|[|[|i]]]]; destruct j as [|[|[|[|j]]]]; destruct k as [|[|[|[|k]]]]; cbn; try lia.
  - split; [reflexivity|]. intros i Hi. cbn [length] in Hi. destruct i as [|[|[|[|i]]]]; cbn; lia.
Qed.
Lemma hides_main : exists h bs ds d,
  header_says printed h 1 3 2 cube one_atom /\ Forall2 (says printed 1 3) bs ds /\ (forall x, In x ds -> num x = 1) /\
  read_phonon_data printed true true false (header_lines h ++ flat_map lines_of bs) = Ok d /\ length (p_rows d) = 2%nat /\
  (forall r, In r (p_rows d) -> r_qpt r = [0; 0; 0]%R).
Proof.
  set (ds := [sample 1 0 (1/2) None; sample 1 0 (1/2) (Some [1; 0; 0])]%R). exists (print_header 1 3 2 cube one_atom), (map print_block ds), ds.
  assert (F : Forall2 (says printed 1 3) (map print_block ds) ds) by (repeat constructor; apply printed_block; try lia; intros v E; try discriminate E; injection E as <-; reflexivity).
  pose proof (read_upto printed true true false _ 1 3 2 cube one_atom (map print_block ds) ds (printed_header 2) F) as E. cbv zeta in E.
  eexists. split; [apply printed_header|]. split; [exact F|]. split; [intros x [<-|[<-|[]]]; reflexivity|]. split; [rewrite E; reflexivity|]. split; [reflexivity|]. intros r [<-|[<-|[]]]; reflexivity.
Qed.
Lemma case48_main : header_says printed (print_header 1 3 2 cube one_atom) 1 3 2 cube one_atom /\
  Forall2 (says printed 1 3) [print_block (sample 1 0 (1/2) None)] [sample 1 0 (1/2) None] /\
  (0 < length (firstn 2 (lines_of (print_block (sample 2 1 (1/2) None)))) < 1 + 3 + 2 + 1 * 3)%nat.
Proof. split; [apply printed_header|]. split; [repeat constructor; apply printed_block; try lia; discriminate|]. cbn. lia. Qed.
