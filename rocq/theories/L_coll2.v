(** Lemmas for C31, C32, C34, C58: building, grouping, selecting, slicing. *)
From Coq Require Import String Sorted.
From Verif Require Import Base M_qpts M_path M_bins M_coll S_coll L_util L_struct L_qpts L_path2 L_dos2 L_bins2 L_coll.
Open Scope R_scope.

(** ** from_spectra *)
Lemma isclose_refl a : isclose (1 / 10 ^ 8) a a = true.
Proof.
  unfold isclose. apply Rleb_iff. rewrite Rminus_diag_eq by reflexivity. rewrite Rabs_R0.
  pose proof (Rabs_pos a). replace (10 ^ 8) with 100000000 by (simpl; lra). replace (10 ^ 5) with 100000 by (simpl; lra). lra.
Qed.
Lemma forallb_self {A} (f : A -> A -> bool) l : (forall a, f a a = true) -> forallb (fun p => f (fst p) (snd p)) (combine l l) = true.
Proof. intros H. induction l as [|a l IH]; [reflexivity|]. cbn [combine forallb fst snd]. rewrite H. exact IH. Qed.
Lemma all_close_refl l : all_close l l = true.
Proof. unfold all_close. rewrite Nat.eqb_refl. cbn [andb]. apply forallb_self. apply isclose_refl. Qed.
Lemma same_axes_refl l : same_axes l l = true.
Proof. unfold same_axes. rewrite Nat.eqb_refl. cbn [andb]. apply forallb_self. apply all_close_refl. Qed.
Lemma ticks_eqb_refl t : ticks_eqb t t = true.
Proof.
  destruct t as [t|]; [|reflexivity]. cbn. induction t as [|[z s] t IH]; [reflexivity|]. cbn [list_eqb]. rewrite IH.
  unfold tick_eqb. cbn [fst snd]. rewrite Z.eqb_refl, String.eqb_refl. reflexivity.
Qed.

Lemma from_spectra_ok ss s0 : ss <> [] -> In s0 ss -> alike_all ss ->
  exists c, from_spectra ss = Ok c /\ wf_coll c /\ clen c = length ss /\ c_axes c = s_axes s0 /\ c_ticks c = s_ticks s0 /\
    c_lines c = map s_data ss /\
    (forall kv, In kv (top (c_meta c)) <-> forall s, In s ss -> In kv (s_meta s)) /\
    forall i, (i < length ss)%nat -> same_entries (nth i (iter_metadata c) []) (s_meta (nth i ss s0)).
Proof.
  intros Ne I0 [Al Wm]. unfold from_spectra. destruct ss as [|s1 rest]; [congruence|].
  assert (A1 : alike s1 s0) by (apply Al; [left; reflexivity|exact I0]). destruct A1 as (A1 & A2 & A3).
  replace (forallb _ rest) with true.
  2:{ symmetry. apply forallb_forall. intros s I. destruct (Al s s1 (or_intror I) (or_introl eq_refl)) as (B1 & B2 & B3).
      rewrite B1, B2, B3, same_axes_refl, ticks_eqb_refl, Nat.eqb_refl. reflexivity. }
  set (ss := s1 :: rest) in *.
  destruct (build_coll (s_axes s1) (map s_data ss) (s_ticks s1) (map s_meta ss)) as (c & E & W & Ax & Ln & Tk & Tp & Sm).
  - discriminate.
  - rewrite !map_length. reflexivity.
  - intros l m A B. apply in_map_iff in A, B. destruct A as (a & <- & A), B as (b & <- & B). apply Al; assumption.
  - intros d I. apply in_map_iff in I. destruct I as (a & <- & I). apply Wm. exact I.
  - exists c. split; [exact E|]. split; [exact W|]. unfold clen. rewrite Ln, map_length. split; [reflexivity|].
    split; [congruence|]. split; [congruence|]. split; [reflexivity|]. split.
    + intros kv. rewrite Tp. split.
      * intros H s I. apply H. apply in_map. exact I.
      * intros H d I. apply in_map_iff in I. destruct I as (a & <- & I). apply H. exact I.
    + intros i Hi. specialize (Sm i ltac:(rewrite map_length; exact Hi)).
      rewrite (map_nth_indep _ _ _ s0 []) in Sm by exact Hi. exact Sm.
Qed.

Lemma round_trip ss : ss <> [] -> alike_all ss ->
  exists c, from_spectra ss = Ok c /\ clen c = length ss /\
  forall i s, nth_error ss i = Some s -> exists s', at_pos c i s' /\
    s_axes s' = s_axes s /\ s_ticks s' = s_ticks s /\ s_data s' = s_data s /\ same_entries (s_meta s') (s_meta s).
Proof.
  intros Ne A. destruct ss as [|s0 rest]; [congruence|]. set (ss := s0 :: rest) in *.
  assert (I0 : In s0 ss) by (left; reflexivity).
  destruct (from_spectra_ok ss s0 Ne I0 A) as (c & E & W & Lc & Ax & Tk & Ln & _ & Sm).
  exists c. split; [exact E|]. split; [exact Lc|]. intros i s Hs.
  assert (Hi : (i < length ss)%nat) by (apply nth_error_Some; congruence).
  assert (En : nth i ss s0 = s) by (apply nth_error_nth; exact Hs).
  eexists. split; [apply at_pos_iff; [exact W|lia|reflexivity]|]. cbn [s_axes s_ticks s_data s_meta].
  assert (Is : In s ss) by (rewrite <- En; apply nth_In; exact Hi).
  destruct (proj1 A s s0 Is I0) as (B1 & B2 & _). split; [congruence|]. split; [congruence|]. split.
  - rewrite Ln, (map_nth_indep _ _ _ s0 []) by exact Hi. rewrite En. reflexivity.
  - rewrite <- En. apply Sm. exact Hi.
Qed.

Lemma unambiguous ss c : alike_all ss -> from_spectra ss = Ok c ->
  (forall kv, In kv (top (c_meta c)) <-> forall s, In s ss -> In kv (s_meta s)) /\
  (forall ds d k, line_data (c_meta c) = Some ds -> In d ds -> In k (map fst d) -> ~ In k (map fst (top (c_meta c)))).
Proof.
  intros A E. destruct ss as [|s0 rest]; [discriminate|]. set (ss := s0 :: rest) in *.
  destruct (from_spectra_ok ss s0 ltac:(discriminate) (or_introl eq_refl) A) as (c' & E' & W & _ & _ & _ & _ & Tp & _).
  assert (c' = c) by congruence. subst c'. split; [exact Tp|]. intros ds d k El Id Ik.
  destruct W as (_ & _ & _ & Wl). rewrite El in Wl. apply (proj2 Wl d Id). exact Ik.
Qed.

(** ** Elements and addition *)
Lemma mapE_rel {A B E} (f : A -> res B E) (P : A -> B -> Prop) l : (forall a, In a l -> exists b, f a = Ok b /\ P a b) ->
  exists bs, mapE f l = Ok bs /\ Forall2 P l bs.
Proof.
  induction l as [|a l IH]; intros H; [exists []; split; [reflexivity|constructor]|].
  destruct (H a (or_introl eq_refl)) as (b & E1 & Pb). destruct IH as (bs & E2 & Pbs); [intros x Hx; apply H; right; exact Hx|].
  exists (b :: bs). cbn [mapE]. rewrite E1, E2. split; [reflexivity|constructor; assumption].
Qed.

Definition elem (c : coll) (i : nat) : spec :=
  mkS (c_axes c) (nth i (c_lines c) []) (c_ticks c) (nth i (iter_metadata c) []).
Lemma elements_ok c : wf_coll c -> elements c = Ok (map (elem c) (seq 0 (clen c))).
Proof.
  intros W. unfold elements. apply mapE_list. intros i Hi. apply in_seq in Hi. apply get_int_nat; [exact W|lia].
Qed.

Lemma add_collections a b : wf_coll a -> wf_coll b -> c_axes a = c_axes b -> c_ticks a = c_ticks b ->
  width (c_lines a) = width (c_lines b) ->
  exists c, cadd a b = Ok c /\ wf_coll c /\ clen c = (clen a + clen b)%nat /\ c_lines c = c_lines a ++ c_lines b /\
  c_axes c = c_axes a /\ c_ticks c = c_ticks a /\
  (forall i kv, (i < clen a)%nat -> (entry c i kv <-> entry a i kv)) /\
  (forall i kv, (i < clen b)%nat -> (entry c (clen a + i) kv <-> entry b i kv)).
Proof.
  intros Wa Wb Ax Tk Wd. unfold cadd. rewrite !elements_ok by assumption. cbn [bind].
  assert (Na : (0 < clen a)%nat) by (unfold clen; destruct Wa as [Wa _]; destruct (c_lines a); [congruence|cbn; lia]).
  set (la := map (elem a) (seq 0 (clen a))). set (lb := map (elem b) (seq 0 (clen b))).
  assert (Lla : length la = clen a) by (unfold la; rewrite map_length, seq_length; reflexivity).
  assert (Llb : length lb = clen b) by (unfold lb; rewrite map_length, seq_length; reflexivity).
  assert (Wid : forall c l, wf_coll c -> In l (c_lines c) -> length l = width (c_lines c)).
  { intros c l (_ & Eq & _) I. destruct (c_lines c) as [|l0 r] eqn:El; [destruct I|]. cbn [width]. apply Eq; [exact I|left; reflexivity]. }
  assert (Pr : forall s, In s (la ++ lb) -> s_axes s = c_axes a /\ s_ticks s = c_ticks a /\ length (s_data s) = width (c_lines a) /\ wf_dict (s_meta s)).
  { intros s I. apply in_app_iff in I. destruct I as [I|I]; apply in_map_iff in I; destruct I as (i & <- & I); apply in_seq in I; cbn [elem s_axes s_ticks s_data s_meta].
    - split; [reflexivity|]. split; [reflexivity|]. split; [apply Wid; [exact Wa|apply nth_In; unfold clen in I; lia]|].
      apply (proj2 (iter_spec a Wa)). lia.
    - split; [congruence|]. split; [congruence|]. split; [rewrite Wd; apply Wid; [exact Wb|apply nth_In; unfold clen in I; lia]|].
      apply (proj2 (iter_spec b Wb)). lia. }
  assert (Ne : la ++ lb <> []) by (destruct la; [cbn in Lla; lia|discriminate]).
  assert (I0 : In (elem a 0) (la ++ lb)).
  { apply in_app_iff. left. apply in_map. apply in_seq. lia. }
  destruct (from_spectra_ok (la ++ lb) (elem a 0) Ne I0) as (c & E & W & Lc & Cx & Ct & Ln & _ & Sm).
  - split; [|intros s I; apply Pr; exact I]. intros s t Is It. destruct (Pr s Is) as (P1 & P2 & P3 & _), (Pr t It) as (Q1 & Q2 & Q3 & _).
    split; [congruence|split; congruence].
  - exists c. rewrite app_length, Lla, Llb in Lc. split; [exact E|]. split; [exact W|]. split; [exact Lc|]. split.
    { rewrite Ln, map_app. unfold la, lb. rewrite !map_map. unfold elem. cbn [s_data].
      rewrite (map_nth_seq' (c_lines a) []), (map_nth_seq' (c_lines b) []) || (unfold clen; rewrite (map_nth_seq' (c_lines a) []), (map_nth_seq' (c_lines b) [])). reflexivity. }
    split; [exact Cx|]. split; [exact Ct|].
    assert (Na' : forall i, (i < clen a)%nat -> nth i (la ++ lb) (elem a 0) = elem a i).
    { intros i Hi. rewrite app_nth1 by lia. unfold la. rewrite (map_nth_indep _ _ _ 0%nat (elem a 0)) by (rewrite seq_length; exact Hi).
      rewrite seq_nth by exact Hi. reflexivity. }
    assert (Nb' : forall i, (i < clen b)%nat -> nth (clen a + i) (la ++ lb) (elem a 0) = elem b i).
    { intros i Hi. rewrite app_nth2 by lia. rewrite Lla. replace (clen a + i - clen a)%nat with i by lia. unfold lb.
      rewrite (map_nth_indep _ _ _ 0%nat (elem a 0)) by (rewrite seq_length; exact Hi).
      rewrite seq_nth by exact Hi. reflexivity. }
    rewrite app_length, Lla, Llb in Sm. split.
    + intros i kv Hi. rewrite !entry_iff by (first [assumption|lia]). rewrite (Sm i ltac:(lia) kv), Na' by exact Hi. reflexivity.
    + intros i kv Hi. rewrite !entry_iff by (first [assumption|lia]). rewrite (Sm (clen a + i)%nat ltac:(lia) kv), Nb' by exact Hi. reflexivity.
Qed.

Lemma add_spectra a b : alike a b -> wf_dict (s_meta a) -> wf_dict (s_meta b) ->
  exists s, sadd a b = Ok s /\ s_axes s = s_axes a /\ s_ticks s = s_ticks a /\ length (s_data s) = length (s_data a) /\
  (forall j, nth j (s_data s) 0 = nth j (s_data a) 0 + nth j (s_data b) 0) /\
  forall kv, In kv (s_meta s) <-> In kv (s_meta a) /\ In kv (s_meta b).
Proof.
  intros Al Wa Wb. unfold sadd.
  assert (AA : alike_all [a; b]).
  { destruct Al as (A1 & A2 & A3). split; [|intros s [<-|[<-|[]]]; assumption].
    intros s t [<-|[<-|[]]] [<-|[<-|[]]]; (split; [congruence|split; congruence]). }
  destruct (from_spectra_ok [a; b] a ltac:(discriminate) (or_introl eq_refl) AA) as (c & E & W & Lc & Cx & Ct & Ln & _ & Sm).
  rewrite E. cbn [bind]. destruct (csum_ok c W) as (s & Es & Sx & St & Sl & Ss & _ & Se).
  exists s. split; [exact Es|]. split; [congruence|]. split; [congruence|]. split; [rewrite Sl, Ln; reflexivity|]. cbn [length] in Lc. split.
  - intros j. rewrite (Ss j), Lc, Ln. cbn [seq map]. rewrite !Sum_cons, Sum_nil. cbn [nth]. lra.
  - intros kv. rewrite Se, Lc. split.
    + intros H. split.
      * apply (Sm 0%nat ltac:(cbn; lia) kv). apply entry_iff; [exact W|lia|]. apply H. lia.
      * apply (Sm 1%nat ltac:(cbn; lia) kv). apply entry_iff; [exact W|lia|]. apply H. lia.
    + intros [H1 H2] i Hi. apply entry_iff; [exact W|lia|]. destruct i as [|[|i]]; [| |lia].
      * apply (Sm 0%nat ltac:(cbn; lia) kv). exact H1.
      * apply (Sm 1%nat ltac:(cbn; lia) kv). exact H2.
Qed.

(** np.allclose lets different axes through when they are small numbers. *)
Lemma tiny_axes_mixed : exists a b s, s_axes a = [[0; 1 / 10 ^ 9]] /\ s_axes b = [[0; 9 / 10 ^ 9]] /\
  wf_dict (s_meta a) /\ wf_dict (s_meta b) /\ sadd a b = Ok s /\ s_axes s = s_axes a.
Proof.
  set (a := mkS [[0; 1 / 10 ^ 9]] [1; 2] None []). set (b := mkS [[0; 9 / 10 ^ 9]] [3; 4] None []).
  assert (C : same_axes (s_axes b) (s_axes a) = true).
  { unfold same_axes, all_close, isclose. cbn [a b s_axes length combine forallb fst snd Nat.eqb andb].
    replace (10 ^ 9) with 1000000000 by (simpl; lra). replace (10 ^ 8) with 100000000 by (simpl; lra). replace (10 ^ 5) with 100000 by (simpl; lra).
    rewrite (Rminus_diag_eq 0 0) by reflexivity. rewrite Rabs_R0. rewrite (Rabs_pos_eq (9 / 1000000000 - 1 / 1000000000)) by lra.
    rewrite (Rabs_pos_eq (1 / 1000000000)) by lra.
    rewrite !(proj2 (Rleb_iff _ _)) by lra. reflexivity. }
  exists a, b. unfold sadd, from_spectra, forallb. rewrite C. cbn [andb].
  eexists. split; [reflexivity|]. split; [reflexivity|].
  split; [split; [constructor|intros []]|]. split; [split; [constructor|intros []]|]. split; reflexivity.
Qed.
