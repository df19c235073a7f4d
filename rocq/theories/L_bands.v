(** Lemmas for C84: band paths. *)
From Coq Require Import String Sorted.
From Verif Require Import Base L_util Cpx Vec3 M_grid M_cell M_qpts L_qpts L_path L_path2 M_dynmat M_dipole M_struct M_asr M_calc M_path M_dos M_reorder M_bins M_brille M_bands
  S_qpts S_path S_intmap S_bands L_intmap L_intmap5 L_brille.
Open Scope R_scope.

(** ** Positions in the path with doubled gammas *)
Definition copies (kpts : list V3) (labels : list string) (t : nat) : list V3 :=
  if interior_gamma_label labels t then [vzero; nth t kpts vzero] else [nth t kpts vzero].
Lemma shifted_len kpts labels t : length (flat_map (copies kpts labels) (seq 0 t)) = shifted labels t.
Proof.
  induction t as [|t IH]; [reflexivity|]. unfold shifted in *. rewrite seq_S, flat_map_app, app_length, IH, filter_app, app_length. cbn [Nat.add flat_map filter].
  unfold copies. destruct (interior_gamma_label labels t); cbn [app length]; lia.
Qed.
Lemma shifted_S labels t : shifted labels (S t) = (shifted labels t + (if interior_gamma_label labels t then 2 else 1))%nat.
Proof. rewrite <- !(shifted_len []). rewrite seq_S, flat_map_app, app_length. cbn [flat_map Nat.add]. rewrite app_nil_r. unfold copies at 2. destruct (interior_gamma_label labels t); reflexivity. Qed.
Lemma doubled_at kpts labels t j q : (t < length labels)%nat -> nth_error (copies kpts labels t) j = Some q -> nth_error (doubled kpts labels) (shifted labels t + j) = Some q.
Proof.
  intros Ht E. unfold doubled. fold (copies kpts labels).
  replace (length labels) with (t + S (length labels - t - 1))%nat by lia. rewrite seq_app, flat_map_app. cbn [seq flat_map Nat.add].
  rewrite nth_error_app2 by (rewrite shifted_len; lia). rewrite shifted_len. replace (shifted labels t + j - shifted labels t)%nat with j by lia.
  rewrite nth_error_app1 by (apply nth_error_Some; congruence). exact E.
Qed.
Lemma doubled_length kpts labels : length (doubled kpts labels) = shifted labels (length labels).
Proof. unfold doubled. fold (copies kpts labels). apply shifted_len. Qed.
Lemma insert_doubled kpts labels : length kpts = length labels -> fst (cli_insert_gamma kpts labels) = doubled kpts labels /\ length (snd (cli_insert_gamma kpts labels)) = length (doubled kpts labels).
Proof.
  intros L. destruct (cli_insert_spec kpts labels L) as [E1 E2].
  assert (F : forall (l : list V3) (m : list string), length l = length m -> map fst (combine l m) = l).
  { induction l as [|x l IH]; intros [|y m] H; cbn in *; try discriminate; [reflexivity|]. rewrite IH by lia. reflexivity. }
  assert (D : fst (cli_insert_gamma kpts labels) = doubled kpts labels).
  { rewrite <- (F _ _ E1), E2, concat_map, map_map, <- flat_map_concat_map. unfold doubled. apply flat_map_ext. intros t. destruct (interior_gamma_label labels t); reflexivity. }
  split; [exact D|]. rewrite <- E1, D. reflexivity.
Qed.
Lemma shifted_mono labels t t' : (t < t')%nat -> (shifted labels t < shifted labels t')%nat.
Proof.
  induction 1; rewrite shifted_S; destruct (interior_gamma_label _ _); lia.
Qed.
Lemma shifted_regions kpts labels : length kpts = length labels ->
  StronglySorted lt (cli_break_points (snd (cli_insert_gamma kpts labels))) /\
  (forall i, In i (cli_break_points (snd (cli_insert_gamma kpts labels))) <-> exists b, starts_region labels b /\ i = shifted labels b).
Proof.
  intros L. rewrite (breaks_preserved kpts labels L). destruct (break_starts labels) as [B1 B2]. split.
  - clear - B1. induction B1 as [|x l St IH F]; [constructor|]. cbn [map]. constructor; [exact IH|]. rewrite Forall_forall in *. intros y I. apply in_map_iff in I. destruct I as (z & <- & I). apply shifted_mono, F, I.
  - intros i. rewrite in_map_iff. split; intros (b & H1 & H2); exists b; [split; [apply B2; exact H2|congruence]|split; [congruence|apply B2; exact H1]].
Qed.

(** ** Directions at a doubled gamma *)
Lemma nth_of {A} (l : list A) i x d : nth_error l i = Some x -> nth i l d = x. Proof. apply nth_error_nth. Qed.
Lemma lone_interior b t : lone_gamma b t -> interior_gamma_label (bp_labels b) t = true /\ interior_gamma_label (bp_labels b) (S t) = false.
Proof.
  intros (H1 & H2 & H3 & H4 & H5 & H6). unfold interior_gamma_label. split.
  - rewrite H3. rewrite (proj2 (Nat.ltb_lt _ _) H1), (proj2 (Nat.ltb_lt t _)) by lia. reflexivity.
  - destruct (String.eqb_spec (nth (S t) (bp_labels b) ""%string) "GAMMA"); [contradiction|]. apply Bool.andb_false_r.
Qed.
Lemma vsub_zero v : vsub v vzero = v. Proof. destruct v as [[x y] z]. apply V3_eq; ring. Qed.
Lemma is_gamma_zero : is_gamma vzero = true. Proof. exact (L_nac.int_gamma 0 0 0). Qed.
Lemma approach_mid qpts i p q r : nth_error qpts i = Some p -> nth_error qpts (S i) = Some q -> nth_error qpts (S (S i)) = Some r ->
  approach qpts (S i) = if is_gamma (vsub r q) then vsub q p else vsub r q.
Proof.
  intros E1 E2 E3. unfold approach. assert (L : (S (S i) < length qpts)%nat) by (apply nth_error_Some; congruence).
  destruct (Nat.leb_spec (length qpts) 1); [lia|]. destruct (Nat.eqb_spec (S i) 0); [lia|]. destruct (Nat.eqb_spec (S i) (length qpts - 1)); [lia|].
  replace (S i + 1)%nat with (S (S i)) by lia. replace (S i - 1)%nat with i by lia.
  rewrite (nth_of _ _ _ vzero E1), (nth_of _ _ _ vzero E2), (nth_of _ _ _ vzero E3). reflexivity.
Qed.
(** The first copy has the direction from the point before, the second that to the point after. *)
Lemma sides b t : length (bp_k b) = length (bp_labels b) -> lone_gamma b t ->
  let qpts := doubled (bp_k b) (bp_labels b) in let i := shifted (bp_labels b) t in
  (0 < i)%nat /\ nth_error qpts i = Some vzero /\ nth_error qpts (S i) = Some vzero /\ nth_error qpts (S (S i)) = Some (nth (S t) (bp_k b) vzero) /\
  nth_error qpts (i - 1) = Some (nth (t - 1) (bp_k b) vzero) /\
  approach qpts i = vsub vzero (nth (t - 1) (bp_k b) vzero) /\ approach qpts (S i) = nth (S t) (bp_k b) vzero /\
  S (S i) = shifted (bp_labels b) (S t).
Proof.
  intros L G qpts i. destruct (lone_interior b t G) as [I1 I2]. destruct G as (H1 & H2 & H3 & H4 & H5 & H6).
  assert (Q0 : nth_error qpts i = Some vzero).
  { unfold i. rewrite <- (Nat.add_0_r (shifted _ t)). apply doubled_at; [lia|]. unfold copies. rewrite I1. reflexivity. }
  assert (Q1 : nth_error qpts (S i) = Some vzero).
  { unfold i. rewrite <- Nat.add_1_r. apply doubled_at; [lia|]. unfold copies. rewrite I1, H4. reflexivity. }
  assert (Es : S (S i) = shifted (bp_labels b) (S t)) by (rewrite shifted_S, I1; unfold i; lia).
  assert (Q2 : nth_error qpts (S (S i)) = Some (nth (S t) (bp_k b) vzero)).
  { rewrite Es. rewrite <- (Nat.add_0_r (shifted _ _)). apply doubled_at; [lia|]. unfold copies. rewrite I2. reflexivity. }
  assert (Ip : (0 < i)%nat) by (unfold i; pose proof (shifted_mono (bp_labels b) 0 t H1); lia).
  assert (Qm : nth_error qpts (i - 1) = Some (nth (t - 1) (bp_k b) vzero)).
  { unfold i in *. destruct t as [|t']; [lia|]. rewrite shifted_S in *. replace (S t' - 1)%nat with t' by lia.
    replace (shifted (bp_labels b) t' + (if interior_gamma_label (bp_labels b) t' then 2 else 1) - 1)%nat with (shifted (bp_labels b) t' + (if interior_gamma_label (bp_labels b) t' then 1 else 0))%nat by (destruct (interior_gamma_label (bp_labels b) t'); lia).
    apply doubled_at; [lia|]. unfold copies. destruct (interior_gamma_label (bp_labels b) t'); reflexivity. }
  repeat (split; [assumption|]). split; [|split; [|exact Es]].
  - destruct i as [|i0]; [lia|]. replace (S i0 - 1)%nat with i0 in Qm by lia. rewrite (approach_mid qpts i0 _ _ _ Qm Q0 Q1).
    rewrite vsub_zero, is_gamma_zero. reflexivity.
  - rewrite (approach_mid qpts i _ _ _ Q0 Q1 Q2). rewrite vsub_zero, H6. reflexivity.
Qed.

(** ** The display unit *)
Lemma path_units seekpath u v types x dist insert : path_scales seekpath -> 0 < u -> 0 < v ->
  band_path seekpath v types x dist insert = band_path seekpath u types x (dist * (v / u)) insert.
Proof.
  intros S Hu Hv. unfold band_path. destruct (spglib_scaled u v (f_cell (o_d x))) as (a1 & a2 & a3 & E1 & E2); [lra|]. rewrite E1, E2.
  assert (P : 0 < v / u) by (apply Rdiv_lt_0_compat; assumption).
  rewrite <- (S (v / u) a1 a2 a3 (f_atom_r (o_d x)) types (dist * (v / u)) P). replace (dist * (v / u) / (v / u)) with dist by (field; lra). reflexivity.
Qed.
