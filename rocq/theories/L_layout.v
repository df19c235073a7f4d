(** Lemmas on memory layout (C14). *)
From Flocq Require Import IEEE754.Binary IEEE754.Bits.
From Flocq Require Core.Defs Core.Zaux.
From Verif Require Import Base M_layout S_layout.
Open Scope Z_scope.

(** ** Bytes *)
Notation bytes := (Forall (fun b => 0 <= b < 256)).
Lemma to_bytes_length n z : length (to_bytes n z) = n.
Proof. revert z. induction n; intros z; cbn; [reflexivity|]. now rewrite IHn. Qed.
Lemma of_to n z : of_bytes (to_bytes n z) = z mod 256 ^ Z.of_nat n.
Proof.
  revert z. induction n as [|n IH]; intros z; [now rewrite Z.mod_1_r|]. cbn [to_bytes of_bytes fold_right]. fold (of_bytes (to_bytes n (z / 256))). rewrite IH.
  rewrite Nat2Z.inj_succ, Z.pow_succ_r by lia. rewrite (Z.rem_mul_r z 256) by lia. reflexivity.
Qed.
Lemma of_range l : bytes l -> 0 <= of_bytes l < 256 ^ Z.of_nat (length l).
Proof.
  induction 1 as [|b l Hb Hl IH]; [cbn; lia|]. cbn [of_bytes fold_right length]. fold (of_bytes l). rewrite Nat2Z.inj_succ, Z.pow_succ_r by lia. lia.
Qed.
Lemma bytes_firstn n l : bytes l -> bytes (firstn n l).
Proof. intros H. revert n. induction H; intros [|n]; cbn; constructor; auto. Qed.
Lemma bytes_skipn n l : bytes l -> bytes (skipn n l).
Proof. intros H. revert n. induction H; intros [|n]; cbn; auto; constructor; auto. Qed.
Lemma bytes_at_some mem z n : 0 <= z -> z + Z.of_nat n <= Z.of_nat (length mem) -> bytes_at mem z n = Some (firstn n (skipn (Z.to_nat z) mem)).
Proof. intros A B. unfold bytes_at. destruct (Z.leb_spec 0 z); [|lia]. destruct (Z.leb_spec (z + Z.of_nat n) (Z.of_nat (length mem))); [reflexivity|lia]. Qed.
Lemma bytes_at_inv mem z n l : bytes_at mem z n = Some l -> 0 <= z /\ z + Z.of_nat n <= Z.of_nat (length mem) /\ l = firstn n (skipn (Z.to_nat z) mem).
Proof.
  unfold bytes_at. destruct (Z.leb_spec 0 z); [|discriminate]. destruct (Z.leb_spec (z + Z.of_nat n) (Z.of_nat (length mem))); [|discriminate]. intros [= <-]. auto.
Qed.
Lemma bytes_at_length mem z n l : bytes_at mem z n = Some l -> length l = n.
Proof. intros H. apply bytes_at_inv in H. destruct H as (A & B & ->). rewrite firstn_length, skipn_length. lia. Qed.
Lemma bytes_at_bytes mem z n l : bytes mem -> bytes_at mem z n = Some l -> bytes l.
Proof. intros M H. apply bytes_at_inv in H. destruct H as (A & B & ->). now apply bytes_firstn, bytes_skipn. Qed.
(** Two halves of a stretch of memory *)
Lemma bytes_at_halves mem z n m l : bytes_at mem z (n + m) = Some l -> bytes_at mem z n = Some (firstn n l) /\ bytes_at mem (z + Z.of_nat n) m = Some (skipn n l).
Proof.
  intros H. apply bytes_at_inv in H. destruct H as (A & B & ->). split.
  - rewrite bytes_at_some by lia. rewrite firstn_firstn. now rewrite Nat.min_l by lia.
  - rewrite bytes_at_some by lia. f_equal. rewrite skipn_firstn_comm. replace (n + m - n)%nat with m by lia. f_equal.
    replace (Z.to_nat (z + Z.of_nat n)) with (Z.to_nat z + n)%nat by lia. rewrite skipn_skipn'. f_equal; lia.
Qed.
(** Pieces of equal length, one after the other *)
Lemma bytes_at_flat_map {A} (f : A -> list Z) w l k x : (forall y, In y l -> length (f y) = w) -> nth_error l k = Some x ->
  bytes_at (flat_map f l) (Z.of_nat (k * w)) w = Some (f x).
Proof.
  intros H E. destruct (nth_error_split l k E) as (l1 & l2 & -> & L1).
  assert (Lw : forall l', (forall y, In y l' -> length (f y) = w) -> length (flat_map f l') = (length l' * w)%nat).
  { induction l' as [|y l' IH]; intros H'; [reflexivity|]. cbn [flat_map length]. rewrite app_length, IH, (H' y); [lia|now left|intros; apply H'; now right]. }
  rewrite flat_map_app. cbn [flat_map]. pose proof (H x ltac:(apply in_or_app; cbn; auto)) as Lx.
  pose proof (Lw l1 ltac:(intros; apply H; apply in_or_app; auto)) as Ll.
  rewrite bytes_at_some; [|lia|rewrite !app_length; lia]. f_equal. rewrite Nat2Z.id. subst k. rewrite <- Ll. rewrite skipn_app, skipn_all, Nat.sub_diag. cbn [skipn app].
  rewrite <- Lx. rewrite firstn_app, firstn_all, Nat.sub_diag. cbn [firstn]. apply app_nil_r.
Qed.

(** ** Indices *)
Lemma size_mul shape : size shape = fold_right Nat.mul 1%nat shape.
Proof. induction shape; cbn; congruence. Qed.
Lemma index_size shape idx : index_in shape idx -> size shape <> 0%nat.
Proof. induction 1 as [|i n is ns Hi _ IH]; cbn; [lia|]. apply Nat.neq_mul_0. lia. Qed.
Lemma indices_length shape : length (indices shape) = size shape.
Proof.
  induction shape as [|n ns IH]; [reflexivity|]. cbn [indices size]. rewrite (length_flat_map_const _ _ (size ns)); [now rewrite seq_length|]. intros i _. now rewrite map_length.
Qed.
Lemma nth_error_flat {A B} (f : A -> list B) w l k m x y : (forall z, In z l -> length (f z) = w) -> nth_error l k = Some x -> nth_error (f x) m = Some y ->
  nth_error (flat_map f l) (k * w + m) = Some y.
Proof.
  intros H E Ey. destruct (nth_error_split l k E) as (l1 & l2 & -> & L1). subst k.
  assert (L : length (flat_map f l1) = (length l1 * w)%nat).
  { assert (K : forall z, In z l1 -> length (f z) = w) by (intros; apply H; apply in_or_app; auto). clear -K. induction l1 as [|a l1 IH]; [reflexivity|]. cbn. rewrite app_length, IH, (K a); [lia|cbn; auto|intros; apply K; cbn; auto]. }
  rewrite flat_map_app. rewrite nth_error_app2 by lia. rewrite L. replace (length l1 * w + m - length l1 * w)%nat with m by lia. cbn [flat_map].
  rewrite nth_error_app1; [exact Ey|]. apply nth_error_Some. congruence.
Qed.
Lemma indices_nth shape idx : index_in shape idx -> nth_error (indices shape) (row_major shape idx) = Some idx.
Proof.
  intros H. unfold index_in in H. induction H as [|i n is ns Hi H IH]; [reflexivity|]. cbn [row_major indices]. rewrite <- size_mul.
  apply (nth_error_flat _ (size ns) _ _ _ i).
  - intros z _. rewrite map_length. apply indices_length.
  - rewrite (nth_error_nth' _ 0%nat) by (rewrite seq_length; exact Hi). rewrite seq_nth by exact Hi. reflexivity.
  - rewrite nth_error_map, IH. reflexivity.
Qed.
Lemma indices_in shape idx : In idx (indices shape) -> index_in shape idx.
Proof.
  revert idx. induction shape as [|n ns IH]; intros idx H; cbn in H.
  - destruct H as [<-|[]]. constructor.
  - apply in_flat_map in H. destruct H as (i & Hi & H). apply in_map_iff in H. destruct H as (is & <- & H). apply in_seq in Hi. constructor; [lia|now apply IH].
Qed.
Lemma fit_offset w shape strides idx : length strides = length shape -> strides_fit w shape strides = true -> index_in shape idx ->
  offset strides idx = Z.of_nat (w * row_major shape idx).
Proof.
  intros L F H. revert strides L F. unfold index_in in H. induction H as [|i n is ns Hi H IH]; intros strides L F; destruct strides as [|s ss]; try discriminate L; cbn [offset row_major].
  - now rewrite Nat.mul_0_r.
  - cbn [strides_fit] in F. apply andb_prop in F. destruct F as [F1 F2]. cbn [length] in L. injection L as L. rewrite (IH ss L F2). rewrite <- size_mul.
    apply orb_prop in F1. destruct F1 as [F1|F1].
    + apply Nat.eqb_eq in F1. assert (i = 0)%nat as -> by lia. nia.
    + apply Z.eqb_eq in F1. subst s. nia.
Qed.
Lemma c_strides_length w shape : length (c_strides w shape) = length shape.
Proof. induction shape; cbn; congruence. Qed.
Lemma c_strides_fit w shape : strides_fit w shape (c_strides w shape) = true.
Proof. induction shape as [|n ns IH]; [reflexivity|]. cbn [c_strides strides_fit]. rewrite IH, Z.eqb_refl, orb_true_r. reflexivity. Qed.

(** ** Elements *)
Lemma contiguous_elem a idx v : length (a_strides a) = length (a_shape a) -> c_contiguous a = true -> index_in (a_shape a) idx -> elem a idx = Some v ->
  exists l, bytes_at (a_mem a) (a_off a + Z.of_nat (d_size (a_dt a)) * Z.of_nat (row_major (a_shape a) idx)) (d_size (a_dt a)) = Some l /\ v = decode (a_dt a) l.
Proof.
  intros L Hc H E. unfold c_contiguous in Hc. apply orb_prop in Hc. destruct Hc as [Hc|Hc].
  - apply Nat.eqb_eq in Hc. pose proof (index_size _ _ H). contradiction.
  - unfold elem in E. rewrite (fit_offset _ _ _ _ L Hc H) in E. rewrite Nat2Z.inj_mul in E. destruct (bytes_at _ _ _) as [l|]; [|discriminate]. exists l. split; [reflexivity|]. cbn in E. congruence.
Qed.
Lemma dtype_eqb_eq d d' : dtype_eqb d d' = true -> d = d'.
Proof.
  unfold dtype_eqb. intros H. apply andb_prop in H. destruct H as [H H3]. apply andb_prop in H. destruct H as [H1 H2]. apply Nat.eqb_eq in H2. apply Bool.eqb_prop in H3.
  destruct d as [k s b], d' as [k' s' b']. cbn in *. destruct k, k'; try discriminate; congruence.
Qed.

(** Size in bytes of what astype stores for elements of a type *)
Lemma stored_length widen dt l : length (stored widen (decode dt l)) = d_size (target (d_kind dt)).
Proof.
  unfold decode. destruct (d_kind dt); cbn [stored target get_dtype d_size int32 float64 complex128]; try apply to_bytes_length.
  - destruct (Nat.eqb _ _); cbn [stored]; apply to_bytes_length.
  - destruct (Nat.eqb _ _); cbn [stored]; rewrite app_length, !to_bytes_length; reflexivity.
Qed.
(** The memory that C sees for element idx: d_size bytes at d_size times its row-major position. *)
Lemma normalise_elem widen a idx v : sound_array a -> index_in (a_shape a) idx -> elem a idx = Some v ->
  let t := target (d_kind (a_dt a)) in let b := normalise widen a in
  exists l, bytes_at (a_mem b) (a_off b + Z.of_nat (d_size t) * Z.of_nat (row_major (a_shape a) idx)) (d_size t) = Some l /\
    (l = stored widen v \/ (a_dt a = t /\ v = decode t l /\ bytes l)).
Proof.
  intros (Ht & Hm & HL & He) Hi E t b. unfold normalise in b. fold t in b. destruct (dtype_eqb (a_dt a) t && c_contiguous a)%bool eqn:Q.
  - apply andb_prop in Q. destruct Q as [Q1 Q2]. apply dtype_eqb_eq in Q1. subst b. destruct (contiguous_elem a idx v HL Q2 Hi E) as (l & El & Ev). rewrite Q1 in El, Ev.
    exists l. split; [exact El|]. right. split; [exact Q1|]. split; [exact Ev|]. now apply bytes_at_bytes in El.
  - subst b. cbn [a_mem a_off]. exists (stored widen v). split; [|now left]. rewrite Z.add_0_l. rewrite <- Nat2Z.inj_mul, Nat.mul_comm.
    rewrite (bytes_at_flat_map _ (d_size t) _ _ idx).
    + now rewrite E.
    + intros y Y. apply indices_in in Y. destruct (He y Y) as (u & U). rewrite U. unfold elem in U. destruct (bytes_at _ _ _); [|discriminate]. cbn in U. injection U as <-. apply stored_length.
    + now apply indices_nth.
Qed.

(** ** Doubles *)
Lemma double_range x : 0 <= bits_of_b64 x < 2 ^ 64.
Proof. pose proof (bits_of_binary_float_range 52 11 eq_refl eq_refl x) as H. exact H. Qed.
Lemma of_to8 z : 0 <= z < 2 ^ 64 -> of_bytes (to_bytes 8 z) = z.
Proof. intros H. rewrite of_to. apply Z.mod_small. exact H. Qed.
Lemma bits_one : is_double (1023 * 2 ^ 52) 1.
Proof.
  split; [reflexivity|].
  transitivity (Defs.F2R (Defs.Float Zaux.radix2 (2 ^ 52) (-52))); [reflexivity|].
  unfold Defs.F2R. cbn. field.
Qed.
Lemma bits_zero : is_double 0 0.
Proof. split; reflexivity. Qed.
(** Bit patterns of elements are in range. *)
Definition good_item (v : item) : Prop :=
  match v with
  | F32 b => 0 <= b < 2 ^ 32
  | F64 b => 0 <= b < 2 ^ 64
  | C64 x y => 0 <= x < 2 ^ 32 /\ 0 <= y < 2 ^ 32
  | C128 x y => 0 <= x < 2 ^ 64 /\ 0 <= y < 2 ^ 64
  | _ => True
  end.
Lemma ordered_bytes big l : bytes l -> bytes (ordered big l).
Proof. intros H. destruct big; [|exact H]. cbn. apply Forall_rev, H. Qed.
Lemma ordered_length big l : length (ordered big l) = length l.
Proof. destruct big; [apply rev_length|reflexivity]. Qed.
Lemma num_range big l n : bytes l -> length l = n -> 0 <= of_bytes (ordered big l) < 256 ^ Z.of_nat n.
Proof. intros H L. rewrite <- L, <- (ordered_length big l). now apply of_range, ordered_bytes. Qed.
Lemma decode_good dt l : known_type dt -> bytes l -> length l = d_size dt -> good_item (decode dt l).
Proof.
  intros K B L. unfold known_type in K. unfold decode. destruct (d_kind dt); try exact I.
  - destruct (Nat.eqb_spec (d_size dt) 4) as [E|E]; cbn [good_item].
    + pose proof (num_range (d_big dt) l 4 B ltac:(congruence)). exact H.
    + assert (d_size dt = 8)%nat as E8 by (destruct K as [K|[K|[]]]; congruence). pose proof (num_range (d_big dt) l 8 B ltac:(congruence)). exact H.
  - destruct (Nat.eqb_spec (d_size dt) 8) as [E|E]; cbn [good_item].
    + split; apply (num_range (d_big dt) _ 4); [now apply bytes_firstn|rewrite firstn_length; lia|now apply bytes_skipn|rewrite skipn_length; lia].
    + assert (d_size dt = 16)%nat as E8 by (destruct K as [K|[K|[]]]; congruence).
      split; apply (num_range (d_big dt) _ 8); [now apply bytes_firstn|rewrite firstn_length; lia|now apply bytes_skipn|rewrite skipn_length; lia].
Qed.
Lemma elem_good a idx v : sound_array a -> elem a idx = Some v -> good_item v.
Proof.
  intros (K & B & _) E. unfold elem in E. destruct (bytes_at _ _ _) as [l|] eqn:El; [|discriminate]. cbn in E. injection E as <-. apply decode_good; [exact K|now apply bytes_at_bytes in El|now apply bytes_at_length in El].
Qed.

Lemma read_float widen a idx v : widens widen -> sound_array a -> (d_kind (a_dt a) = KFloat \/ d_kind (a_dt a) = KBool) ->
  index_in (a_shape a) idx -> elem a idx = Some v ->
  exists bits, read_double (normalise widen a) (row_major (a_shape a) idx) = Some bits /\ reads v bits.
Proof.
  intros W Sa K Hi E. pose proof (normalise_elem widen a idx v Sa Hi E) as N. cbv zeta in N.
  assert (T : target (d_kind (a_dt a)) = float64) by (destruct K as [-> | ->]; reflexivity). rewrite T in N. cbn [d_size float64] in N. destruct N as (l & El & Q).
  unfold read_double. change (Z.of_nat 8) with 8 in El. rewrite El. exists (of_bytes l). split; [reflexivity|].
  pose proof (elem_good a idx v Sa E) as G.
  assert (Kv : match v with Int _ | C64 _ _ | C128 _ _ => False | _ => True end).
  { unfold elem in E. destruct (bytes_at _ _ _); [|discriminate]. cbn in E. injection E as <-. unfold decode. destruct K as [-> | ->]; [destruct (Nat.eqb _ _)|]; exact I. }
  destruct Q as [->|(Q1 & -> & Bl)].
  - destruct v as [z|b|b|x y|x y|b]; try contradiction; cbn [stored reads].
    + destruct (W b G) as [W1 W2]. rewrite of_to8 by exact W1. exact W2.
    + now apply of_to8.
    + destruct b; rewrite of_to8 by lia; [exact bits_one|exact bits_zero].
  - reflexivity.
Qed.
Lemma read_complex widen a idx v : widens widen -> sound_array a -> d_kind (a_dt a) = KComplex -> index_in (a_shape a) idx -> elem a idx = Some v ->
  exists x y, read_double (normalise widen a) (2 * row_major (a_shape a) idx) = Some x /\ read_double (normalise widen a) (2 * row_major (a_shape a) idx + 1) = Some y /\
    match v with C64 u w => reads (F32 u) x /\ reads (F32 w) y | C128 u w => reads (F64 u) x /\ reads (F64 w) y | _ => False end.
Proof.
  intros W Sa K Hi E. pose proof (normalise_elem widen a idx v Sa Hi E) as N. cbv zeta in N. rewrite K in N. cbn [target get_dtype d_size complex128] in N. destruct N as (l & El & Q).
  change 16%nat with (8 + 8)%nat in El at 2. apply bytes_at_halves in El. destruct El as [E1 E2]. unfold read_double.
  set (k := row_major (a_shape a) idx) in *. set (b := normalise widen a) in *.
  replace (a_off b + 8 * Z.of_nat (2 * k)) with (a_off b + Z.of_nat 16 * Z.of_nat k) by lia. rewrite E1.
  replace (a_off b + 8 * Z.of_nat (2 * k + 1)) with (a_off b + Z.of_nat 16 * Z.of_nat k + Z.of_nat 8) by lia. rewrite E2.
  exists (of_bytes (firstn 8 l)), (of_bytes (skipn 8 l)). split; [reflexivity|]. split; [reflexivity|].
  pose proof (elem_good a idx v Sa E) as G.
  assert (Kv : match v with C64 _ _ | C128 _ _ => True | _ => False end).
  { unfold elem in E. destruct (bytes_at _ _ _); [|discriminate]. cbn in E. injection E as <-. unfold decode. rewrite K. destruct (Nat.eqb _ _); exact I. }
  destruct Q as [->|(Q1 & -> & Bl)].
  - destruct v as [z|u|u|u w|u w|u]; try contradiction; cbn [stored good_item reads] in *; rewrite firstn_app, firstn_all2, skipn_app, skipn_all2, to_bytes_length by (rewrite to_bytes_length; lia); cbn [firstn skipn app Nat.sub]; rewrite ?app_nil_r.
    + destruct (W u (proj1 G)), (W w (proj2 G)). rewrite !of_to8 by assumption. tauto.
    + rewrite !of_to8 by tauto. tauto.
  - cbn. split; reflexivity.
Qed.
Lemma wrap_small z : - 2 ^ 31 <= z < 2 ^ 31 -> wrap 4 (z mod 256 ^ Z.of_nat 4) = z.
Proof.
  intros H. unfold wrap. change (256 ^ Z.of_nat 4) with (2 ^ 32). cbv zeta. rewrite Z.mod_mod by lia. change (2 ^ 32 / 2) with (2 ^ 31).
  destruct (Z.ltb_spec (z mod 2 ^ 32) (2 ^ 31)) as [L|L].
  - destruct (Z.neg_nonneg_cases z); [|apply Z.mod_small; lia]. exfalso. rewrite <- (Z.mod_add z 1) in L by lia. rewrite Z.mod_small in L by lia. lia.
  - destruct (Z.neg_nonneg_cases z); [|rewrite Z.mod_small in L by lia; lia]. rewrite <- (Z.mod_add z 1) by lia. rewrite Z.mod_small by lia. lia.
Qed.
(** Integers: the element reduced to 32 bits *)
Lemma read_integer widen a idx v : sound_array a -> (d_kind (a_dt a) = KInt \/ d_kind (a_dt a) = KUInt) -> index_in (a_shape a) idx -> elem a idx = Some v ->
  exists z, v = Int z /\ read_int (normalise widen a) (row_major (a_shape a) idx) = Some (wrap 4 z) /\ (- 2 ^ 31 <= z < 2 ^ 31 -> wrap 4 z = z).
Proof.
  intros Sa K Hi E. pose proof (normalise_elem widen a idx v Sa Hi E) as N. cbv zeta in N.
  assert (T : target (d_kind (a_dt a)) = int32) by (destruct K as [-> | ->]; reflexivity). rewrite T in N. cbn [d_size int32] in N. destruct N as (l & El & Q).
  assert (Kv : exists z, v = Int z).
  { unfold elem in E. destruct (bytes_at _ _ _); [|discriminate]. cbn in E. injection E as <-. unfold decode. destruct K as [-> | ->]; eexists; reflexivity. }
  destruct Kv as (z & ->). exists z. split; [reflexivity|].
  assert (Wi : forall u, wrap 4 (u mod 256 ^ Z.of_nat 4) = wrap 4 u) by (intros u; unfold wrap; cbv zeta; now rewrite Z.mod_mod by (change (256 ^ Z.of_nat 4) with (2 ^ 32); lia)).
  split.
  - unfold read_int. change (Z.of_nat 4) with 4 in El. rewrite El. cbn [option_map]. f_equal. destruct Q as [->|(Q1 & Q2 & Bl)].
    + cbn [stored]. rewrite of_to. apply Wi.
    + change (decode int32 l) with (Int (wrap 4 (of_bytes l))) in Q2. assert (z = wrap 4 (of_bytes l)) as -> by congruence. set (u := of_bytes l). clearbody u. clear Q2. rewrite <- (Wi u). 
      assert (R : - 2 ^ 31 <= wrap 4 (u mod 256 ^ Z.of_nat 4) < 2 ^ 31).
      { unfold wrap. cbv zeta. change (256 ^ Z.of_nat 4) with (2 ^ 32). rewrite Z.mod_mod by lia. change (2 ^ 32 / 2) with (2 ^ 31). pose proof (Z.mod_pos_bound u (2 ^ 32) ltac:(lia)). destruct (Z.ltb_spec (u mod 2 ^ 32) (2 ^ 31)); lia. }
      rewrite <- (Wi (wrap 4 _)). symmetry. now apply wrap_small.
  - intros R. rewrite <- (Wi z). now apply wrap_small.
Qed.
(** Not normalised: right only for contiguous native doubles *)
Lemma read_as_given a idx v : sound_array a -> a_dt a = float64 -> c_contiguous a = true -> index_in (a_shape a) idx -> elem a idx = Some v ->
  exists bits, v = F64 bits /\ read_double a (row_major (a_shape a) idx) = Some bits.
Proof.
  intros (Ht & Hm & HL & He) Hd Hc Hi E. destruct (contiguous_elem a idx v HL Hc Hi E) as (l & El & Ev). rewrite Hd in *. exists (of_bytes l). split; [exact Ev|]. unfold read_double. cbn [d_size float64] in El. change (Z.of_nat 8) with 8 in El. now rewrite El.
Qed.
