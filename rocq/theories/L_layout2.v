(** A conversion of singles to doubles exists; what goes wrong for other layouts and types (C14). *)
From Coq Require Import Reals Lra.
From Flocq Require Import Core.Core IEEE754.Binary IEEE754.Bits.
From Verif Require Import Base M_layout S_layout L_layout.
Open Scope Z_scope.

Definition widen_float (x : binary32) : binary64 :=
  match x with
  | B754_zero _ _ s => B754_zero 53 1024 s
  | B754_infinity _ _ s => B754_infinity 53 1024 s
  | B754_nan _ _ s pl _ => proj1_sig (default_nan_pl64)
  | B754_finite _ _ s m e _ => binary_normalize 53 1024 eq_refl eq_refl BinarySingleNaN.mode_NE (cond_Zopp s (Zpos m)) e s
  end.
Definition widen_bits (s : Z) : Z := bits_of_b64 (widen_float (b32_of_bits s)).
Lemma widen_float_ok x : is_finite 24 128 x = is_finite 53 1024 (widen_float x) /\ is_nan 24 128 x = is_nan 53 1024 (widen_float x) /\
  (is_nan 24 128 x = false -> Bsign 24 128 x = Bsign 53 1024 (widen_float x)) /\ B2R 24 128 x = B2R 53 1024 (widen_float x).
Proof.
  destruct x as [s|s|s pl e|s m e B]; cbn [widen_float]; try (repeat split; reflexivity).
  - repeat split; try reflexivity. discriminate.
  - pose proof (binary_normalize_correct 53 1024 eq_refl eq_refl BinarySingleNaN.mode_NE (cond_Zopp s (Zpos m)) e s) as N.
    assert (F : round radix2 (SpecFloat.fexp 53 1024) (BinarySingleNaN.round_mode BinarySingleNaN.mode_NE) (F2R (Float radix2 (cond_Zopp s (Zpos m)) e)) = F2R (Float radix2 (cond_Zopp s (Zpos m)) e)).
    { apply round_generic; [apply BinarySingleNaN.valid_rnd_round_mode|]. change (SpecFloat.fexp 53 1024) with (FLT_exp (3 - 1024 - 53) 53). apply generic_format_FLT.
      pose proof (generic_format_B2R 24 128 (B754_finite 24 128 s m e B)) as G. change (SpecFloat.fexp 24 128) with (FLT_exp (3 - 128 - 24) 24) in G.
      apply (FLT_format_generic radix2) in G; [|reflexivity]. destruct G as [f Hf1 Hf2 Hf3]. change (B2R 24 128 (B754_finite 24 128 s m e B)) with (F2R (Float radix2 (cond_Zopp s (Zpos m)) e)) in Hf1.
      exists f; [exact Hf1| |lia]. apply (Z.lt_trans _ _ _ Hf2). reflexivity. }
    rewrite F in N.
    assert (L : Rlt_bool (Rabs (F2R (Float radix2 (cond_Zopp s (Zpos m)) e))) (bpow radix2 1024) = true).
    { apply Rlt_bool_true. apply Rlt_trans with (bpow radix2 128); [|apply bpow_lt; lia]. exact (abs_B2R_lt_emax 24 128 (B754_finite 24 128 s m e B)). }
    rewrite L in N. destruct N as (N1 & N2 & N3). split; [now rewrite N2|]. split; [|split].
    + destruct (binary_normalize _ _ _ _ _ _ _ _); try reflexivity. discriminate N2.
    + intros _. rewrite N3. cbn [Bsign]. destruct s; cbn [cond_Zopp].
      * rewrite Rcompare_Lt; [reflexivity|]. apply F2R_lt_0. reflexivity.
      * rewrite Rcompare_Gt; [reflexivity|]. apply F2R_gt_0. reflexivity.
    + now rewrite N1.
Qed.
Lemma widen_exists : widens widen_bits.
Proof.
  intros s _. unfold widen_bits. split; [apply double_range|]. unfold same_number. cbv zeta.
  assert (E : forall y, b64_of_bits (bits_of_b64 y) = y) by (intros y; exact (binary_float_of_bits_of_binary_float 52 11 eq_refl eq_refl eq_refl y)).
  rewrite E. apply widen_float_ok.
Qed.

(** ** Fortran order: C reads the transposed numbering. *)
Lemma fortran_read a n i j : (0 < n)%nat -> a_dt a = float64 -> a_shape a = [n; 3]%nat -> a_strides a = [8; 8 * Z.of_nat n] ->
  (i < n)%nat -> (j < 3)%nat ->
  option_map F64 (read_double a (row_major [n; 3]%nat [i; j])) = elem a [(3 * i + j) mod n; (3 * i + j) / n]%nat.
Proof.
  intros Hn Hd Hs Ht Hi Hj. unfold elem, read_double. rewrite Hd, Ht. cbn [offset row_major fold_right d_size float64].
  replace (i * (3 * 1) + (j * 1 + 0))%nat with (3 * i + j)%nat by lia. pose proof (Nat.div_mod (3 * i + j) n ltac:(lia)) as D.
  replace (a_off a + (8 * Z.of_nat ((3 * i + j) mod n) + (8 * Z.of_nat n * Z.of_nat ((3 * i + j) / n) + 0))) with (a_off a + 8 * Z.of_nat (3 * i + j)) by nia.
  destruct (bytes_at _ _ _); reflexivity.
Qed.
Definition half_bits : Z := 1022 * 2 ^ 52.
Lemma half_is : is_double half_bits (1 / 2).
Proof. split; [reflexivity|]. transitivity (F2R (Float radix2 (2 ^ 52) (-53))); [reflexivity|]. unfold F2R. cbn. field. Qed.
(** Atoms at (0,0,0) and (1/2,1/2,1/2), column by column *)
Definition fortran_atoms : array := mkArr float64 (flat_map (to_bytes 8) [0; half_bits; 0; half_bits; 0; half_bits]) 0 [2; 3]%nat [8; 16].
Ltac all_bytes := repeat (constructor; [split; [discriminate|reflexivity]|]); constructor.
Lemma index23 idx : index_in [2; 3]%nat idx -> In idx [[0;0];[0;1];[0;2];[1;0];[1;1];[1;2]]%nat.
Proof.
  intros H. inversion H as [|i ? r ? Hi Hr]; subst. inversion Hr as [|j ? r' ? Hj Hr']; subst. inversion Hr'; subst.
  destruct i as [|[|]]; [| |lia]; (destruct j as [|[|[|]]]; [| | |lia]); cbn; tauto.
Qed.
Lemma fortran_sound : sound_array fortran_atoms.
Proof.
  split; [cbn; auto|]. split; [vm_compute; all_bytes|]. split; [reflexivity|].
  intros idx H. apply index23 in H. cbn [In] in H. repeat (destruct H as [<-|H]; [eexists; vm_compute; reflexivity|]). destruct H.
Qed.
Lemma fortran_values : elem fortran_atoms [0; 1]%nat = Some (F64 0) /\ read_double fortran_atoms (row_major [2; 3] [0; 1])%nat = Some half_bits.
Proof. split; vm_compute; reflexivity. Qed.

(** ** Four-byte elements read as doubles *)
Lemma narrow_reads a k : a_off a = 0 -> length (a_mem a) = (4 * size (a_shape a))%nat -> (size (a_shape a) < 2 * k + 2)%nat -> read_double a k = None.
Proof.
  intros H0 Hl Hk. unfold read_double, bytes_at. rewrite H0, Hl. destruct (Z.leb_spec (0 + 8 * Z.of_nat k + Z.of_nat 8) (Z.of_nat (4 * size (a_shape a)))); [lia|]. now rewrite andb_false_r.
Qed.
Lemma flat_map_length_const {A B} (f : A -> list B) w l : (forall x, In x l -> length (f x) = w) -> length (flat_map f l) = (length l * w)%nat.
Proof. intros H. rewrite (length_flat_map_const f l w H). reflexivity. Qed.
Lemma copied widen a : sound_array a -> (d_kind (a_dt a) = KInt \/ d_kind (a_dt a) = KUInt) -> a_dt a <> int32 ->
  a_off (normalise widen a) = 0 /\ a_shape (normalise widen a) = a_shape a /\ length (a_mem (normalise widen a)) = (4 * size (a_shape a))%nat.
Proof.
  intros (Ht & Hm & HL & He) K N. assert (T : target (d_kind (a_dt a)) = int32) by (destruct K as [-> | ->]; reflexivity).
  unfold normalise. rewrite T. destruct (dtype_eqb (a_dt a) int32) eqn:Q; [apply dtype_eqb_eq in Q; contradiction|]. cbn [andb a_off a_shape a_mem]. split; [reflexivity|]. split; [reflexivity|].
  rewrite (flat_map_length_const _ 4); [rewrite indices_length; lia|]. intros y Y. apply indices_in in Y. destruct (He y Y) as (u & U). rewrite U. unfold elem in U. destruct (bytes_at _ _ _); [|discriminate]. cbn in U. injection U as <-. rewrite stored_length, T. reflexivity.
Qed.
Lemma integers_as_doubles widen a k : sound_array a -> (d_kind (a_dt a) = KInt \/ d_kind (a_dt a) = KUInt) -> a_dt a <> int32 ->
  (size (a_shape a) < 2 * k + 2)%nat -> read_double (normalise widen a) k = None.
Proof. intros S K N H. destruct (copied widen a S K N) as (A & B & D). apply narrow_reads; rewrite ?B; assumption. Qed.
(** The q-point (1, 0, 0) in 64-bit integers *)
Definition int_qpt : array := mkArr (mkDT KInt 8 false) (flat_map (to_bytes 8) [1; 0; 0]) 0 [1; 3]%nat [24; 8].
Lemma index13 idx : index_in [1; 3]%nat idx -> In idx [[0;0];[0;1];[0;2]]%nat.
Proof.
  intros H. inversion H as [|i ? r ? Hi Hr]; subst. inversion Hr as [|j ? r' ? Hj Hr']; subst. inversion Hr'; subst.
  destruct i as [|]; [|lia]; (destruct j as [|[|[|]]]; [| | |lia]); cbn; tauto.
Qed.
Lemma int_qpt_sound : sound_array int_qpt.
Proof.
  split; [cbn; auto|]. split; [vm_compute; all_bytes|]. split; [reflexivity|].
  intros idx H. apply index13 in H. cbn [In] in H. repeat (destruct H as [<-|H]; [eexists; vm_compute; reflexivity|]). destruct H.
Qed.
Lemma tiny : is_double 1 (bpow radix2 (-1074)).
Proof. split; [reflexivity|]. transitivity (F2R (Float radix2 1 (-1074))); [reflexivity|]. unfold F2R. cbn [Fnum Fexp]. apply Rmult_1_l. Qed.
Lemma int_qpt_values widen : elem int_qpt [0; 0]%nat = Some (Int 1) /\
  (exists bits, read_double (normalise widen int_qpt) (row_major [1; 3] [0; 0])%nat = Some bits /\ is_double bits (bpow radix2 (-1074))) /\
  read_double (normalise widen int_qpt) (row_major [1; 3] [0; 1])%nat = None /\ read_double (normalise widen int_qpt) (row_major [1; 3] [0; 2])%nat = None.
Proof.
  split; [vm_compute; reflexivity|]. split.
  - exists 1. split; [vm_compute; reflexivity|exact tiny].
  - split; vm_compute; reflexivity.
Qed.
(** ** Doubles read as integers: cell origins (0,0,0), (1,0,0) *)
Definition one_bits : Z := 1023 * 2 ^ 52.
Definition float_origins : array := mkArr float64 (flat_map (to_bytes 8) [0; 0; 0; one_bits; 0; 0]) 0 [2; 3]%nat [24; 8].
Lemma float_origins_sound : sound_array float_origins.
Proof.
  split; [cbn; auto|]. split; [vm_compute; all_bytes|]. split; [reflexivity|].
  intros idx H. apply index23 in H. cbn [In] in H. repeat (destruct H as [<-|H]; [eexists; vm_compute; reflexivity|]). destruct H.
Qed.
Lemma float_origins_values widen : elem float_origins [1; 0]%nat = Some (F64 one_bits) /\
  forall k, (k < 6)%nat -> read_int (normalise widen float_origins) k = Some 0.
Proof.
  split; [vm_compute; reflexivity|]. intros k K. do 6 (destruct k as [|k]; [vm_compute; reflexivity|]). lia.
Qed.
