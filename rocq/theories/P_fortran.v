(** Fortran record reader (C47). *)
From Verif Require Import Base M_fortran S_fortran L_fortran.
Open Scope Z_scope.

(** Every payload comes back, in order, and then the end of the file is reported. *)
Theorem C47_all_records : forall ps, (forall p, In p ps -> fits p) ->
  forall fuel, (length ps < fuel)%nat -> read_all fuel (concat (map record ps)) = (map DBytes ps, EndOfFile).
Proof. exact read_all_ok. Qed.
Print Assumptions C47_all_records.
Example C47_all_records_case : read_all 3 (concat (map record [[1; 2; 3]; []])) = ([DBytes [1; 2; 3]; DBytes []], EndOfFile).
Proof. reflexivity. Qed.

(** One record of bytes, whatever follows it. *)
Theorem C47_payload : forall p rest, fits p -> read_entry Raw (record p ++ rest) = Ok (DBytes p, rest).
Proof. intros p rest F. exact (entry_ok Raw p rest (DBytes p) F (fun r => data_raw p r)). Qed.
Print Assumptions C47_payload.
Example C47_payload_case : fits [7; 8; 9] /\ record [7; 8; 9] = [0; 0; 0; 3; 7; 8; 9; 0; 0; 0; 3].
Proof. split; reflexivity. Qed.

(** One integer. *)
Theorem C47_integer : forall z rest, int32 z -> read_entry I4 (record (big_endian z) ++ rest) = Ok (DInt z, rest).
Proof. exact entry_int. Qed.
Print Assumptions C47_integer.
Example C47_integer_case : int32 (-3) /\ big_endian (-3) = [255; 255; 255; 253].
Proof. split; [unfold int32; lia|reflexivity]. Qed.

(** Several integers. *)
Theorem C47_integers : forall zs rest, (forall z, In z zs -> int32 z) -> (2 <= length zs)%nat -> fits (concat (map big_endian zs)) ->
  read_entry I4 (record (concat (map big_endian zs)) ++ rest) = Ok (DInts zs, rest).
Proof. exact entry_ints. Qed.
Print Assumptions C47_integers.
Example C47_integers_case : (forall z, In z [1; -1] -> int32 z) /\ (2 <= length [1; -1]%Z)%nat /\ fits (concat (map big_endian [1; -1])).
Proof. split; [intros z [<-|[<-|[]]]; unfold int32; lia|split; [cbn; lia|reflexivity]]. Qed.

(** One float and several floats, as their eight bytes. *)
Theorem C47_floats : forall xs rest, xs <> [] -> (forall x, In x xs -> length x = 8%nat) -> fits (concat xs) ->
  read_entry F8 (record (concat xs) ++ rest) = Ok (match xs with [x] => DFloat x | _ => DFloats xs end, rest).
Proof.
  intros xs rest N H F. rewrite (entry_items F8 xs rest ltac:(discriminate) N H F). destruct xs as [|a [|b l]]; [contradiction| |]; reflexivity.
Qed.
Print Assumptions C47_floats.
Example C47_floats_case : let x := [63; 240; 0; 0; 0; 0; 0; 0] in [x; x] <> [] /\ (forall y, In y [x; x] -> length y = 8%nat) /\ fits (concat [x; x]).
Proof. split; [discriminate|split; [intros y [<-|[<-|[]]]; reflexivity|reflexivity]]. Qed.

(** A wrong end marker is an IO error: bytes, and arrays of whole items. *)
Theorem C47_marker_mismatch : forall p z rest, fits p -> int32 z -> z <> Z.of_nat (length p) ->
  read_entry Raw (big_endian (Z.of_nat (length p)) ++ p ++ big_endian z ++ rest) = Err MarkerError.
Proof. intros p z rest F I N. exact (entry_mismatch Raw p z rest (DBytes p) F I N (fun r => data_raw p r)). Qed.
Print Assumptions C47_marker_mismatch.
Theorem C47_marker_mismatch_items : forall t items z rest, t <> Raw -> items <> [] -> (forall x, In x items -> length x = itemsize t) ->
  fits (concat items) -> int32 z -> z <> Z.of_nat (length (concat items)) ->
  read_entry t (big_endian (Z.of_nat (length (concat items))) ++ concat items ++ big_endian z ++ rest) = Err MarkerError.
Proof. intros t items z rest T N H F I Z. exact (entry_mismatch t _ z rest (result t items) F I Z (fun r => data_items t items r T N H)). Qed.
Print Assumptions C47_marker_mismatch_items.
Example C47_marker_mismatch_case : read_entry I4 (big_endian 8 ++ (big_endian 1 ++ big_endian 2) ++ big_endian 12 ++ []) = Err MarkerError.
Proof. reflexivity. Qed.

(** A record cut anywhere is an error. *)
Theorem C47_truncated : forall t p k, fits p -> (t = Raw \/ exists n : nat, length p = (itemsize t * n)%nat) -> (k < length (record p))%nat ->
  exists e, read_entry t (firstn k (record p)) = Err e.
Proof. exact entry_truncated. Qed.
Print Assumptions C47_truncated.
Example C47_truncated_case : read_entry Raw (firstn 8 (record [1; 2; 3])) = Err StructError.
Proof. reflexivity. Qed.

(** A file of nothing is the end of file. *)
Theorem C47_end_of_file : forall t, read_entry t [] = Err EndOfFile.
Proof. intros t. reflexivity. Qed.
Print Assumptions C47_end_of_file.

(** A negative marker is refused. *)
Theorem C47_negative_marker : forall t z rest, int32 z -> z < 0 -> exists e, read_entry t (big_endian z ++ rest) = Err e.
Proof. exact entry_negative. Qed.
Print Assumptions C47_negative_marker.
Example C47_negative_marker_case : int32 (-8) /\ -8 < 0.
Proof. unfold int32. lia. Qed.

(** Not every mismatch is detected: in a record of 20 bytes read as floats the last four
    bytes stand in for the end marker, so that any end marker [z] is accepted. *)
Theorem C47_odd_length_refuted : exists p, fits p /\ exists d, forall z rest,
  read_entry F8 (big_endian (Z.of_nat (length p)) ++ p ++ big_endian z ++ rest) = Ok (d, big_endian z ++ rest).
Proof.
  exists (repeat 0 8 ++ repeat 1 8 ++ big_endian 20). split; [reflexivity|]. exists (DFloats [repeat 0 8; repeat 1 8]).
  exact (entry_odd (repeat 0 8) (repeat 1 8) eq_refl eq_refl).
Qed.
Print Assumptions C47_odd_length_refuted.
