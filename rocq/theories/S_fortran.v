(** Words for Fortran sequential unformatted files (C47). *)
From Verif Require Import Base.
Open Scope Z_scope.

(** Four bytes, most significant first, of a 32-bit integer in two's complement. *)
Definition big_endian (z : Z) : list Z :=
  let u := z mod 4294967296 in [u / 16777216; (u / 65536) mod 256; (u / 256) mod 256; u mod 256].
Definition int32 (z : Z) : Prop := -2147483648 <= z < 2147483648.
Definition byte (b : Z) : Prop := 0 <= b < 256.
(** A payload that fits one record. *)
Definition fits (p : list Z) : Prop := Z.of_nat (length p) < 2147483648.
(** The record as a Fortran program writes it. *)
Definition record (p : list Z) : list Z := big_endian (Z.of_nat (length p)) ++ p ++ big_endian (Z.of_nat (length p)).
