(** Words for arrays read by C code (C14). *)
From Coq Require Import ZArith Reals List.
From Flocq Require Import IEEE754.Binary IEEE754.Bits.
From Verif Require Import M_layout.
Import ListNotations.
Open Scope Z_scope.

(** idx is an index into an array of this shape. *)
Definition index_in (shape idx : list nat) : Prop := Forall2 (fun i n => (i < n)%nat) idx shape.
(** Position of idx when elements are counted row by row, last index fastest *)
Fixpoint row_major (shape idx : list nat) : nat :=
  match shape, idx with
  | n :: ns, i :: is => (i * fold_right Nat.mul 1%nat ns + row_major ns is)%nat
  | _, _ => 0%nat
  end.
(** Every element lies in the array's memory, which holds bytes; the element type is one of the
    sizes NumPy has. *)
Definition known_type (dt : dtype) : Prop :=
  match d_kind dt with
  | KInt | KUInt => In (d_size dt) [1; 2; 4; 8]%nat
  | KFloat => In (d_size dt) [4; 8]%nat
  | KComplex => In (d_size dt) [8; 16]%nat
  | KBool => d_size dt = 1%nat
  end.
Definition sound_array (a : array) : Prop :=
  known_type (a_dt a) /\ Forall (fun b => 0 <= b < 256) (a_mem a) /\ length (a_strides a) = length (a_shape a) /\
  forall idx, index_in (a_shape a) idx -> exists v, elem a idx = Some v.

(** The double with pattern [bits] is the same number as the single with pattern [s]. *)
Definition same_number (s bits : Z) : Prop :=
  let x := b32_of_bits s in let y := b64_of_bits bits in
  is_finite 24 128 x = is_finite 53 1024 y /\ is_nan 24 128 x = is_nan 53 1024 y /\
  (is_nan 24 128 x = false -> Bsign 24 128 x = Bsign 53 1024 y) /\ B2R 24 128 x = B2R 53 1024 y.
(** Contract of the conversion of singles to doubles *)
Definition widens (widen : Z -> Z) : Prop := forall s, 0 <= s < 2 ^ 32 -> 0 <= widen s < 2 ^ 64 /\ same_number s (widen s).
(** The double [bits] is the finite real number x. *)
Definition is_double (bits : Z) (x : R) : Prop := is_finite 53 1024 (b64_of_bits bits) = true /\ B2R 53 1024 (b64_of_bits bits) = x.
(** The double [bits] is the array element v. *)
Definition reads (v : item) (bits : Z) : Prop :=
  match v with
  | F64 b => bits = b
  | F32 b => same_number b bits
  | Int z => is_double bits (IZR z)
  | Bool b => is_double bits (if b then 1 else 0)%R
  | _ => False
  end.
