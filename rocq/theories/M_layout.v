(** Model of how NumPy arrays reach the C extension: memory as bytes, element type, shape and
    strides; astype(dtype, order='C', copy=False) as used in /repo/euphonic/validate.py 105-180;
    the reads through PyArray_DATA in /repo/c/_euphonic.c 151-194.
    - Element types: signed and unsigned integers of 1, 2, 4, 8 bytes, float32/64, complex64/128,
      bool, each in either byte order.  float16, longdouble, strings and objects are left out.
    - The machine is little endian, int has 4 bytes.
    - Floating-point numbers are their bit patterns.  [widen] is the conversion of a float32
      pattern to a float64 pattern. *)
From Coq Require Import String.
From Verif Require Import Base.
Open Scope Z_scope.

(** Bytes, least significant first *)
Definition of_bytes (l : list Z) : Z := fold_right (fun b z => b + 256 * z) 0 l.
Fixpoint to_bytes (n : nat) (z : Z) : list Z := match n with O => [] | S k => z mod 256 :: to_bytes k (z / 256) end.
(** Two's complement *)
Definition wrap (n : nat) (z : Z) : Z := let m := 256 ^ Z.of_nat n in let r := z mod m in if r <? m / 2 then r else r - m.

Inductive kind := KInt | KUInt | KFloat | KComplex | KBool.
Record dtype := mkDT { d_kind : kind; d_size : nat; d_big : bool }.
Definition int32 := mkDT KInt 4 false.
Definition float64 := mkDT KFloat 8 false.
Definition complex128 := mkDT KComplex 16 false.
Inductive item := Int (z : Z) | F32 (bits : Z) | F64 (bits : Z) | C64 (re im : Z) | C128 (re im : Z) | Bool (b : bool).
Definition ordered (big : bool) (l : list Z) : list Z := if big then rev l else l.
(** The element stored in d_size bytes *)
Definition decode (dt : dtype) (l : list Z) : item :=
  let num l := of_bytes (ordered (d_big dt) l) in
  match d_kind dt with
  | KInt => Int (wrap (d_size dt) (num l))
  | KUInt => Int (num l)
  | KFloat => if Nat.eqb (d_size dt) 4 then F32 (num l) else F64 (num l)
  | KComplex => if Nat.eqb (d_size dt) 8 then C64 (num (firstn 4 l)) (num (skipn 4 l)) else C128 (num (firstn 8 l)) (num (skipn 8 l))
  | KBool => Bool (negb (num l =? 0))
  end.

Record array := mkArr { a_dt : dtype; a_mem : list Z; a_off : Z; a_shape : list nat; a_strides : list Z }.
Definition bytes_at (mem : list Z) (z : Z) (n : nat) : option (list Z) :=
  if ((0 <=? z) && (z + Z.of_nat n <=? Z.of_nat (length mem)))%bool then Some (firstn n (skipn (Z.to_nat z) mem)) else None.
Fixpoint offset (strides : list Z) (idx : list nat) : Z :=
  match strides, idx with s :: ss, i :: is => s * Z.of_nat i + offset ss is | _, _ => 0 end.
(** a[idx] *)
Definition elem (a : array) (idx : list nat) : option item :=
  option_map (decode (a_dt a)) (bytes_at (a_mem a) (a_off a + offset (a_strides a) idx) (d_size (a_dt a))).

(** validate.py:160-180 [_get_dtype]; None means float64 to astype *)
Definition get_dtype (k : kind) : option dtype :=
  match k with KInt | KUInt => Some int32 | KFloat => Some float64 | KComplex => Some complex128 | KBool => None end.
Definition target (k : kind) : dtype := match get_dtype k with Some t => t | None => float64 end.
(** NumPy's C_CONTIGUOUS flag: strides of dimensions of length 1 do not matter, an array without
    elements is contiguous. *)
Fixpoint size (shape : list nat) : nat := match shape with [] => 1%nat | n :: ns => (n * size ns)%nat end.
Fixpoint c_strides (w : nat) (shape : list nat) : list Z :=
  match shape with [] => [] | n :: ns => Z.of_nat (w * size ns) :: c_strides w ns end.
Fixpoint strides_fit (w : nat) (shape : list nat) (strides : list Z) : bool :=
  match shape, strides with
  | n :: ns, s :: ss => ((Nat.eqb n 1 || (s =? Z.of_nat (w * size ns))) && strides_fit w ns ss)%bool
  | _, _ => true
  end.
Definition c_contiguous (a : array) : bool := (Nat.eqb (size (a_shape a)) 0 || strides_fit (d_size (a_dt a)) (a_shape a) (a_strides a))%bool.
(** All indices in C order *)
Fixpoint indices (shape : list nat) : list (list nat) :=
  match shape with [] => [[]] | n :: ns => flat_map (fun i => map (cons i) (indices ns)) (seq 0 n) end.

Section Astype.
Variable widen : Z -> Z.
(** The conversions that astype is asked for *)
Definition stored (v : item) : list Z :=
  match v with
  | Int z => to_bytes 4 z
  | F32 b => to_bytes 8 (widen b)
  | F64 b => to_bytes 8 b
  | C64 x y => to_bytes 8 (widen x) ++ to_bytes 8 (widen y)
  | C128 x y => to_bytes 8 x ++ to_bytes 8 y
  | Bool b => to_bytes 8 (if b then 1023 * 2 ^ 52 else 0)
  end.
Definition kind_eqb (k k' : kind) : bool :=
  match k, k' with KInt, KInt | KUInt, KUInt | KFloat, KFloat | KComplex, KComplex | KBool, KBool => true | _, _ => false end.
Definition dtype_eqb (d d' : dtype) : bool := (kind_eqb (d_kind d) (d_kind d') && Nat.eqb (d_size d) (d_size d') && Bool.eqb (d_big d) (d_big d'))%bool.
(** arr.astype(_get_dtype(arr), order='C', copy=False), as in validate.py:125, 131, 156 *)
Definition normalise (a : array) : array :=
  let t := target (d_kind (a_dt a)) in
  if (dtype_eqb (a_dt a) t && c_contiguous a)%bool then a
  else mkArr t (flat_map (fun i => match elem a i with Some v => stored v | None => [] end) (indices (a_shape a))) 0 (a_shape a) (c_strides (d_size t) (a_shape a)).
End Astype.

(** ((double* ) PyArray_DATA(a))[k] and ((int* ) PyArray_DATA(a))[k]; None is a read outside the
    array's memory. *)
Definition read_double (a : array) (k : nat) : option Z := option_map of_bytes (bytes_at (a_mem a) (a_off a + 8 * Z.of_nat k) 8).
Definition read_int (a : array) (k : nat) : option Z := option_map (fun l => wrap 4 (of_bytes l)) (bytes_at (a_mem a) (a_off a + 4 * Z.of_nat k) 4).

(** What force_constants.py:674-686 does with each array before the call, and the type through
    which c/_euphonic.c reads it.  'atom_r' is in the list of attributes to normalise, but of the
    ForceConstants object, which has none: the C code takes crystal.atom_r.  '_H_ab', '_cells',
    '_gvec_phases', '_gvecs_cart' and '_dipole_q0' do not exist either: the C code takes the
    arrays in _dipole_init_data. *)
Inductive prep := Normalised | AsGiven.
Inductive ctype := CDouble | CInt.
Definition interface : list (string * prep * ctype) :=
  [("cell_vectors", Normalised, CDouble); ("recip_vectors", Normalised, CDouble); ("reduced_qpts", Normalised, CDouble);
   ("split_idx", Normalised, CInt); ("q_dirs", Normalised, CDouble); ("fc_img_weighted", Normalised, CDouble);
   ("sc_origins", Normalised, CInt); ("recip_asr_correction", Normalised, CDouble); ("dyn_mat_weighting", Normalised, CDouble);
   ("rfreqs", Normalised, CDouble); ("reigenvecs", Normalised, CDouble); ("rmode_gradients", Normalised, CDouble);
   ("all_origins_cart", Normalised, CDouble); ("_n_sc_images", Normalised, CInt); ("_sc_image_i", Normalised, CInt);
   ("cell_origins", Normalised, CInt); ("_born", Normalised, CDouble); ("_dielectric", Normalised, CDouble);
   ("crystal.atom_r", AsGiven, CDouble); ("H_ab", AsGiven, CDouble); ("cells", AsGiven, CDouble);
   ("gvec_phases", AsGiven, CDouble); ("gvecs_cart", AsGiven, CDouble); ("dipole_q0", AsGiven, CDouble)]%string.
Definition passed (widen : Z -> Z) (p : prep) (a : array) : array := match p with Normalised => normalise widen a | AsGiven => a end.
