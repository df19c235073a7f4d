(** C14: what the C extension reads from NumPy arrays of any layout and element type. *)
From Coq Require Import Reals String.
From Flocq Require Import Core.Core IEEE754.Binary IEEE754.Bits.
From Verif Require Import Base M_layout S_layout L_layout L_layout2.
Open Scope Z_scope.

(** The arrays that the C code reads as doubles and that are normalised: whatever their strides,
    offset, byte order and precision, if their elements are floating-point numbers (or bools),
    the number that C finds at the row-major position of an index is the element at that index,
    the same number bit for bit for float64, the same value for float32.
    Partial: the property also covers integer arrays ([C14_integers_as_doubles_refuted]) and the
    arrays that are passed as given ([C14_fortran_refuted]). *)
Theorem C14_doubles_partial : forall widen name a idx v, widens widen ->
  In (name, Normalised, CDouble) interface -> sound_array a -> (d_kind (a_dt a) = KFloat \/ d_kind (a_dt a) = KBool) ->
  index_in (a_shape a) idx -> elem a idx = Some v ->
  exists bits, read_double (passed widen Normalised a) (row_major (a_shape a) idx) = Some bits /\ reads v bits.
Proof. intros widen name a idx v W _. exact (read_float widen a idx v W). Qed.
Print Assumptions C14_doubles_partial.

(** Complex arrays (the reciprocal-space correction, eigenvectors, gradients): real and imaginary
    part one after the other. *)
Theorem C14_complex_partial : forall widen name a idx v, widens widen ->
  In (name, Normalised, CDouble) interface -> sound_array a -> d_kind (a_dt a) = KComplex -> index_in (a_shape a) idx -> elem a idx = Some v ->
  exists x y, read_double (passed widen Normalised a) (2 * row_major (a_shape a) idx) = Some x /\
    read_double (passed widen Normalised a) (2 * row_major (a_shape a) idx + 1) = Some y /\
    match v with C64 u w => reads (F32 u) x /\ reads (F32 w) y | C128 u w => reads (F64 u) x /\ reads (F64 w) y | _ => False end.
Proof. intros widen name a idx v W _. exact (read_complex widen a idx v W). Qed.
Print Assumptions C14_complex_partial.

(** Integer arrays that C reads as int: the element, if it fits in 32 bits, and otherwise the
    element reduced modulo 2^32 without an error. *)
Theorem C14_integers_partial : forall widen name a idx v,
  In (name, Normalised, CInt) interface -> sound_array a -> (d_kind (a_dt a) = KInt \/ d_kind (a_dt a) = KUInt) ->
  index_in (a_shape a) idx -> elem a idx = Some v ->
  exists z, v = Int z /\ read_int (passed widen Normalised a) (row_major (a_shape a) idx) = Some (wrap 4 z) /\
    (- 2 ^ 31 <= z < 2 ^ 31 -> wrap 4 z = z).
Proof. intros widen name a idx v _. exact (read_integer widen a idx v). Qed.
Print Assumptions C14_integers_partial.

(** Arrays passed as given are read right if they are contiguous native doubles. *)
Theorem C14_as_given_partial : forall widen a idx v, sound_array a -> a_dt a = float64 -> c_contiguous a = true ->
  index_in (a_shape a) idx -> elem a idx = Some v ->
  exists bits, v = F64 bits /\ read_double (passed widen AsGiven a) (row_major (a_shape a) idx) = Some bits.
Proof. intros widen. exact read_as_given. Qed.
Print Assumptions C14_as_given_partial.

(** A conversion of singles to doubles exists, and there are sound arrays of several layouts. *)
Example C14_example : widens widen_bits /\ sound_array fortran_atoms /\ sound_array int_qpt /\ sound_array float_origins /\
  c_contiguous fortran_atoms = false /\ c_contiguous float_origins = true /\ In ("reduced_qpts"%string, Normalised, CDouble) interface.
Proof.
  split; [exact widen_exists|]. split; [exact fortran_sound|]. split; [exact int_qpt_sound|]. split; [exact float_origins_sound|].
  split; [reflexivity|]. split; [reflexivity|]. cbn; tauto.
Qed.

(** C14 fails for atom positions.  They are passed as given, because the list of attributes to
    normalise looks for them on the wrong object.  In Fortran order, coordinate j of atom i is
    read as coordinate (3i+j)/n of atom (3i+j) mod n. *)
Theorem C14_fortran_refuted : forall widen a n i j, (0 < n)%nat -> In ("crystal.atom_r"%string, AsGiven, CDouble) interface ->
  a_dt a = float64 -> a_shape a = [n; 3]%nat -> a_strides a = [8; 8 * Z.of_nat n] -> (i < n)%nat -> (j < 3)%nat ->
  option_map F64 (read_double (passed widen AsGiven a) (row_major [n; 3]%nat [i; j])) = elem a [(3 * i + j) mod n; (3 * i + j) / n]%nat.
Proof. intros widen a n i j Hn _. exact (fortran_read a n i j Hn). Qed.
Print Assumptions C14_fortran_refuted.
(** Atoms at (0,0,0) and (1/2,1/2,1/2): the y coordinate 0 of the first is read as 1/2. *)
Example C14_fortran_example : a_dt fortran_atoms = float64 /\ a_shape fortran_atoms = [2; 3]%nat /\ a_strides fortran_atoms = [8; 8 * Z.of_nat 2] /\
  elem fortran_atoms [0; 1]%nat = Some (F64 0) /\ read_double fortran_atoms (row_major [2; 3] [0; 1])%nat = Some half_bits /\
  is_double 0 0 /\ is_double half_bits (1 / 2).
Proof.
  split; [reflexivity|]. split; [reflexivity|]. split; [reflexivity|]. split; [apply fortran_values|]. split; [apply fortran_values|].
  split; [exact bits_zero|exact half_is].
Qed.

(** C14 fails for atom positions of four-byte elements (float32, int32): half of the reads are
    beyond the array. *)
Theorem C14_narrow_refuted : forall widen a k, In ("crystal.atom_r"%string, AsGiven, CDouble) interface ->
  a_off a = 0 -> length (a_mem a) = (4 * size (a_shape a))%nat -> (size (a_shape a) < 2 * k + 2)%nat ->
  read_double (passed widen AsGiven a) k = None.
Proof. intros widen a k _. exact (narrow_reads a k). Qed.
Print Assumptions C14_narrow_refuted.
Example C14_narrow_example : let a := mkArr (mkDT KFloat 4 false) (flat_map (to_bytes 4) [0; 126 * 2 ^ 23; 0]) 0 [1; 3]%nat [12; 4] in
  elem a [0; 1]%nat = Some (F32 (126 * 2 ^ 23)) /\ length (a_mem a) = (4 * size (a_shape a))%nat /\ read_double a 1 = None.
Proof. repeat split; vm_compute; reflexivity. Qed.

(** C14 fails for integer arrays where C expects doubles: q-points with reduce_qpts=False, and
    Born charges, dielectric tensors or cell vectors given in atomic units, which no unit
    conversion turns into floating-point numbers.  They are normalised to 32-bit integers; half
    of the reads are beyond the end of the copy. *)
Theorem C14_integers_as_doubles_refuted : forall widen a k, In ("reduced_qpts"%string, Normalised, CDouble) interface ->
  sound_array a -> (d_kind (a_dt a) = KInt \/ d_kind (a_dt a) = KUInt) -> a_dt a <> int32 ->
  (size (a_shape a) < 2 * k + 2)%nat -> read_double (passed widen Normalised a) k = None.
Proof. intros widen a k _. exact (integers_as_doubles widen a k). Qed.
Print Assumptions C14_integers_as_doubles_refuted.
(** The q-point (1,0,0): its first coordinate is read as 2^-1074, the others are not there. *)
Example C14_integer_qpt : forall widen, sound_array int_qpt /\ elem int_qpt [0; 0]%nat = Some (Int 1) /\
  (exists bits, read_double (normalise widen int_qpt) (row_major [1; 3] [0; 0])%nat = Some bits /\ is_double bits (bpow radix2 (-1074))) /\
  read_double (normalise widen int_qpt) (row_major [1; 3] [0; 1])%nat = None /\ read_double (normalise widen int_qpt) (row_major [1; 3] [0; 2])%nat = None.
Proof. intros widen. exact (conj int_qpt_sound (int_qpt_values widen)). Qed.

(** C14 fails for cell origins given as floating-point numbers, which the constructor accepts and
    the Python evaluation understands: the origins (0,0,0) and (1,0,0) are both read as zero. *)
Theorem C14_float_origins_refuted : forall widen, In ("cell_origins"%string, Normalised, CInt) interface /\ sound_array float_origins /\
  elem float_origins [1; 0]%nat = Some (F64 one_bits) /\ is_double one_bits 1 /\
  forall k, (k < 6)%nat -> read_int (passed widen Normalised float_origins) k = Some 0.
Proof.
  intros widen. split; [cbn; tauto|]. split; [exact float_origins_sound|]. split; [apply (float_origins_values widen)|]. split; [exact bits_one|].
  apply (float_origins_values widen).
Qed.
Print Assumptions C14_float_origins_refuted.
