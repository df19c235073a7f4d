(** Model of the Fortran record reader, /repo/euphonic/readers/castep.py 622-677
    [_read_entry].  A file is the list of its remaining bytes (integers 0..255).  Floats and
    strings are kept as their eight bytes: np.float64 and numpy's S8 store exactly these. *)
From Verif Require Import Base.
Open Scope Z_scope.

Notation bytes := (list Z).
Inductive ferr :=
  | EndOfFile        (* EOFError, castep.py:650 *)
  | StructError      (* struct.error: not the right number of bytes *)
  | MarkerError.     (* IOError, castep.py:674 *)

(** file.read(n): everything for negative n *)
Definition fread (n : Z) (f : bytes) : bytes * bytes :=
  if n <? 0 then (f, []) else (firstn (Z.to_nat n) f, skipn (Z.to_nat n) f).

(** struct.unpack('>i', raw)[0]: four bytes, big-endian, two's complement *)
Definition unpack_i (raw : bytes) : res Z ferr :=
  match raw with
  | [a; b; c; d] => let u := ((a * 256 + b) * 256 + c) * 256 + d in Ok (if u <? 2147483648 then u else u - 4294967296)
  | _ => Err StructError
  end.
(** struct.unpack('>d', raw)[0] *)
Definition unpack_d (raw : bytes) : res bytes ferr :=
  if Nat.eqb (length raw) 8 then Ok raw else Err StructError.

(** castep.py:645-651 [record_mark_read] *)
Definition record_mark_read (f : bytes) : res (Z * bytes) ferr :=
  let '(raw, f') := fread 4 f in
  match raw with
  | [] => Err EndOfFile
  | _ => match unpack_i raw with Ok z => Ok (z, f') | Err e => Err e end
  end.

(** The dtypes used: '', '>i4', '>f8', 'S8'. *)
Inductive dtype := Raw | I4 | F8 | S8.
Inductive data :=
  | DBytes (l : bytes)
  | DInt (z : Z) | DInts (l : list Z)
  | DFloat (x : bytes) | DFloats (l : list bytes)
  | DStrs (l : list bytes).

(** int(dtype[-1]) *)
Definition itemsize (t : dtype) : nat := match t with I4 => 4%nat | _ => 8%nat end.

(** [k] items of [w] bytes *)
Fixpoint chunks (w k : nat) (l : bytes) : list bytes :=
  match k with O => [] | S k => firstn w l :: chunks w k (skipn w l) end.

(** np.fromfile(f, dtype, count): fewer items at the end of the file *)
Definition fromfile (w : nat) (count : nat) (f : bytes) : list bytes * bytes :=
  let k := Nat.min count (length f / w) in
  (chunks w k f, if Nat.ltb k count then [] else skipn (w * k) f).

Definition int_of (raw : bytes) : Z := match unpack_i raw with Ok z => z | Err _ => 0 end.

(** castep.py:653-670: the data part of [_read_entry], given the begin marker *)
Definition read_data (t : dtype) (begin : Z) (f : bytes) : res (data * bytes) ferr :=
  match t with
  | Raw => let '(d, f') := fread begin f in Ok (DBytes d, f')
  | _ =>
      let n_elems := Z.quot begin (Z.of_nat (itemsize t)) in
      if 1 <? n_elems then
        let '(items, f') := fromfile (itemsize t) (Z.to_nat n_elems) f in
        Ok (match t with I4 => DInts (map int_of items) | F8 => DFloats items | _ => DStrs items end, f')
      else
        let '(raw, f') := fread begin f in
        match t with
        | I4 => match unpack_i raw with Ok z => Ok (DInt z, f') | Err e => Err e end
        | F8 => match unpack_d raw with Ok x => Ok (DFloat x, f') | Err e => Err e end
        | _ => Ok (DBytes raw, f')
        end
  end.

(** castep.py:622-677 [_read_entry]: the value read and the rest of the file *)
Definition read_entry (t : dtype) (f : bytes) : res (data * bytes) ferr :=
  match record_mark_read f with
  | Err e => Err e
  | Ok (begin, f1) =>
      match read_data t begin f1 with
      | Err e => Err e
      | Ok (d, f2) =>
          match record_mark_read f2 with
          | Err e => Err e
          | Ok (fin, f3) => if begin =? fin then Ok (d, f3) else Err MarkerError
          end
      end
  end.

(** Reading records until the file ends. *)
Fixpoint read_all (fuel : nat) (f : bytes) : list data * ferr :=
  match fuel with
  | O => ([], EndOfFile)
  | S n => match read_entry Raw f with
           | Err e => ([], e)
           | Ok (d, f') => let '(ds, e) := read_all n f' in (d :: ds, e)
           end
  end.
