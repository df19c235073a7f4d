(** Specification words for bin axes and split (C29, C30). *)
From Coq Require Import String Sorted.
From Verif Require Import Base M_bins.
Open Scope R_scope.

(** An evenly spaced axis of [n] points from [a] with step [h]. *)
Definition regular (a h : R) (n : nat) (x : list R) : Prop :=
  length x = n /\ forall i, (i < n)%nat -> nth i x 0 = a + INR i * h.

(** Breakpoints in non-decreasing order within 0..n. *)
Definition ordered_within (n : nat) (idx : list Z) : Prop :=
  Sorted Z.le idx /\ forall i, In i idx -> (0 <= i <= Z.of_nat n)%Z.

(** The tick labels of consecutive segments moved back to their positions in the
    unsplit spectrum: each segment starts where the previous ones end. *)
Definition own_ticks {A} (s : xspec A) : ticks := match xticks s with None => [] | Some t => t end.
Fixpoint glued_ticks {A} (offset : Z) (segs : list (xspec A)) : ticks :=
  match segs with
  | [] => []
  | s :: rest => map (fun p => ((fst p + offset)%Z, snd p)) (own_ticks s)
                 ++ glued_ticks (offset + Z.of_nat (length (xs s)))%Z rest
  end.

(** [m] is the median of [l]: the middle element, or the mean of the two middle
    elements, of [l] in ascending order. *)
Definition is_median (m : R) (l : list R) : Prop :=
  exists s, Permutation s l /\ (forall i j, (i < j)%nat -> (j < length s)%nat -> nth i s 0 <= nth j s 0) /\
  exists k, (length l = (2 * k + 1)%nat /\ m = nth k s 0) \/ (length l = (2 * k + 2)%nat /\ m = (nth k s 0 + nth (S k) s 0) / 2).

(** Gaps between neighbouring axis values. *)
Definition gaps (x : list R) : list R := map (fun i => nth (S i) x 0 - nth i x 0) (seq 0 (length x - 1)).
