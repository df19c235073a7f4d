(** Words used to state the broadening properties. *)
From Verif Require Import Base M_broad.
Open Scope R_scope.

(** Distance between two bin numbers. *)
Definition bdist (i j : nat) : nat := ((i - j) + (j - i))%nat.

(** What a unit peak at [x], drawn with kernel width [s], adds to bin [i]: the
    kernel evaluated at the distance between bin i and the bin containing x, cut
    off beyond half the number of bins. *)
Definition peak (shape : kshape) (bins : list R) (bw s x : R) (i : nat) : R :=
  sumn (length bins - 1) (fun j =>
    if (in_bin bins j x && Nat.leb (bdist i j) ((length bins - 1) / 2))%bool
    then kernel_fun shape s ((INR i - INR j) * bw) else 0).

(** Smallest and largest width. *)
Definition is_min (m : R) (l : list R) : Prop := In m l /\ forall x, In x l -> m <= x.
Definition is_max (m : R) (l : list R) : Prop := In m l /\ forall x, In x l -> x <= m.

(** Strictly increasing bin edges. *)
Definition increasing (l : list R) : Prop :=
  forall i j, (i < j)%nat -> (j < length l)%nat -> nth i l 0 < nth j l 0.
