(** Words for C86: what euphonic.plot draws. *)
From Coq Require Import String Sorted.
From Verif Require Import Base M_bins M_plot.
Open Scope R_scope.

(** p is the part of l from position lo up to, not including, position hi. *)
Definition piece_of {A} (l : list A) (lo hi : nat) (p : list A) : Prop :=
  length p = (hi - lo)%nat /\ forall i, (i < hi - lo)%nat -> nth_error p i = nth_error l (lo + i).
(** Where the n values on the axis x are shown: at its points, or in the middle of its bins. *)
Definition shown_at (x : list R) (n : nat) (c : list R) : Prop :=
  length c = n /\
  (length x = n /\ c = x \/ length x = S n /\ forall i, (i < n)%nat -> nth i c 0 = (nth i x 0 + nth (S i) x 0) / 2).
(** The positions whose x is the same as that of the position before, in order. *)
Definition repeats (x : list R) (idx : list nat) : Prop :=
  StronglySorted lt idx /\ forall b, In b idx <-> (0 < b < length x)%nat /\ nth (b - 1) x 0 = nth b x 0.
(** The label of line i: the one asked for, else that of its metadata. *)
Definition label_of (lines : list (list R * option string)) (labels : option (list string)) (i : nat) : option string :=
  match labels with Some l => nth_error l i | None => match nth_error lines i with Some (_, b) => b | None => None end end.
(** v is the least (greatest) of the numbers in l. *)
Definition least (v : R) (l : list R) : Prop := In v l /\ forall u, In u l -> v <= u.
Definition greatest (v : R) (l : list R) : Prop := In v l /\ forall u, In u l -> u <= v.
(** Tick number j stands at the x value with the number given. *)
Definition ticks_at (x : list R) (t : list (Z * string)) (at_ : list R) (names : list string) : Prop :=
  names = map snd t /\ length at_ = length t /\
  forall j loc s, nth_error t j = Some (loc, s) ->
    nth_error at_ j = nth_error x (Z.to_nat (if (loc <? 0)%Z then loc + Z.of_nat (length x) else loc)%Z) /\ (- Z.of_nat (length x) <= loc < Z.of_nat (length x))%Z.
(** The numbers of a map, without the gaps. *)
Definition numbers (z : list (list (option R))) (v : R) : Prop := exists row, In row z /\ In (Some v) row.
(** An axis that never goes back, such as that of a path. *)
Definition rising (x : list R) : Prop := forall i j, (i <= j)%nat -> (j < length x)%nat -> nth i x 0 <= nth j x 0.
(** Every row of the map has ny values. *)
Definition even_rows (ny : nat) (z : list (list (option R))) : Prop := forall row, In row z -> length row = ny.
(** The value of row i (x) and column j (y); None is a gap. *)
Definition value_at (z : list (list (option R))) (i j : nat) : option R := nth j (nth i z []) None.
(** The regions of a figure are as wide as their axes, relative to the first. *)
Definition span (x : list R) (w : R) : Prop := exists lo hi, least lo x /\ greatest hi x /\ w = hi - lo.
(** A number of one of the maps, in the intensity unit of worth u0. *)
Definition intensity (u0 : R) (spectra : list s2) (v : R) : Prop := exists s w, In s spectra /\ numbers (s2_z s) w /\ v = w * s2_uz s / u0.
Definition least_of (P : R -> Prop) (v : R) : Prop := P v /\ forall u, P u -> v <= u.
Definition greatest_of (P : R -> Prop) (v : R) : Prop := P v /\ forall u, P u -> u <= v.
