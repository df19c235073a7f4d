(** Words for kinematics (C37). *)
From Verif Require Import Base.
Open Scope R_scope.

(** A neutron scattered from energy [ei] to [ef] (E = hm k^2) by the angle [t] transfers
    momentum of size q: q^2 = |k_i - k_f|^2, with k_i along the first axis. *)
Definition transfers (hm ei ef t q : R) : Prop :=
  exists ki kf, 0 <= ki /\ 0 <= kf /\ ei = hm * ki ^ 2 /\ ef = hm * kf ^ 2 /\
  0 <= q /\ q ^ 2 = (ki - kf * cos t) ^ 2 + (kf * sin t) ^ 2.
(** Degrees *)
Definition in_bank (ang : R * R) (t : R) : Prop :=
  Rmin (fst ang) (snd ang) * PI / 180 <= t <= Rmax (fst ang) (snd ang) * PI / 180.
(** Some detector of the bank sees a momentum transfer inside the bin. *)
Definition reachable (hm ei ef : R) (ang : R * R) (lo hi : R) : Prop :=
  exists t q, in_bank ang t /\ lo <= q <= hi /\ transfers hm ei ef t q.
