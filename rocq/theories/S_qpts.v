(** Specification vocabulary for q-point handling. *)
From Verif Require Import Base Vec3 M_qpts.

(** The representative of q in the first Brillouin zone used for the
    calculation: gamma points become exactly 0, others lose their nearest
    integers. *)
Definition canon (q : V3) : V3 := if is_gamma q then vzero else qnorm q.

(** Direction of approach at position i of a list of q-points, from its
    neighbours: forward difference, except that the last point uses the
    backward difference, and an interior point whose successor is equivalent
    to it (the first copy of a doubled gamma) uses the backward difference. *)
Definition approach (qpts : list V3) (i : nat) : V3 :=
  let q := fun k => nth k qpts vzero in
  let n := length qpts in
  if (n <=? 1)%nat then vzero
  else if (i =? 0)%nat then vsub (q 1%nat) (q 0%nat)
  else if (i =? n - 1)%nat then vsub (q i) (q (i - 1)%nat)
  else if is_gamma (vsub (q (i + 1)%nat) (q i)) then vsub (q i) (q (i - 1)%nat)
  else vsub (q (i + 1)%nat) (q i).

(** Position i holds a gamma point that has neighbours on both sides. *)
Definition interior_gamma (qpts : list V3) (i : nat) : bool :=
  (0 <? i)%nat && (i <? length qpts - 1)%nat && is_gamma (nth i qpts vzero).
