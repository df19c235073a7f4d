(** Words for C82. *)
From Verif Require Import Base Cpx Vec3 M_brille.
Open Scope R_scope.

(** Contract of the linear interpolation: at a q-point of the grid, the values stored there,
    whatever the other q-points and the keyword arguments. *)
Definition exact_at_points (interpolate : grid -> list V3 -> kwargs -> (nat -> nat -> nat -> R) * (nat -> nat -> nat -> C)) : Prop :=
  forall g qpts kw i j q, NoDup (g_rlu g) -> nth_error qpts i = Some q -> nth_error (g_rlu g) j = Some q ->
    (forall m, fst (interpolate g qpts kw) i m 0%nat = g_values g j m 0%nat) /\ (forall m l, snd (interpolate g qpts kw) i m l = g_vectors g j m l).
(** A length c times as large means a reciprocal volume c^3 times as small. *)
Definition volume_scales {Z} (zone : M3 -> list V3 -> list nat -> Z) (volume : Z -> R) : Prop :=
  forall c a1 a2 a3 r t, 0 < c -> volume (zone (vscal c a1, vscal c a2, vscal c a3) r t) = volume (zone (a1, a2, a3) r t) / c ^ 3.
(** What the keyword arguments ask of Brille, as a number of points for a zone of volume vol *)
Definition asked_points (vol : R) (kw : kwargs) (n : R) : Prop :=
  match kw with
  | [(_, BNum v); (_, BFlag _)] => vol / v = n                        (* trellis: cells of volume v *)
  | [(_, BNum s); (_, BNum p)] => vol / s = n /\ p <= n < p + 1       (* mesh: cells no larger than s, at most p points *)
  | [(_, BNum p)] => p <= n < p + 1                                   (* nest: p points *)
  | _ => False
  end.
