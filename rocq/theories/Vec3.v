(** Real 3-vectors and 3x3 matrices (rows) used by several models. *)
From Verif Require Import Base.
Open Scope R_scope.

Notation V3 := (R * R * R)%type.
Notation M3 := (V3 * V3 * V3)%type.

Definition dot (u v : V3) : R :=
  let '(a, b, c) := u in let '(d, e, f) := v in a * d + b * e + c * f.
Definition cross (u v : V3) : V3 :=
  let '(a, b, c) := u in let '(d, e, f) := v in
  (b * f - c * e, c * d - a * f, a * e - b * d).
Definition vadd (u v : V3) : V3 :=
  let '(a, b, c) := u in let '(d, e, f) := v in (a + d, b + e, c + f).
Definition vsub (u v : V3) : V3 :=
  let '(a, b, c) := u in let '(d, e, f) := v in (a - d, b - e, c - f).
Definition vscal (k : R) (u : V3) : V3 := let '(a, b, c) := u in (k * a, k * b, k * c).
Definition vopp (u : V3) : V3 := vscal (-1) u.
Definition vzero : V3 := (0, 0, 0).
Definition norm (u : V3) : R := sqrt (dot u u).
Definition row (m : M3) (i : nat) : V3 :=
  let '(a, b, c) := m in match i with 0%nat => a | 1%nat => b | _ => c end.
Definition comp (v : V3) (i : nat) : R :=
  let '(a, b, c) := v in match i with 0%nat => a | 1%nat => b | _ => c end.
(** row vector times matrix: (v m)_j = sum_i v_i m_ij *)
Definition vmul (v : V3) (m : M3) : V3 :=
  let '(a, b, c) := m in let '(x, y, z) := v in
  vadd (vadd (vscal x a) (vscal y b)) (vscal z c).
(** matrix times column vector *)
Definition mulv (m : M3) (v : V3) : V3 :=
  let '(a, b, c) := m in (dot a v, dot b v, dot c v).
Definition transpose (m : M3) : M3 :=
  let '((a1, a2, a3), (b1, b2, b3), (c1, c2, c3)) := m in
  ((a1, b1, c1), (a2, b2, c2), (a3, b3, c3)).
(** Leibniz determinant. *)
Definition det3 (m : M3) : R :=
  let '((a1, a2, a3), (b1, b2, b3), (c1, c2, c3)) := m in
  a1 * (b2 * c3 - b3 * c2) - a2 * (b1 * c3 - b3 * c1) + a3 * (b1 * c2 - b2 * c1).

Lemma V3_eq a b c a' b' c' : a = a' -> b = b' -> c = c' -> (a, b, c) = (a', b', c') :> V3.
Proof. intros -> -> ->; reflexivity. Qed.

Lemma dot_self_nonneg v : 0 <= dot v v.
Proof. destruct v as [[a b] c]. simpl. nra. Qed.
Lemma norm_nonneg v : 0 <= norm v.
Proof. apply sqrt_pos. Qed.
Lemma norm_sq v : norm v * norm v = dot v v.
Proof. apply sqrt_sqrt. apply dot_self_nonneg. Qed.
