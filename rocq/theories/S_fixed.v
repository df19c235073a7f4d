(** Specification words for broadening with a fixed width (C76, C77). *)
From Verif Require Import Base M_broad S_broad M_fixed.
Open Scope R_scope.

(** Data spread with the kernel K: point j gives the share K(i - j) of its value to point i. *)
Definition spread (K : Z -> R) (a : list R) (i : nat) : R :=
  sumn (length a) (fun j => nth j a 0 * K (Z.of_nat i - Z.of_nat j)%Z).

(** The shares are not negative, the same on both sides, zero beyond [M] points, and
    together they are the whole. *)
Definition shares (K : Z -> R) (M : nat) : Prop :=
  (forall d, 0 <= K d) /\ (forall d, K (- d)%Z = K d) /\
  (forall d, (Z.of_nat M < Z.abs d)%Z -> K d = 0) /\
  sumn (2 * M + 1) (fun k => K (Z.of_nat k - Z.of_nat M)%Z) = 1.

(** Up to [M] points of distance [h] away the shares follow a Gaussian, or a Lorentzian,
    whose full width at half maximum is [w]: at distance w/2 they have half the value
    they have at distance 0. *)
Definition gaussian_of_fwhm (w h : R) (K : Z -> R) (M : nat) : Prop :=
  forall d, (Z.abs d <= Z.of_nat M)%Z -> K d = K 0%Z * exp (- ln 2 * (2 * (IZR d * h) / w) ^ 2).
Definition lorentzian_of_fwhm (w h : R) (K : Z -> R) (M : nat) : Prop :=
  forall d, (Z.abs d <= Z.of_nat M)%Z -> K d = K 0%Z / (1 + (2 * (IZR d * h) / w) ^ 2).

(** An evenly spaced axis with step [h] for [n] values: n points or n + 1 bin edges. *)
Definition even_axis (h : R) (n : nat) (x : list R) : Prop :=
  exists a, (length x = n \/ length x = (n + 1)%nat) /\
  forall i, (i < length x)%nat -> nth i x 0 = a + INR i * h.

(** The full sum of a list of values. *)
Definition total (l : list R) : R := fold_right Rplus 0 l.

(** Neighbouring points of [c] are not equally far apart: some step differs from the
    first one by more than the tolerance, relative 1e-5 plus absolute 1e-8. *)
Definition step (c : list R) (i : nat) : R := nth (S i) c 0 - nth i c 0.
Definition uneven (c : list R) : Prop :=
  exists i, (S i < length c)%nat /\ 1 / 10 ^ 8 + 1 / 10 ^ 5 * Rabs (step c 0) < Rabs (step c i - step c 0).

(** The kernel that changes nothing. *)
Definition untouched (K : Z -> R) : Prop := forall d, K d = if (d =? 0)%Z then 1 else 0.

(** ** Maps *)

(** A map of rows of length [ny], and its value at row i, column j. *)
Definition rect (ny : nat) (z : list (list R)) : Prop := forall r, In r z -> length r = ny.
Definition cell (z : list (list R)) (i j : nat) : R := nth j (nth i z []) 0.

(** Something is to be done: a non-zero fixed width or a function. *)
Definition effective (w : width) : Prop := match w with NoWidth => False | Fixed v => v <> 0 | Varying _ => True end.

(** The fixed widths alone, and the functions alone. *)
Definition fixed_only (w : width) : width := match w with Varying _ => NoWidth | _ => w end.
Definition function_only (w : width) : width := match w with Varying f => Varying f | _ => NoWidth end.

(** A row of values, each drawn as its value times [bw] times the kernel of width [s] at
    the distance counted in steps of [step], up to half the number of bins away. *)
Definition by_bins (sh : kshape) (s bw step : R) (row : list R) (n j : nat) : R :=
  sumn n (fun k => nth k row 0 * bw * (if Nat.leb (bdist j k) (n / 2) then kernel_fun sh s ((INR j - INR k) * step) else 0)).
