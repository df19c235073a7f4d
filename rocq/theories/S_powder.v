(** Words for the powder map tool (C80). *)
From Verif Require Import Base Vec3.
Open Scope R_scope.

(** [e] divides the range from lo to hi into n bins of the same width. *)
Definition even_bins (lo hi : R) (n : nat) (e : list R) : Prop :=
  length e = (n + 1)%nat /\ forall i, (i <= n)%nat -> nth i e 0 = lo + INR i * ((hi - lo) / INR n).
(** Middle of bin i. *)
Definition bin_middle (e : list R) (i : nat) : R := (nth i e 0 + nth (S i) e 0) / 2.
(** Number of the nm modes of q-point p whose energy is in [lo, hi); [k] converts the
    frequencies [omega] to the unit of the axis. *)
Definition modes_at (k : R) (omega : V3 -> nat -> R) (nm : nat) (lo hi : R) (p : V3) : R :=
  sumn nm (fun m => if (Rleb lo (k * omega p m) && Rltb (k * omega p m) hi)%bool then 1 else 0).
(** Plain average over a list. *)
Definition average {A} (l : list A) (f : A -> R) : R := Sum l f / INR (length l).
(** The least whole number that is not below x. *)
Definition rounded_up (x : R) (n : nat) : Prop := x <= INR n /\ forall m : nat, x <= INR m -> (n <= m)%nat.

From Coq Require Import String.
From Verif Require Import M_powder.
(** The same command line with other widths; without kinematic constraints and with the
    given --e-max. *)
Definition set_widths (a : pargs) (qb eb : option (list R)) : pargs :=
  mkPA (q_min a) (q_max a) (q_spacing a) (p_npts a) (npts_density a) (npts_min a) (npts_max a) (p_ebins a) (p_emin a) (p_emax a)
    (p_ei a) (p_ef a) (p_angles a) qb eb (p_shape a) (p_scale a).
Definition unconstrained (a : pargs) (emax : option R) : pargs :=
  mkPA (q_min a) (q_max a) (q_spacing a) (p_npts a) (npts_density a) (npts_min a) (npts_max a) (p_ebins a) (p_emin a) emax
    None None (p_angles a) (p_qb a) (p_eb a) (p_shape a) (p_scale a).
(** What a list of values given with --q-broadening or --energy-broadening means: one value is a
    fixed width, several are the coefficients of a polynomial. *)
Definition width_for (l : option (list R)) (w : M_fixed.width) : Prop :=
  match w with
  | M_fixed.NoWidth => l = None
  | M_fixed.Fixed c => l = Some [c]
  | M_fixed.Varying f => exists cs, l = Some cs /\ (2 <= List.length cs)%nat /\ forall x, f x = sumn (List.length cs) (fun i => nth i cs 0 * x ^ i)
  end.
(** The factor of --scale. *)
Definition p_factor (a : pargs) : R := match p_scale a with Some x => x | None => 1 end.
