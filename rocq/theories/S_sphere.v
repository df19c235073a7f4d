(** Words for powder averages (C85). *)
From Verif Require Import Base Cpx Vec3 M_grid M_cell M_dos S_dos M_sf S_sf.
Open Scope R_scope.

(** All the q-points have the Cartesian length q. *)
Definition on_shell (rec : M3) (q : R) (ps : list V3) : Prop := forall p, In p ps -> norm (vmul p rec) = q.
(** Intensity that the modes of q-point number [q] have between lo and hi, if the sample is
    at temperature T: each mode of energy w scatters with its one-phonon structure factor
    times 1 + n at w and times n at - w (both times 1 if no temperature is set). *)
Definition scattered (kB k : R) (T : option R) (cell : M3) (b M : nat -> R) (pos : nat -> V3) (dw : option dwaller)
  (qs : list V3) (e : etable) (lo hi : R) (q : nat) : R :=
  sumn (nm (et e)) (fun m =>
    let w := freq (et e) q m in
    let s := one_phonon cell b M pos (n_atoms e) dw (evec e q m) (nth q qs vzero) w in
    (if inside lo hi (k * w) then at_plus kB T s w else 0) + (if inside lo hi (- (k * w)) then at_minus kB T s w else 0)).
(** Two temperatures that count as the same. *)
Definition same_temperature (a b : R) : Prop := Rabs (a - b) <= 1 / 10 ^ 8 + 1 / 10 ^ 5 * Rabs b.

(** [d] is the Debye-Waller factor at temperature T of the modes on the Monkhorst-Pack grid
    with the divisions g. *)
Definition dw_on (calc : list V3 -> option (list V3 * etable)) (x : xtal) (ops : option (list symop)) (chunk : nat) (kB fmin : R)
  (g : Z * Z * Z) (T : R) (d : dwaller) : Prop :=
  let '(n0, n1, n2) := g in (0 <= n0)%Z /\ (0 <= n1)%Z /\ (0 <= n2)%Z /\ exists mesh qs e,
  mp_grid (Z.to_nat n0) (Z.to_nat n1) (Z.to_nat n2) = Ok mesh /\ calc mesh = Some (qs, e) /\ calculate_debye_waller chunk e x kB T fmin ops = Ok d.

(** Share of atom a in the density of states of q-point number q between lo and hi: every
    mode there counts with the part of its eigenvector that is on the atom. *)
Definition atom_part (k : R) (e : etable) (lo hi : R) (a q : nat) : R :=
  sumn (nm (et e)) (fun m => if inside lo hi (k * freq (et e) q m) then Sum (seq 0 3) (fun x => Cnorm2 (evec e q m a x)) / INR (n_atoms e) else 0).
(** The factor of atom a: one without weighting, else its cross section divided by its mass
    relative to the average mass of the n atoms. *)
Definition cross_section (w : weighting) (coh inc : nat -> option R) (el : nat) : option R :=
  match w with
  | Coherent => coh el
  | Incoherent => inc el
  | Both => match coh el, inc el with Some x, Some y => Some (x + y) | _, _ => None end
  end.
Definition atom_factor (w : option weighting) (coh inc : nat -> option R) (element : nat -> nat) (M : nat -> R) (n a : nat) (f : R) : Prop :=
  match w with
  | None => f = 1
  | Some w => exists s, cross_section w coh inc (element a) = Some s /\ f = s / (M a / (Sum (seq 0 n) M / INR n))
  end.

From Coq Require Import String.
(** The values of --weighting that are densities of states. *)
Definition weighting_named (s : string) (w : option weighting) : Prop :=
  (s = "dos"%string /\ w = None) \/ (s = "coherent-dos"%string /\ w = Some Coherent) \/ (s = "incoherent-dos"%string /\ w = Some Incoherent) \/
  (s = "coherent-plus-incoherent-dos"%string /\ w = Some Both).
