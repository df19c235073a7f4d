(** Words used to state the density-of-states properties. *)
From Verif Require Import Base Cpx M_dos.
Open Scope R_scope.

(** Number of modes of q-point q whose frequency, in units with one hartree = k,
    lies in [lo, hi). *)
Definition inside (lo hi x : R) : bool := (Rleb lo x && Rltb x hi)%bool.
Definition modes_in (k : R) (t : ftable) (lo hi : R) (q : nat) : R :=
  INR (length (filter (fun m => inside lo hi (k * freq t q m)) (seq 0 (nm t)))).
Definition total_weight (t : ftable) : R := Sum (seq 0 (nq t)) (wt t).
(** Weighted mean over q-points. *)
Definition wmean (t : ftable) (f : nat -> R) : R := Sum (seq 0 (nq t)) (fun q => wt t q * f q) / total_weight t.
(** Area of a histogram: sum of heights times bin widths. *)
Definition area (bins d : list R) : R :=
  sumn (length bins - 1) (fun i => nth i d 0 * (nth (S i) bins 0 - nth i bins 0)).
(** Eigenvectors of every mode have unit norm. *)
Definition normalised (e : etable) : Prop :=
  forall q m, (q < nq (et e))%nat -> (m < nm (et e))%nat ->
    Sum (seq 0 (n_atoms e)) (fun a => Sum (seq 0 3) (fun x => Cnorm2 (evec e q m a x))) = 1.
