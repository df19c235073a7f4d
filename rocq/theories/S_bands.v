(** Words for the band path and euphonic-dispersion (C84). *)
From Coq Require Import String.
From Verif Require Import Base Vec3 M_bins S_path S_intmap M_bands.
Open Scope R_scope.

(** Contract of seekpath: only the product of cell and distance matters. *)
Definition path_scales (seekpath : M3 -> list V3 -> list nat -> R -> bpath) : Prop :=
  forall c a1 a2 a3 r t dist, 0 < c -> seekpath (vscal c a1, vscal c a2, vscal c a3) r t (dist / c) = seekpath (a1, a2, a3) r t dist.

(** Contract of seekpath: there are q-points, and a label, possibly empty, for each. *)
Definition labelled_path (seekpath : M3 -> list V3 -> list nat -> R -> bpath) : Prop :=
  forall c r t dist, (0 < length (bp_k (seekpath c r t dist)))%nat /\ length (bp_k (seekpath c r t dist)) = length (bp_labels (seekpath c r t dist)).
(** The cell in another unit of length: [u] is one bohr in that unit. *)
Definition cell_in (u : R) (cell : M3) : M3 := let '(a, b, c) := cell in (vscal u a, vscal u b, vscal u c).
(** x is the distance along the path, with no step where q goes over to the same point in
    another zone. *)
Definition along_path (recip : M3) (kx : R) (qpts : list V3) (x : list R) : Prop :=
  length x = length qpts /\ nth 0 x 0 = 0 /\
  forall i, (S i < length qpts)%nat -> let d := vsub (nth (S i) qpts vzero) (nth i qpts vzero) in
    (lattice_jump d -> nth (S i) x 0 = nth i x 0) /\ (~ lattice_jump d -> nth (S i) x 0 = nth i x 0 + norm (vmul d recip) * kx).
(** How a label is written on the axis. *)
Definition written (s : string) : string := if String.eqb s "GAMMA" then "$\Gamma$"%string else s.
(** Sum of the squared frequencies of a row, imaginary ones counted negative. *)
Definition squares (row : list R) : R := Sum row (fun f => f * Rabs f).

(** The q-points of a path with every interior gamma point twice. *)
Definition doubled (kpts : list V3) (labels : list string) : list V3 :=
  flat_map (fun t => if interior_gamma_label labels t then [vzero; nth t kpts vzero] else [nth t kpts vzero]) (seq 0 (length labels)).

(** Position t of a path is gamma, and neither of its neighbours is. *)
Definition lone_gamma (b : bpath) (t : nat) : Prop :=
  (0 < t)%nat /\ (S t < length (bp_labels b))%nat /\ nth t (bp_labels b) ""%string = "GAMMA"%string /\ nth t (bp_k b) vzero = vzero /\
  nth (S t) (bp_labels b) ""%string <> "GAMMA"%string /\ M_qpts.is_gamma (nth (S t) (bp_k b) vzero) = false.
(** The eigenvector of mode m by atom a and direction c. *)
Definition by_atom (md : M_calc.modes) (m a c : nat) : Cpx.C := M_calc.m_evec md m (3 * a + c)%nat.
