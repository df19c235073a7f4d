(** Words for what the dynamical matrices determine (C92). *)
From Verif Require Import Base Cpx Vec3 M_dos M_sf M_calc S_asr S_calc.
Open Scope R_scope.

(** The modes of the table at one q-point. *)
Definition modes_at (e : etable) (q : nat) : modes :=
  mkModes (freq (et e) q) (fun m i => evec e q m (i / 3) (i mod 3)) None.
(** A table of modes is a table of the modes of the matrices D (one for each q-point), with the masses [mass]. *)
Definition table_modes (e : etable) (mass : nat -> R) (D : nat -> nat -> nat -> C) : Prop :=
  nm (et e) = (3 * n_atoms e)%nat /\ forall q, (q < nq (et e))%nat -> modes_of (3 * n_atoms e) mass (D q) (modes_at e q).
(** Two tables of modes of the same crystal at the same q-points, with the same weights. *)
Definition same_points (e e' : etable) : Prop :=
  n_atoms e = n_atoms e' /\ nq (et e) = nq (et e') /\ forall q, (q < nq (et e))%nat -> wt (et e) q = wt (et e') q.
(** The frequencies of mode 0, 1, ... rise. *)
Definition ascending (n : nat) (f : nat -> R) : Prop := forall i j, (i <= j)%nat -> (j < n)%nat -> f i <= f j.
(** The solver lists the eigenvalues in ascending order. *)
Definition csorts (eigh : nat -> (nat -> nat -> C) -> option ((nat -> R) * (nat -> nat -> C))) : Prop :=
  forall n A ev v, eigh n A = Some (ev, v) -> ascending n ev.
(** Two Debye-Waller factors with the same entries. *)
Definition same_dw (d d' : dwaller) : Prop :=
  dw_n d = dw_n d' /\ dw_t d = dw_t d' /\
  forall a l l', (a < dw_n d)%nat -> (l < 3)%nat -> (l' < 3)%nat -> dw_w d a l l' = dw_w d' a l l'.
(** Both results, or both optional values, are there and related, or both are the same error or missing. *)
Definition related {A E} (R : A -> A -> Prop) (r r' : res A E) : Prop :=
  match r, r' with Ok x, Ok y => R x y | Err a, Err b => a = b | _, _ => False end.
Definition related_opt {A} (R : A -> A -> Prop) (r r' : option A) : Prop :=
  match r, r' with Some x, Some y => R x y | None, None => True | _, _ => False end.
(** Two structure factors from which every map and every average over q-points is the same. *)
Definition same_maps (s s' : sfactor) : Prop :=
  (forall kB k c bins bose given, sqw_map kB k c bins s bose given = sqw_map kB k c bins s' bose given) /\
  (forall kB k c bins bose given weights, calculate_1d_average kB k c bins s bose given weights = calculate_1d_average kB k c bins s' bose given weights).
(** The table of modes made of the result of a calculation for a crystal of n atoms. *)
Definition table_of (n : nat) (r : list V3 * list R * list modes) : etable :=
  let '(qpts, w, ms) := r in
  let at_q q := nth q ms (mkModes (fun _ => 0) (fun _ _ => Czero) None) in
  mkE (mkF (length qpts) (3 * n) (fun q m => m_freq (at_q q) m) (fun q => nth q w 0)) n
    (fun q m a x => m_evec (at_q q) m (3 * a + x)%nat).
