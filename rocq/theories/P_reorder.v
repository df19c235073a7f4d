(** C28: reordering of modes. *)
From Verif Require Import Base M_path M_qpts Vec3 Cpx M_dos M_reorder S_reorder L_reorder2 L_tight.
Open Scope R_scope.

(** C28 fails: for these orthonormal modes of a two-atom crystal one mode is lost and
    another one is returned more than once. *)
Theorem C28_mode_lost_refuted : exists tol rg qpts e e', n_atoms e = 2%nat /\ nq (et e) = 2%nat /\ nm (et e) = 6%nat /\
  (forall q, (q < 2)%nat -> orthonormal (n_atoms e) (evec e q)) /\
  (forall m m', (m < 6)%nat -> (m' < 6)%nat -> freq (et e) 1 m = freq (et e) 1 m' -> m = m') /\
  reorder_frequencies tol rg qpts e = Ok e' /\
  (forall b, (b < 6)%nat -> freq (et e') 1 b <> freq (et e) 1 5%nat) /\ freq (et e') 1 0%nat = freq (et e') 1 5%nat.
Proof. exact mode_lost. Qed.
Print Assumptions C28_mode_lost_refuted.

(** C28.  Frequencies and eigenvectors are permuted together at every q-point as long as
    the matching never runs out of overlapping modes. *)
Theorem C28_permutation_partial : forall tol rg qpts e, (0 < nq (et e))%nat ->
  (forall t, (1 <= t < nq (et e))%nat -> nth (t - 1) (calc_reorder tol rg qpts) false = true -> always_overlap (n_atoms e) (evec e (t - 1)%nat) (evec e t)) ->
  exists e', reorder_frequencies tol rg qpts e = Ok e' /\ nq (et e') = nq (et e) /\ nm (et e') = nm (et e) /\ n_atoms e' = n_atoms e /\
    (forall q, wt (et e') q = wt (et e) q) /\ forall q, (q < nq (et e))%nat -> reordered e e' q.
Proof. exact reorder_permutes. Qed.
Print Assumptions C28_permutation_partial.

(** C28.  When modes change little between neighbouring q-points (each overlaps one mode
    of the next point by more than a half), the result is a permutation and branch b at
    one q-point overlaps branch b at the next by more than a half. *)
Theorem C28_follows_modes_partial : forall tol rg qpts e, (0 < nq (et e))%nat ->
  (forall t, (1 <= t < nq (et e))%nat -> nth (t - 1) (calc_reorder tol rg qpts) false = true ->
     orthonormal (n_atoms e) (evec e (t - 1)%nat) /\ orthonormal (n_atoms e) (evec e t) /\ partnered (n_atoms e) (evec e (t - 1)%nat) (evec e t)) ->
  exists e', reorder_frequencies tol rg qpts e = Ok e' /\ (forall q, (q < nq (et e))%nat -> reordered e e' q) /\
    forall t, (1 <= t < nq (et e))%nat -> nth (t - 1) (calc_reorder tol rg qpts) false = true -> forall b, (b < 3 * n_atoms e)%nat ->
      1 / 2 < Cnorm2 (inner (n_atoms e) (evec e' (t - 1)%nat b) (evec e' t b)).
Proof. exact reorder_follows. Qed.
Print Assumptions C28_follows_modes_partial.

Example C28_nonvacuous : orthonormal 1 (evec swap_e 0) /\ orthonormal 1 (evec swap_e 1) /\ partnered 1 (evec swap_e 0) (evec swap_e 1) /\
  calc_reorder 0 true [(0, 0, 0); (1/4, 0, 0)] = [true].
Proof. exact swap_partnered. Qed.

(** C28.  A step is matched unless the path turns there or, when gamma is not to be
    crossed, one of its ends is gamma. *)
Theorem C28_matched_steps : forall tol rg qpts i, (S i < length qpts)%nat ->
  nth i (calc_reorder tol rg qpts) false = true <->
  (i = 0%nat \/ exists j, i = S j /\ nth j (direction_changed tol qpts) false = false) /\
  (rg = false -> is_gamma (nth i qpts vzero) = false /\ is_gamma (nth (S i) qpts vzero) = false).
Proof. exact matched_steps. Qed.
Print Assumptions C28_matched_steps.

(** C28.  Across an unmatched step the order is carried over unchanged. *)
Theorem C28_unmatched_step : forall tol rg qpts e e' t, reorder_frequencies tol rg qpts e = Ok e' -> (1 <= t < nq (et e))%nat ->
  nth (t - 1) (calc_reorder tol rg qpts) false = false ->
  exists perm : list nat, forall b,
    freq (et e') (t - 1) b = freq (et e) (t - 1) (nth b perm 0%nat) /\ freq (et e') t b = freq (et e) t (nth b perm 0%nat) /\
    forall a l, evec e' (t - 1)%nat b a l = evec e (t - 1)%nat (nth b perm 0%nat) a l /\ evec e' t b a l = evec e t (nth b perm 0%nat) a l.
Proof. exact unmatched_kept. Qed.
Print Assumptions C28_unmatched_step.
