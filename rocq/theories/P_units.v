(** Displayed units, scaling and collected intensities (C17, C33, C59). *)
From Coq Require Import String.
From Verif Require Import Base M_units S_units L_units L_units2.
Open Scope R_scope.

(** C17: a spectrum's array always shows the stored physical values, in the shown unit,
    after any sequence of unit assignments (accepted or refused). *)
Theorem C17_units_only_change_display : forall h c, 0 < h -> 0 < c -> forall a us,
  usable a -> (forall u, In u us -> proper u) -> (forall x, In x (raw a) -> x <> 0) ->
  exists q, get_spectral h c (assign_units h c a us) = Ok q /\ length (qmag q) = length (raw a) /\
  forall i, (i < length (raw a))%nat -> same_value h c (stored a) (nth i (raw a) 0) (qunit q) (nth i (qmag q) 0).
Proof. exact history_shows. Qed.
Print Assumptions C17_units_only_change_display.

(** C17: zeros are also shown as they are, between units on the same side (both
    proportional to energy or both inversely proportional). *)
Theorem C17_shown_value : forall h c, 0 < h -> 0 < c -> forall a, usable a -> exists q, get_spectral h c a = Ok q /\ shows h c a q.
Proof. exact spectral_shows. Qed.
Print Assumptions C17_shown_value.

(** C17, the other objects (crystals, force constants, frequencies, ...): their getters
    multiply by the converted unit, which is right for units on the same side between
    which the plain conversion exists.  Missing: the remaining accepted units, for which
    it is false (next theorems). *)
Theorem C17_plain_getter_partial : forall h c, 0 < h -> 0 < c -> forall a,
  proper (stored a) -> proper (shown a) -> same_side (stored a) (shown a) -> plain_compatible (stored a) (shown a) ->
  exists q, get_plain h c a = Ok q /\ shows h c a q.
Proof. exact plain_shows. Qed.
Print Assumptions C17_plain_getter_partial.

(** C17: a unit is accepted exactly if it is compatible with the one shown; a refused
    unit leaves the object unchanged. *)
Theorem C17_unit_checked : forall h c a u,
  (compatible (shown a) u /\ set_unit h c a u = (mkA (raw a) (stored a) u, None)) \/
  (~ compatible (shown a) u /\ set_unit h c a u = (a, Some BadUnit)).
Proof. exact set_unit_spec. Qed.
Print Assumptions C17_unit_checked.

(** C17: an assigned quantity is read back. *)
Theorem C17_assign_read : forall h c, 0 < h -> 0 < c -> forall a q a',
  assign h c a q = (a', None) -> proper (stored a) -> proper (qunit q) ->
  (same_side (stored a) (qunit q) \/ forall x, In x (qmag q) -> x <> 0) ->
  stored a' = stored a /\ shown a' = qunit q /\ length (raw a') = length (qmag q) /\ get_spectral h c a' = Ok q.
Proof. exact assign_read. Qed.
Print Assumptions C17_assign_read.
Theorem C17_assign_read_plain : forall h c, 0 < h -> 0 < c -> forall a q a',
  assign h c a q = (a', None) -> proper (stored a) -> proper (qunit q) -> same_side (stored a) (qunit q) -> qmag q <> [] ->
  get_plain h c a' = Ok q.
Proof. exact assign_read_plain. Qed.
Print Assumptions C17_assign_read_plain.

(** C17 is false of refused assignments: a quantity whose unit is accepted but whose
    values cannot be converted raises, and the shown unit has changed. *)
Theorem C17_failed_assignment_refuted : forall h c : R, exists a q a' e,
  usable a /\ proper (qunit q) /\ compatible (shown a) (qunit q) /\ assign h c a q = (a', Some e) /\ a' <> a.
Proof.
  intros h c. pose proof (w_failed h c) as (U & P & K & E). do 4 eexists. split; [exact U|]. split; [exact P|]. split; [exact K|]. split; [exact E|].
  unfold angstrom, per_mev. intros F. discriminate.
Qed.
Print Assumptions C17_failed_assignment_refuted.

(** C17 is false of the other objects when a length is shown as an inverse length: every
    length but 1 is shown as a different physical value. *)
Theorem C17_inverse_unit_refuted : forall h c, 0 < h -> 0 < c -> forall x, x <> 0 -> x * x <> 1 ->
  exists a u a' q, raw a = [x] /\ set_unit h c a u = (a', None) /\ get_plain h c a' = Ok q /\
  ~ same_value h c (stored a) (nth 0 (raw a) 0) (qunit q) (nth 0 (qmag q) 0).
Proof.
  intros h c Hh Hc x N1 N2. destruct (inverse_side h c Hh Hc x N1 N2) as (a' & q & A & B & D).
  exists (mkA [x] angstrom angstrom), per_angstrom, a', q. exact (conj eq_refl (conj A (conj B D))).
Qed.
Print Assumptions C17_inverse_unit_refuted.

(** ... and an accepted unit can make the getter raise. *)
Theorem C17_accepted_unit_unreadable_refuted : forall h c : R, exists a u a',
  set_unit h c a u = (a', None) /\ get_plain h c a' = Err Dimensionality.
Proof. intros h c. destruct (w_unreadable h c) as (a' & A & B). exact (ex_intro _ _ (ex_intro _ _ (ex_intro _ _ (conj A B)))). Qed.
Print Assumptions C17_accepted_unit_unreadable_refuted.

(** C17 is false of the intensity of a Spectrum2DCollection, whose unit is not checked. *)
Theorem C17_collection_unit_unchecked_refuted : forall h c : R, exists a u a', ~ compatible (shown a) u /\
  set_unit_unchecked a u = (a', None) /\ get_spectral h c a' = Err Dimensionality.
Proof. intros h c. destruct (w_unchecked h c 1) as (N & a' & A & B). exact (ex_intro _ _ (ex_intro _ _ (ex_intro _ _ (conj N (conj A B))))). Qed.
Print Assumptions C17_collection_unit_unchecked_refuted.

(** C33: s *= k and s * k multiply the shown intensity by k and leave the axes, for 1-D
    spectra, 1-D collections and 2-D spectra. *)
Theorem C33_scale_in_place_partial : forall h c, 0 < h -> 0 < c -> forall s k q, scls s <> TwoColl -> get_spectral h c (intensity s) = Ok q ->
  proper (stored (intensity s)) -> proper (shown (intensity s)) -> same_side (stored (intensity s)) (shown (intensity s)) ->
  plain_compatible (stored (intensity s)) (shown (intensity s)) ->
  exists s', imul h c s k = (s', None) /\ scls s' = scls s /\ get_spectral h c (intensity s') = Ok (scale_q q k) /\ same_axes_shown h c s s'.
Proof. exact imul_ok. Qed.
Print Assumptions C33_scale_in_place_partial.
Theorem C33_scaled_copy : forall h c, 0 < h -> 0 < c -> forall s k q, scls s <> TwoColl ->
  usable (sx s) -> usable (sy s) -> usable (sz s) -> get_spectral h c (intensity s) = Ok q ->
  exists s', mul h c s k = Ok s' /\ scls s' = scls s /\ get_spectral h c (intensity s') = Ok (scale_q q k) /\ same_axes_shown h c s s'.
Proof. exact mul_ok. Qed.
Print Assumptions C33_scaled_copy.

(** C33 is false of every 2-D collection with a non-zero intensity and every factor but 1:
    the intensity stays and the y axis is scaled, in place and in the copy. *)
Theorem C33_collection_2d_refuted : forall h c : R, forall s k q,
  scls s = TwoColl -> get_spectral h c (intensity s) = Ok q -> (exists x, In x (qmag q) /\ x <> 0) -> k <> 1 ->
  exists s', imul h c s k = (s', None) /\ get_spectral h c (intensity s') = Ok q /\ q <> scale_q q k /\ sy s' = scale_raw (sy s) k.
Proof. exact coll2d_scale. Qed.
Print Assumptions C33_collection_2d_refuted.
Theorem C33_collection_2d_copy_refuted : forall h c, 0 < h -> 0 < c -> forall s k q qy,
  scls s = TwoColl -> usable (sx s) -> usable (sy s) -> usable (sz s) -> get_spectral h c (intensity s) = Ok q ->
  get_spectral h c (sy s) = Ok qy -> (exists x, In x (qmag q) /\ x <> 0) -> k <> 1 ->
  exists s', mul h c s k = Ok s' /\ get_spectral h c (intensity s') = Ok q /\ q <> scale_q q k /\ get_spectral h c (sy s') = Ok (scale_q qy k).
Proof. exact coll2d_mul. Qed.
Print Assumptions C33_collection_2d_copy_refuted.

(** C33 is false in place when the intensity is shown in an inverse unit: it is divided. *)
Theorem C33_inverse_unit_refuted : forall h c, 0 < h -> 0 < c -> forall k, k <> 0 -> k * k <> 1 -> exists s q s' q',
  usable (intensity s) /\ get_spectral h c (intensity s) = Ok q /\ imul h c s k = (s', None) /\ get_spectral h c (intensity s') = Ok q' /\
  q' = scale_q q (/ k) /\ q' <> scale_q q k.
Proof.
  intros h c Hh Hc k N1 N2. destruct (w_scale_inverse h c Hh Hc k N1 N2) as (U & q & s' & q' & A & B & D & E & F).
  do 4 eexists. split; [|split; [exact A|split; [exact B|split; [exact D|split; [exact E|exact F]]]]]. exact U.
Qed.
Print Assumptions C33_inverse_unit_refuted.

(** C59: a 1-D collection holds what its spectra show. *)
Theorem C59_lines_shown : forall h c, 0 < h -> 0 < c -> forall ys u, ys <> [] -> (forall y, In y ys -> usable y /\ shown y = u) ->
  exists ls, lines_1d h c ys = Ok (ls, u) /\ shown_lines h c ys u ls.
Proof. exact lines_1d_ok. Qed.
Print Assumptions C59_lines_shown.
(** C59, 2-D: true of spectra shown in the unit they are stored in. *)
Theorem C59_maps_shown_partial : forall (h c : R) zs u, zs <> [] -> (forall z, In z zs -> usable z /\ shown z = u /\ stored z = u) ->
  exists ls, lines_2d h c zs = Ok (ls, u) /\ shown_lines h c zs u ls.
Proof. exact lines_2d_ok. Qed.
Print Assumptions C59_maps_shown_partial.
(** C59 is false of 2-D spectra whose unit was changed: the stored numbers of all but the
    first are used with the shown unit. *)
Theorem C59_maps_raw_refuted : forall h c : R, exists z0 z1 ls u, usable z0 /\ usable z1 /\ shown z0 = u /\ shown z1 = u /\
  lines_2d h c [z0; z1] = Ok (ls, u) /\ ~ shown_lines h c [z0; z1] u ls.
Proof. intros h c. destruct (lines_2d_raw h c) as (A & B & D & E). exact (ex_intro _ _ (ex_intro _ _ (ex_intro _ _ (ex_intro _ _ (conj A (conj B (conj eq_refl (conj eq_refl (conj D E))))))))). Qed.
Print Assumptions C59_maps_raw_refuted.

(** The hypotheses are met: an energy array in eV shown in meV, and a spectrum of it. *)
Example C17_nonvacuous : usable (mkA [1; 2] ev mev) /\ (forall x, In x [1; 2] -> x <> 0) /\ plain_compatible ev mev.
Proof.
  split; [|split; [|left; reflexivity]].
  - split; [unfold proper; cbn; lra|]. split; [unfold proper; cbn; lra|]. split; left; reflexivity.
  - intros x [E|[E|[]]]; subst x; apply Rgt_not_eq; lra.
Qed.
Example C33_nonvacuous : let s := mkSp Two (mkA [1] ev ev) (mkA [2] mev mev) (mkA [3] ev mev) in
  scls s <> TwoColl /\ usable (sx s) /\ usable (sy s) /\ usable (sz s).
Proof.
  cbn zeta. split; [discriminate|]. repeat split; try (unfold proper; cbn; lra); try (left; reflexivity).
Qed.
