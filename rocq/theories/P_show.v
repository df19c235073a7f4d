(** Property C89: euphonic-show-sampling. *)
From Coq Require Import String.
From Verif Require Import Base Vec3 M_path M_sample S_sample M_show S_show L_show.
Open Scope R_scope.

(** C89.  golden-sphere, random-sphere and (from 6 points on) spherical-polar-improved draw
    exactly the number of points asked for, all on the unit sphere. *)
Theorem C89_sphere : forall r r2 always phi, unit_random r -> unit_random always -> forall npts sampling j, (1 <= npts)%Z ->
  sampling = "golden-sphere"%string \/ sampling = "random-sphere"%string \/ (sampling = "spherical-polar-improved"%string /\ (6 <= npts)%Z) ->
  exists l, show_sampling r r2 always phi npts sampling j = Ok (None, Solid l) /\ Z.of_nat (length l) = npts /\ forall p, In p l -> on_sphere p.
Proof. intros r r2 always phi _ Ha npts sampling j. exact (show_sphere r r2 always phi Ha npts sampling j). Qed.
Print Assumptions C89_sphere.

(** C89.  The two grids draw the least 2 n^2 that is enough, all on the unit sphere; the
    message, printed if that is another number, names it. *)
Theorem C89_sphere_grids : forall r r2 always phi, unit_random r -> forall npts sampling j, (1 <= npts)%Z ->
  sampling = "sphere-from-square-grid"%string \/ (sampling = "spherical-polar-grid"%string /\ (3 <= npts)%Z) ->
  exists n msg l, show_sampling r r2 always phi npts sampling j = Ok (msg, Solid l) /\ least_grid 2 (Z.to_nat npts) n /\ length l = (2 * n * n)%nat /\ (forall p, In p l -> on_sphere p) /\
  (msg = None <-> npts = Z.of_nat (length l)) /\ forall m, msg = Some m -> m = length l.
Proof. exact show_grids. Qed.
Print Assumptions C89_sphere_grids.

(** C89.  In the square and in the cube: the number asked for; for regular-square the least
    square number that is enough. *)
Theorem C89_square : forall r r2 always phi npts sampling j, (1 <= npts)%Z -> sampling = "golden-square"%string \/ sampling = "recurrence-square"%string ->
  exists l, show_sampling r r2 always phi npts sampling j = Ok (None, Flat l) /\ Z.of_nat (length l) = npts /\ forall p, In p l -> in_square p.
Proof. exact show_square. Qed.
Print Assumptions C89_square.
Theorem C89_regular_square : forall r r2 always phi, unit_random r -> forall npts j, (1 <= npts)%Z ->
  exists n msg l, show_sampling r r2 always phi npts "regular-square" j = Ok (msg, Flat l) /\ least_grid 1 (Z.to_nat npts) n /\ length l = (n * n)%nat /\ (forall p, In p l -> in_square p) /\
  (msg = None <-> npts = Z.of_nat (length l)) /\ forall m, msg = Some m -> m = length l.
Proof. exact show_regular. Qed.
Print Assumptions C89_regular_square.
Theorem C89_cube : forall r r2 always phi npts j, (1 <= npts)%Z ->
  exists l, show_sampling r r2 always phi npts "recurrence-cube" j = Ok (None, Solid l) /\ Z.of_nat (length l) = npts /\ forall p, In p l -> in_cube p.
Proof. exact show_cube. Qed.
Print Assumptions C89_cube.

(** C89.  What is drawn for a sphere are the directions the powder functions use with the
    sampling of that name, number of points and random numbers. *)
Theorem C89_powder : forall r r2 always phi npts powder shown (j : bool) l, same_method powder shown -> (1 <= npts)%nat ->
  get_qpts_sphere npts powder (if j then Some r else None) (if j then Some r2 else None) always = Ok l -> (0 < length l)%nat ->
  exists msg, show_sampling r r2 always phi (Z.of_nat npts) shown j = Ok (msg, Solid l).
Proof. exact show_powder. Qed.
Print Assumptions C89_powder.

(** C89.  Other names are refused, as is a number of points that is not positive. *)
Theorem C89_refused : forall r r2 always phi npts sampling j,
  (~ In sampling (choices_2d ++ choices_3d) -> show_sampling r r2 always phi npts sampling j = Err BadChoice) /\
  ((npts <= 0)%Z -> forall d, show_sampling r r2 always phi npts sampling j <> Ok d).
Proof. intros r r2 always phi npts sampling j. split; [exact (show_unknown r r2 always phi npts sampling j)|]. intros H d. exact (show_none r r2 always phi npts sampling j d H). Qed.
Print Assumptions C89_refused.

(** C89 is false of few points: one or two points of the polar grid raise IndexError, fewer than
    six of the improved one ValueError. *)
Theorem C89_few_refuted : forall r r2 always phi npts j,
  ((1 <= npts <= 2)%Z -> show_sampling r r2 always phi npts "spherical-polar-grid" j = Err (Sampling IndexErr)) /\
  ((npts < 6)%Z -> show_sampling r r2 always phi npts "spherical-polar-improved" j = Err (Sampling TooFew)).
Proof. exact show_small. Qed.
Print Assumptions C89_few_refuted.

(** C89 is false of --jitter for the recurrence sequences: it is accepted and changes nothing. *)
Theorem C89_jitter_refuted : forall r r2 always phi npts sampling, In sampling ["recurrence-square"; "recurrence-cube"]%string -> (1 <= npts)%Z ->
  show_sampling r r2 always phi npts sampling true = show_sampling r r2 always phi npts sampling false /\ exists d, show_sampling r r2 always phi npts sampling true = Ok (None, d).
Proof. exact show_no_jitter. Qed.
Print Assumptions C89_jitter_refuted.

(** Non-vacuity: five points asked for of a grid are rounded up to 2 * 2^2. *)
Example C89_meets : unit_random (fun _ => (0, 1 / 2)) /\ least_grid 2 (Z.to_nat 5) 2 /\ least_grid 1 (Z.to_nat 5) 3 /\ same_method "golden" "golden-sphere".
Proof.
  split; [intros i; cbn; lra|]. split; [split; [cbn; lia|intros [|[|m]] H; cbn in H; lia]|]. split; [split; [cbn; lia|intros [|[|[|m]]] H; cbn in H; lia]|]. left. reflexivity.
Qed.
