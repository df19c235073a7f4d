(** Properties C07, C08: q-point reduction and gamma insertion. *)
From Verif Require Import Base Vec3 M_qpts S_qpts L_qpts L_insert.

(** C07.  For every list of q-points, with or without reduction and LO-TO
    splitting, the call succeeds and the i-th result is the per-q calculation
    at (the first-zone representative of) the i-th q-point, with the direction
    given by that point's own neighbours when it is a gamma point. *)
Theorem C07_results_follow_input_order :
  forall X (calc : V3 -> option V3 -> X) dflt reduce splitting qpts,
  exists out, calculate calc dflt reduce splitting qpts = Ok out /\
    length out = length qpts /\
    forall i q, nth_error qpts i = Some q ->
      nth_error out i = Some (calc (if reduce then canon q else q)
        (if (splitting && is_gamma q)%bool then Some (approach qpts i) else None)).
Proof. exact calculate_correct. Qed.
Print Assumptions C07_results_follow_input_order.

(** C07.  Hence reduction is invisible whenever the per-q calculation does not
    distinguish a q-point from its first-zone representative. *)
Theorem C07_reduction_invisible :
  forall X (calc : V3 -> option V3 -> X) dflt splitting qpts,
  (forall q d, In q qpts -> calc (canon q) d = calc q d) ->
  calculate calc dflt true splitting qpts = calculate calc dflt false splitting qpts.
Proof. exact reduction_invisible. Qed.
Print Assumptions C07_reduction_invisible.

(** Non-vacuity: a periodic per-q function that is not constant. *)
Example C07_nonvacuous :
  let calc := fun (q : V3) (d : option V3) => (is_gamma q, d) in
  forall q d, calc (canon q) d = calc q d.
Proof. intros calc q d. unfold calc. rewrite is_gamma_canon. reflexivity. Qed.

(** C07.  The C and Python tests for "is this a gamma point" agree although
    they round half-integers differently. *)
Theorem C07_c_is_gamma : forall q, c_is_gamma q = is_gamma q.
Proof. exact c_is_gamma_ok. Qed.
Print Assumptions C07_c_is_gamma.

(** C08.  With insert_gamma each interior gamma point is doubled in place and
    nothing else changes. *)
Theorem C08_insert_gamma_qpts : forall qpts,
  insert_gamma_qpts qpts
  = concat (map (fun i => if interior_gamma qpts i
                          then [nth i qpts vzero; nth i qpts vzero]
                          else [nth i qpts vzero]) (seq 0 (length qpts))).
Proof. exact insert_qpts_doubled. Qed.
Print Assumptions C08_insert_gamma_qpts.

(** C08.  Floating point weights: each copy gets half, all others are
    unchanged, so the total is unchanged. *)
Theorem C08_insert_gamma_weights : forall qpts w, length w = length qpts ->
  insert_gamma_weights qpts (WFloat w)
  = WFloat (concat (map (fun i => if interior_gamma qpts i
                          then [nth i w 0 / 2; nth i w 0 / 2] else [nth i w 0])
                (seq 0 (length qpts)))).
Proof. exact insert_float_weights. Qed.
Print Assumptions C08_insert_gamma_weights.

Theorem C08_total_weight_float_partial : forall qpts w, length w = length qpts ->
  Rsum (final_weights (length (insert_gamma_qpts qpts))
          (Some (insert_gamma_weights qpts (WFloat w)))) = Rsum w.
Proof. exact insert_float_weights_sum. Qed.
Print Assumptions C08_total_weight_float_partial.

(** C08.  The first copy is approached from the left neighbour and the second
    towards the right neighbour. *)
Theorem C08_directions_of_copies : forall pre a g b post,
  is_gamma g = true -> is_gamma (vsub b g) = false ->
  exists pre' post',
    insert_gamma_qpts (pre ++ a :: g :: b :: post) = pre' ++ a :: g :: g :: b :: post' /\
    approach (pre' ++ a :: g :: g :: b :: post') (length pre' + 1) = vsub g a /\
    approach (pre' ++ a :: g :: g :: b :: post') (length pre' + 2) = vsub b g.
Proof. exact insert_gamma_directions. Qed.
Print Assumptions C08_directions_of_copies.

Example C08_nonvacuous :
  is_gamma (0, 0, 0) = true /\ is_gamma (vsub (1/2, 0, 0) (0, 0, 0)) = false.
Proof.
  split; [exact is_gamma_vzero|]. replace (vsub _ _) with (1/2, 0, 0); [exact is_gamma_half|].
  unfold vsub. apply V3_eq; lra.
Qed.

(** C08 is false for integer weight arrays: the halves are truncated when they
    are stored back, so weight is lost ([1,1,1] loses the middle point). *)
Theorem C08_total_weight_int_refuted :
  exists qpts w, length w = length qpts /\
    Rsum (final_weights (length (insert_gamma_qpts qpts))
            (Some (insert_gamma_weights qpts (WInt w)))) <> Rsum (map IZR w).
Proof. exact insert_int_weights_lost. Qed.
Print Assumptions C08_total_weight_int_refuted.

(** C08 is false for omitted weights: they are not equivalent to equal
    weights, because the default is computed after the insertion. *)
Theorem C08_default_weights_refuted :
  exists qpts,
    let n' := length (insert_gamma_qpts qpts) in
    final_weights n' None
    <> final_weights n' (Some (insert_gamma_weights qpts
         (WFloat (repeat (1 / INR (length qpts)) (length qpts))))).
Proof. exact insert_none_differs. Qed.
Print Assumptions C08_default_weights_refuted.
