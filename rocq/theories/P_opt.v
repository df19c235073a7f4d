(** C88: euphonic-optimise-dipole-parameter. *)
From Verif Require Import Base Cpx Vec3 M_cell M_qpts M_dynmat M_dipole M_struct M_asr M_calc M_opt S_opt L_opt.
Open Scope R_scope.

(** C88.  The parameters tested are the minimum and those a whole number of steps above it, up
    to the maximum and a hundredth of a step. *)
Theorem C88_parameters : forall erfc reigh ceigh argsort chunk junk clock loaded lo hi step n kw p ti tp l,
  optimise erfc reigh ceigh argsort chunk junk clock loaded lo hi step n kw = Ok (p, ti, tp, l) -> 0 < step ->
  (forall i t, nth_error l i = Some t -> tr_param t = lo + INR i * step) /\
  forall q, In q (map tr_param l) <-> exists i, q = lo + INR i * step /\ q < hi + step / 100.
Proof.
  intros erfc reigh ceigh argsort chunk junk clock loaded lo hi step n kw p ti tp l H Hs. destruct (suggestion _ _ _ _ _ _ _ _ _ _ _ _ _ _ _ _ _ H) as [E _]. split.
  - intros i t Et. assert (K : nth_error (map tr_param l) i = Some (tr_param t)) by (rewrite nth_error_map, Et; reflexivity). rewrite E in K.
    rewrite arange_nth in K by (apply nth_error_Some; congruence). congruence.
  - intros q. rewrite E. exact (arange_in _ _ _ _ Hs).
Qed.
Print Assumptions C88_parameters.

(** C88.  The time per q-point of a parameter is that between two readings of the clock divided by
    the number of q-points; the suggestion is the parameter with the least time per q-point, the
    first of them if there are several, returned with its own two times. *)
Theorem C88_suggestion : forall erfc reigh ceigh argsort chunk junk clock loaded lo hi step n kw p ti tp l,
  optimise erfc reigh ceigh argsort chunk junk clock loaded lo hi step n kw = Ok (p, ti, tp, l) ->
  map tr_param l = arange lo (hi + step / 100) step /\
  (forall i t, nth_error l i = Some t -> tr_init t = clock (4 * i + 1)%nat - clock (4 * i)%nat /\ tr_per t = (clock (4 * i + 3)%nat - clock (4 * i + 2)%nat) / IZR n) /\
  exists k t, nth_error l k = Some t /\ p = tr_param t /\ ti = tr_init t /\ tp = tr_per t /\
    (forall i t', nth_error l i = Some t' -> tr_per t <= tr_per t' /\ ((i < k)%nat -> tr_per t < tr_per t')).
Proof. exact suggestion. Qed.
Print Assumptions C88_suggestion.

(** C88.  The first timed call of a trial calculates one q-point, the second all n. *)
Theorem C88_qpts : forall x kw n p,
  evaluated x (first_options kw p) = [(1 / 2, 1 / 2, 1 / 2)] /\ evaluated x (second_options kw n p) = repeat (1 / 2, 1 / 2, 1 / 2) n.
Proof. intros x kw n p. split; [exact (first_evaluates x kw p)|exact (second_evaluates x kw n p)]. Qed.
Print Assumptions C88_qpts.

(** C88.  The time per q-point includes no search for images, set-up of the Ewald sum or fit of
    the sum rule: these are never done in the second call.  For every parameter but the first, the
    first call sets up the Ewald sum of a polar crystal and does nothing else of the kind. *)
Theorem C88_jobs : forall erfc reigh ceigh argsort chunk junk clock x lo hi step n kw p ti tp l,
  optimise erfc reigh ceigh argsort chunk junk clock (Some x) lo hi step n kw = Ok (p, ti, tp, l) ->
  forall i t, nth_error l i = Some t ->
  (forall k, ~ does (tr_between t) (second_options kw (Z.to_nat n) (tr_param t)) k) /\
  (i = 0%nat -> tr_before t = x) /\
  ((0 < i)%nat -> forall k, does (tr_before t) (first_options kw (tr_param t)) k <-> k = EwaldSetup /\ o_born x <> None /\ p_dipole kw = true).
Proof. exact jobs. Qed.
Print Assumptions C88_jobs.

(** C88.  What [does] leaves out changes nothing: a calculation that does none of the three jobs
    leaves the object as it was. *)
Theorem C88_idle : forall erfc reigh ceigh argsort chunk j o x, (forall k, ~ does x o k) -> fst (call erfc reigh ceigh argsort chunk j o x) = x.
Proof. exact idle_call. Qed.
Print Assumptions C88_idle.

(** C88.  It is not so that the initialisation time is that of the Ewald sum: for the first
    parameter tested after loading, and for no other, it includes the search for images and, with
    the real-space sum rule, its fit. *)
Theorem C88_first_time_refuted : forall erfc reigh ceigh argsort chunk junk clock d mass born diel lo hi step n kw p ti tp l,
  optimise erfc reigh ceigh argsort chunk junk clock (Some (new_fc d mass born diel)) lo hi step n kw = Ok (p, ti, tp, l) ->
  forall i t, nth_error l i = Some t ->
  (does (tr_before t) (first_options kw (tr_param t)) ImageSearch <-> i = 0%nat) /\
  (does (tr_before t) (first_options kw (tr_param t)) SumRuleFit <-> i = 0%nat /\ p_asr kw = Some Realspace).
Proof.
  intros erfc reigh ceigh argsort chunk junk clock d mass born diel lo hi step n kw p ti tp l H i t Et.
  destruct (jobs _ _ _ _ _ _ _ _ _ _ _ _ _ _ _ _ _ H i t Et) as (_ & J0 & J1). destruct i as [|i].
  - rewrite (J0 eq_refl). cbn. split; [split; reflexivity|]. split; [intros [A _]; split; [reflexivity|exact A]|intros [_ A]; split; [exact A|reflexivity]].
  - assert (Hi : (0 < S i)%nat) by lia. split; [split; [intros K; apply (J1 Hi) in K; destruct K as [K _]; discriminate|discriminate]|].
    split; [intros K; apply (J1 Hi) in K; destruct K as [K _]; discriminate|intros [K _]; discriminate].
Qed.
Print Assumptions C88_first_time_refuted.

(** C88.  It is not so that no parameter above the maximum is tested. *)
Theorem C88_maximum_refuted : exists lo hi step q, 0 < step /\ lo <= hi /\ hi < q /\ forall erfc reigh ceigh argsort chunk junk clock x n kw p ti tp l,
  optimise erfc reigh ceigh argsort chunk junk clock (Some x) lo hi step n kw = Ok (p, ti, tp, l) -> In q (map tr_param l).
Proof.
  exists (1 / 4), (999 / 1000), (1 / 4), 1. split; [lra|]. split; [lra|]. split; [lra|]. intros erfc reigh ceigh argsort chunk junk clock x n kw p ti tp l H.
  destruct (C88_parameters _ _ _ _ _ _ _ _ _ _ _ _ _ _ _ _ _ H) as [_ Q]; [lra|]. apply Q. exists 3%nat. cbn. split; lra.
Qed.
Print Assumptions C88_maximum_refuted.

(** C88.  It runs for every range, every positive number of q-points and every force constants,
    if the solver converges, no weights are given and the real-space sum rule is not asked for. *)
Theorem C88_runs : forall erfc reigh (ceigh : complex_eigh) argsort chunk junk clock x lo hi step n kw,
  0 < step -> lo <= hi -> (0 < n)%Z -> p_weights kw = None -> p_asr kw <> Some Realspace -> (forall k M, ceigh k M <> None) ->
  exists r, optimise erfc reigh ceigh argsort chunk junk clock (Some x) lo hi step n kw = Ok r.
Proof. exact runs. Qed.
Print Assumptions C88_runs.

(** C88.  A step of zero, a file without force constants, a range with no value and a number of
    q-points that is not positive are refused. *)
Theorem C88_errors : forall erfc reigh ceigh argsort chunk junk clock lo hi step n kw,
  let run := optimise erfc reigh ceigh argsort chunk junk clock in
  (forall loaded, run loaded lo hi 0 n kw = Err StepZero) /\
  (step <> 0 -> run None lo hi step n kw = Err NotForceConstants) /\
  (forall x, 0 < step -> hi + step / 100 <= lo -> run (Some x) lo hi step n kw = Err NoParameters) /\
  (forall loaded r, (n <= 0)%Z -> run loaded lo hi step n kw <> Ok r).
Proof.
  intros erfc reigh ceigh argsort chunk junk clock lo hi step n kw run. split; [intros loaded; apply step_zero|]. split; [apply not_fc|].
  split; [intros x; apply no_parameters|]. intros loaded r. apply bad_count.
Qed.
Print Assumptions C88_errors.

(** With a solver that converges, any polar crystal and the defaults, it runs *)
Example C88_case : forall d mass born diel clock, exists r,
  optimise (fun _ => 0) (fun _ _ => None) (fun _ _ => Some (fun _ => 0, fun _ _ => Czero)) (fun _ => []) 1000 (fun _ _ _ _ => 0) clock
    (Some (new_fc d mass (Some born) diel)) (1 / 4) (3 / 2) (1 / 4) 500 (mkOpts [] None (Some Reciprocal) true 1 true false true false) = Ok r.
Proof. intros d mass born diel clock. apply runs; [lra|lra|lia|reflexivity|discriminate|discriminate]. Qed.
