(** Property C93: the tool that measures the error of Brille's interpolation. *)
From Coq Require Import String.
From Verif Require Import Base Cpx Vec3 M_path M_broad M_dos M_sf M_bins M_sample M_fixed M_grid M_qpts M_dynmat M_dipole M_struct M_asr M_calc M_brille M_brconv
  S_qpts S_dynmat S_dipole S_asr S_calc S_acoustic S_unique S_brconv L_nac L_calc4 L_brconv L_brconv2 L_brconv3 L_brconv4.
Open Scope R_scope.

(** C93.  One curve for each grid setting, in the order given; and what is drawn for a setting,
    with everything calculated directly, is what the tool draws when run with that setting alone.
    The earlier grids leave their mark on the force constants object and on the dictionary of
    keyword arguments, and neither this nor uninitialised memory has an effect. *)
Theorem C93_each_alone : forall Zn (zone : M3 -> list V3 -> list nat -> Zn) volume points erfc reigh ceigh argsort chunk interpolate coeffs kB k kM c cpus room phi u types qaxis xt sl, let tool := check_brille_settings zone volume points erfc reigh ceigh argsort chunk interpolate coeffs kB k kM c cpus room phi u types qaxis xt sl in
  forall junk junk' l a r, tool junk l a = Ok r -> exists ps, settings a = Some ps /\ List.length (re_curves r) = List.length ps /\
  forall i p, nth_error ps i = Some p -> exists cv, nth_error (re_curves r) i = Some cv /\
    tool junk' l (with_settings a [p]) = Ok (mkReport (re_qpts r) (re_freq r) (re_sf r) (re_bins r) (re_avg r) (re_slices r) [cv]).
Proof. intros Zn zone volume points erfc reigh ceigh argsort chunk interpolate coeffs kB k kM c cpus room phi u types qaxis xt sl. exact (each_alone zone volume points erfc reigh ceigh argsort chunk interpolate coeffs kB k kM c cpus room phi u types qaxis xt sl). Qed.
Print Assumptions C93_each_alone.
(** And if the tool runs with each setting alone it runs with all of them. *)
Theorem C93_all_together : forall Zn (zone : M3 -> list V3 -> list nat -> Zn) volume points erfc reigh ceigh argsort chunk interpolate coeffs kB k kM c cpus room phi u types qaxis xt sl, let tool := check_brille_settings zone volume points erfc reigh ceigh argsort chunk interpolate coeffs kB k kM c cpus room phi u types qaxis xt sl in
  forall junk l a ps, settings a = Some ps -> ps <> [] ->
  (forall p, In p ps -> exists junk' r, tool junk' l (with_settings a [p]) = Ok r) -> exists r, tool junk l a = Ok r.
Proof. intros Zn zone volume points erfc reigh ceigh argsort chunk interpolate coeffs kB k kM c cpus room phi u types qaxis xt sl. exact (all_together zone volume points erfc reigh ceigh argsort chunk interpolate coeffs kB k kM c cpus room phi u types qaxis xt sl). Qed.
Print Assumptions C93_all_together.

(** C93.  The residuals.  The direct modes are those the force constants object gives at the
    sample q-points with the keyword arguments given; for each setting the grid is made from the
    same force constants with the same arguments and interpolated at the same q-points; and the
    residuals are interpolated minus direct, for every frequency and structure factor, and for
    the average spectrum in every bin, in the same bins and with the same broadening. *)
Theorem C93_residuals : forall Zn (zone : M3 -> list V3 -> list nat -> Zn) volume points erfc reigh ceigh argsort chunk interpolate coeffs kB k kM c cpus room phi u types qaxis xt sl, let tool := check_brille_settings zone volume points erfc reigh ceigh argsort chunk interpolate coeffs kB k kM c cpus room phi u types qaxis xt sl in
  forall junk l a r, tool junk l a = Ok r ->
  exists d mass born diel ps bkw qs w ms s y, l = LoadedForce d mass born diel /\ settings a = Some ps /\ asks_threads (bc_threads a) bkw /\
  let n := M_dynmat.n_atoms d in let x := new_fc d mass born diel in
  result erfc reigh ceigh argsort chunk (fun _ _ _ => 0) (with_kwargs (re_qpts r) (bc_kwargs a)) x = Ok (qs, w, ms) /\
  calculate_structure_factor (direct_table n ms) xt sl None (fun i => nth i qs vzero) = Ok s /\
  calculate_1d_average kB k c (re_bins r) s true None None = Ok y /\ as_broadened coeffs a (re_bins r) y (re_avg r) /\
  forall i p, nth_error ps i = Some p -> exists cv g d' x' bs y', nth_error (re_curves r) i = Some cv /\
    from_force_constants zone volume points erfc reigh ceigh argsort chunk (fun _ _ _ => 0) u types x (bc_grid a) (match bc_density a with Some _ => 1000 | None => p end) (match bc_density a with Some _ => Some p | None => None end) None (Some (bc_kwargs a)) = Ok (g, d', x') /\
    cu_n cv = List.length (g_rlu g) /\
    let b := interpolated interpolate kM cpus g (re_qpts r) bkw in
    calculate_structure_factor (brille_table kM n b) xt sl None (fun i => nth i (re_qpts r) vzero) = Ok bs /\
    calculate_1d_average kB k c (re_bins r) bs true None None = Ok y' /\ as_broadened coeffs a (re_bins r) y' (cu_avg cv) /\
    difference (cu_avg cv) (re_avg r) (cu_davg cv) /\
    List.length ms = List.length (re_qpts r) /\
    forall q m md, nth_error ms q = Some md -> (m < 3 * n)%nat ->
      entry (re_freq r) (3 * n) q m = m_freq md m * k /\ entry (cu_dfreq cv) (3 * n) q m = b_freq b q m / kM * k - m_freq md m * k /\
      entry (re_sf r) (3 * n) q m = sf_val s q m * c /\ entry (cu_dsf cv) (3 * n) q m = sf_val bs q m * c - sf_val s q m * c.
Proof. intros Zn zone volume points erfc reigh ceigh argsort chunk interpolate coeffs kB k kM c cpus room phi u types qaxis xt sl. intros tool junk l a r H. destruct (residuals zone volume points erfc reigh ceigh argsort chunk interpolate coeffs kB k kM c cpus room phi u types qaxis xt sl junk l a r H) as (d & mass & born & diel & ps & bkw & qs & w & ms & s & y & E1 & E2 & E3 & E4).
  exists d, mass, born, diel, ps, bkw, qs, w, ms, s, y. exact (conj E1 (conj E2 (conj (kwargs_spec _ _ E3) E4))). Qed.
Print Assumptions C93_residuals.

(** C93.  Where the interpolation is exact there is no residual.  If at every sample q-point the
    interpolated modes are modes of the matrix whose modes were calculated directly, with
    whichever eigenvectors, the residuals of the average spectrum and of every slice are zero in
    every bin; and those of the frequencies too, if both list the modes in ascending order.
    (Those of the structure factors need not be zero, see C92_mode_structure_factors_differ.) *)
Theorem C93_exact : forall Zn (zone : M3 -> list V3 -> list nat -> Zn) volume points erfc reigh ceigh argsort chunk interpolate coeffs kB k kM c cpus room phi u types qaxis xt sl, let tool := check_brille_settings zone volume points erfc reigh ceigh argsort chunk interpolate coeffs kB k kM c cpus room phi u types qaxis xt sl in
  forall junk d mass born diel a r ps bkw qs w ms, tool junk (LoadedForce d mass born diel) a = Ok r ->
  i_insert (bc_kwargs a) = None -> settings a = Some ps -> brille_kwargs (bc_threads a) = Ok bkw ->
  result erfc reigh ceigh argsort chunk (fun _ _ _ => 0) (with_kwargs (re_qpts r) (bc_kwargs a)) (new_fc d mass born diel) = Ok (qs, w, ms) ->
  forall i p cv g d' x', nth_error ps i = Some p -> nth_error (re_curves r) i = Some cv ->
  from_force_constants zone volume points erfc reigh ceigh argsort chunk (fun _ _ _ => 0) u types (new_fc d mass born diel) (bc_grid a) (match bc_density a with Some _ => 1000 | None => p end) (match bc_density a with Some _ => Some p | None => None end) None (Some (bc_kwargs a)) = Ok (g, d', x') ->
  let n := M_dynmat.n_atoms d in let b := interpolated interpolate kM cpus g (re_qpts r) bkw in
  same_modes n mass kM ms b ->
  all_zero (cu_davg cv) /\ Forall all_zero (cu_dslices cv) /\
  ((forall q md, nth_error ms q = Some md -> ascending (3 * n) (m_freq md) /\ ascending (3 * n) (fun m => b_freq b q m / kM)) -> all_zero (Some (cu_dfreq cv))).
Proof. intros Zn zone volume points erfc reigh ceigh argsort chunk interpolate coeffs kB k kM c cpus room phi u types qaxis xt sl. exact (exact_zero zone volume points erfc reigh ceigh argsort chunk interpolate coeffs kB k kM c cpus room phi u types qaxis xt sl). Qed.
Print Assumptions C93_exact.

(** C93.  The slices: at the sample q-points number 1, 2, ..., n, skipping the first, which is
    gamma; there must be more sample q-points than slices.  The sample q-points are the first of
    the quasirandom sequence in the unit cube.  Without broadening, each is the row
    of the S(q,w) map of the direct calculation. *)
Theorem C93_slices : forall Zn (zone : M3 -> list V3 -> list nat -> Zn) volume points erfc reigh ceigh argsort chunk interpolate coeffs kB k kM c cpus room phi u types qaxis xt sl, let tool := check_brille_settings zone volume points erfc reigh ceigh argsort chunk interpolate coeffs kB k kM c cpus room phi u types qaxis xt sl in
  forall junk l a r, tool junk l a = Ok r -> i_insert (bc_kwargs a) = None ->
  List.length (re_qpts r) = bc_npts a /\ (forall i, (i < bc_npts a)%nat -> exists q, nth_error (re_qpts r) i = Some q /\ quasirandom phi i q /\ (i = O -> q = vzero)) /\
  (bc_n a <= 0 \/ bc_n a < Z.of_nat (bc_npts a))%Z /\ List.length (re_slices r) = Z.to_nat (bc_n a) /\
  (bc_eb a = None -> forall i, (i < Z.to_nat (bc_n a))%nat ->
    exists d mass born diel qs w ms s z, l = LoadedForce d mass born diel /\
      result erfc reigh ceigh argsort chunk (fun _ _ _ => 0) (with_kwargs (re_qpts r) (bc_kwargs a)) (new_fc d mass born diel) = Ok (qs, w, ms) /\
      calculate_structure_factor (direct_table (M_dynmat.n_atoms d) ms) xt sl None (fun i => nth i (re_qpts r) vzero) = Ok s /\
      sqw_map kB k c (re_bins r) s true None = Ok z /\ nth_error (re_slices r) i = Some (Some (nth (S i) z []))).
Proof. intros Zn zone volume points erfc reigh ceigh argsort chunk interpolate coeffs kB k kM c cpus room phi u types qaxis xt sl. intros tool junk l a r H K. destruct (slices_at zone volume points erfc reigh ceigh argsort chunk interpolate coeffs kB k kM c cpus room phi u types qaxis xt sl junk l a r H K) as (A & B & C).
  split; [exact A|]. split; [|exact C]. intros i Hi. destruct (sample_spec phi (bc_npts a) i Hi) as (q & E & Q). exists q. rewrite B. split; [exact E|]. split; [exact Q|].
  intros ->. rewrite (sample_first phi _ Hi) in E. congruence. Qed.
Print Assumptions C93_slices.

(** C93.  Other data than force constants are refused. *)
Theorem C93_other_data : forall Zn (zone : M3 -> list V3 -> list nat -> Zn) volume points erfc reigh ceigh argsort chunk interpolate coeffs kB k kM c cpus room phi u types qaxis xt sl, let tool := check_brille_settings zone volume points erfc reigh ceigh argsort chunk interpolate coeffs kB k kM c cpus room phi u types qaxis xt sl in forall junk a, tool junk LoadedOther a = Err NeedForceConstants.
Proof. intros Zn zone volume points erfc reigh ceigh argsort chunk interpolate coeffs kB k kM c cpus room phi u types qaxis xt sl. exact (refuse_other zone volume points erfc reigh ceigh argsort chunk interpolate coeffs kB k kM c cpus room phi u types qaxis xt sl). Qed.
Print Assumptions C93_other_data.

(** C93 is false of force constants that obey the acoustic sum rule: gamma is always among the
    sample q-points, where three frequencies are zero (C90), and their structure factors are not
    numbers; the average over q-points with them.  (In exact arithmetic: a frequency that comes
    out as a tiny number instead of zero hides this.) *)
Theorem C93_gamma_refuted : forall Zn (zone : M3 -> list V3 -> list nat -> Zn) volume points erfc reigh ceigh argsort chunk interpolate coeffs kB k kM c cpus room phi u types qaxis xt sl, let tool := check_brille_settings zone volume points erfc reigh ceigh argsort chunk interpolate coeffs kB k kM c cpus room phi u types qaxis xt sl in
  forall junk d mass born diel a, home_first d -> search_complete d -> det3 (zrows (f_sc d)) <> 0 -> fc_symmetric d -> symmetric3 diel -> csolves ceigh ->
  (forall i, (i < M_dynmat.n_atoms d)%nat -> 0 < mass i) -> (0 < M_dynmat.n_atoms d)%nat -> sum_rule d ->
  given (i_asr (bc_kwargs a)) None = None ->
  match born with
  | Some bo => given (i_dipole (bc_kwargs a)) true = true ->
      balanced (M_dynmat.n_atoms d) (dipole_correction (f_cell d) (f_atom_r d) bo diel (dipole_init erfc (f_cell d) (f_atom_r d) bo diel (given (i_param (bc_kwargs a)) 1)) vzero) /\
      (given (i_splitting (bc_kwargs a)) true = true -> neutral (M_dynmat.n_atoms d) bo)
  | None => True
  end -> i_insert (bc_kwargs a) = None -> (0 < bc_npts a)%nat ->
  forall r, tool junk (LoadedForce d mass born diel) a <> Ok r.
Proof. intros Zn zone volume points erfc reigh ceigh argsort chunk interpolate coeffs kB k kM c cpus room phi u types qaxis xt sl. exact (at_gamma_fails zone volume points erfc reigh ceigh argsort chunk interpolate coeffs kB k kM c cpus room phi u types qaxis xt sl). Qed.
Print Assumptions C93_gamma_refuted.

(** C93 is false of the function's own defaults: a number instead of a list for brille_npts or
    brille_npts_density never works (the default is the number 5000), and without n_threads,
    which has no default, the call raises AttributeError. *)
Theorem C93_defaults_refuted : forall Zn (zone : M3 -> list V3 -> list nat -> Zn) volume points erfc reigh ceigh argsort chunk interpolate coeffs kB k kM c cpus room phi u types qaxis xt sl, let tool := check_brille_settings zone volume points erfc reigh ceigh argsort chunk interpolate coeffs kB k kM c cpus room phi u types qaxis xt sl in
  (forall junk l a r, settings a = None -> tool junk l a <> Ok r) /\
  (forall junk d mass born diel a, bc_threads a = None -> tool junk (LoadedForce d mass born diel) a = Err NoThreadsAttribute).
Proof. intros Zn zone volume points erfc reigh ceigh argsort chunk interpolate coeffs kB k kM c cpus room phi u types qaxis xt sl. exact (conj (refuse_number zone volume points erfc reigh ceigh argsort chunk interpolate coeffs kB k kM c cpus room phi u types qaxis xt sl) (refuse_threads zone volume points erfc reigh ceigh argsort chunk interpolate coeffs kB k kM c cpus room phi u types qaxis xt sl)). Qed.
Print Assumptions C93_defaults_refuted.
(** C93 is false of --energy-broadening with several values, documented as the coefficients of a
    polynomial: the tool never succeeds. *)
Theorem C93_widths_refuted : forall Zn (zone : M3 -> list V3 -> list nat -> Zn) volume points erfc reigh ceigh argsort chunk interpolate coeffs kB k kM c cpus room phi u types qaxis xt sl, let tool := check_brille_settings zone volume points erfc reigh ceigh argsort chunk interpolate coeffs kB k kM c cpus room phi u types qaxis xt sl in
  forall junk l a v v' ws r, bc_eb a = Some (PMany (v :: v' :: ws)) -> tool junk l a <> Ok r.
Proof. intros Zn zone volume points erfc reigh ceigh argsort chunk interpolate coeffs kB k kM c cpus room phi u types qaxis xt sl. exact (refuse_widths zone volume points erfc reigh ceigh argsort chunk interpolate coeffs kB k kM c cpus room phi u types qaxis xt sl). Qed.
Print Assumptions C93_widths_refuted.

(** Non-vacuity: a run with two grids and a slice, for any crystal, which meets the hypotheses
    above; the modes are all of frequency 1. *)
Example C93_runs : forall erfc reigh argsort chunk coeffs kB c cpus room phi qaxis sl junk d mass diel, (0 < M_dynmat.n_atoms d)%nat ->
  exists r, check_brille_settings (fun _ _ _ => tt) (fun _ => 1) (fun _ _ _ => Ok [vzero]) erfc reigh flat argsort chunk flat_interpolation coeffs kB 1 1 c cpus room phi 1 [] qaxis some_xtal sl
    junk (LoadedForce d mass None diel) two_grids = Ok r /\ List.length (re_curves r) = 2%nat /\ List.length (re_slices r) = 1%nat.
Proof. exact tool_runs. Qed.
Example C93_settings : settings two_grids = Some [100; 200] /\ i_insert (bc_kwargs two_grids) = None /\ from_command_line two_grids.
Proof. split; [reflexivity|]. split; [reflexivity|]. repeat split; discriminate. Qed.
(** For atoms of mass 1 the same run meets the hypothesis of C93_exact. *)
Example C93_exact_meets : forall erfc reigh argsort chunk junk o d born diel qs w ms g qpts cpus kw, p_asr o = None ->
  result erfc reigh flat argsort chunk junk o (new_fc d (fun _ => 1) born diel) = Ok (qs, w, ms) ->
  let b := interpolated flat_interpolation 1 cpus g qpts kw in
  same_modes (M_dynmat.n_atoms d) (fun _ => 1) 1 ms b /\ forall q md, nth_error ms q = Some md ->
    ascending (3 * M_dynmat.n_atoms d) (m_freq md) /\ ascending (3 * M_dynmat.n_atoms d) (fun m => b_freq b q m / 1).
Proof. exact flat_same. Qed.
