(** C96: euphonic-dos from force constants, from the crystal to the curve. *)
From Coq Require Import String.
From Verif Require L_unique4 L_asr6 L_powasr.
From Verif Require Import Base Cpx Vec3 M_path M_broad M_dos M_bins M_coll M_fixed M_clidos M_grid M_cell M_qpts M_dynmat M_dipole M_struct M_asr M_calc M_doscalc
  S_coll S_dos S_fixed S_clidos S_qpts S_dynmat S_dipole S_asr S_calc S_unique S_doscalc L_nac L_chain L_calc4 L_doscalc L_doscalc2.
Open Scope R_scope.

(** C96.  There is a way L of sharing each force constant among near images, as in C65, such that
    every successful run without --asr, --pdos, --weighting and broadening, after whatever other
    calculations with the same object, plots the histogram of the crystal's own frequencies: on
    the Monkhorst-Pack grid given, or found from the spacing, in each bin the curve times the
    width is 3/(3n) times the mean over all points of the grid of the number of modes of the
    dynamical matrix (dipole part and, at gamma, direction of approach included) in that bin.
    With the default range the area is 3 (times --scale), if some frequency is positive.
    Partial: crystals for which the image search is wide enough, see C10; exact arithmetic. *)
Theorem C96_counts_partial : forall erfc reigh argsort chunk coeffs ceigh d mass born diel,
  home_first d -> search_complete d -> det3 (zrows (f_sc d)) <> 0 -> fc_symmetric d -> symmetric3 diel -> csolves ceigh ->
  exists L, shares_images d L /\
  forall cs junk k wmin room src a param bins ls, 0 < k -> (1 <= a_ebins a)%nat ->
  a_weighting a = "dos"%string -> a_pdos a = None -> a_adaptive a = false -> a_inst a = None -> a_eb a = None ->
  dos_from_fc erfc reigh ceigh argsort chunk coeffs junk k wmin room src a None param (after erfc reigh ceigh argsort chunk (new_fc d mass born diel) cs) = Ok (bins, ls) ->
  exists g0 g1 g2, (0 < g0)%nat /\ (0 < g1)%nat /\ (0 < g2)%nat /\ grid_spec (f_cell d) (a_grid a) (a_spacing a) = Some (Z.of_nat g0, Z.of_nat g1, Z.of_nat g2) /\
  let n := M_dynmat.n_atoms d in let N := (g0 * g1 * g2)%nat in let Q := map (mp_point g0 g1 g2) (seq 0 N) in
  exists md y, (forall j, (j < N)%nat -> let q := mp_point g0 g1 g2 j in
      modes_of (3 * n) mass (whole_matrix erfc d born diel true param L (if is_gamma q then vzero else q) (if is_gamma q then Some (approach Q j) else None)) (md j)) /\
    ls = [Some y] /\ length bins = (a_ebins a + 1)%nat /\ length y = a_ebins a /\
    (forall i, (i < a_ebins a)%nat -> nth i bins 0 < nth (S i) bins 0 /\
      nth i y 0 * (nth (S i) bins 0 - nth i bins 0)
      = factor (a_scale a) * (3 / INR (3 * n) * (Sum (seq 0 N) (fun j => count_in (3 * n) k (nth i bins 0) (nth (S i) bins 0) (md j)) / INR N))) /\
    (a_emin a = None -> a_emax a = None -> 0 < room -> (exists j m, (j < N)%nat /\ (m < 3 * n)%nat /\ 0 < m_freq (md j) m) ->
      sumn (a_ebins a) (fun i => nth i y 0 * (nth (S i) bins 0 - nth i bins 0)) = 3 * factor (a_scale a)).
Proof. exact counts. Qed.
Print Assumptions C96_counts_partial.
(** A chain of atoms held and joined by springs, on any grid. *)
Example C96_counts_meets : forall erfc reigh argsort chunk coeffs junk wmin room src param k0 k1 g0 g1 g2,
  Rabs k1 < k0 -> (0 < g0)%nat -> (0 < g1)%nat -> (0 < g2)%nat ->
  home_first (chain k0 k1) /\ search_complete (chain k0 k1) /\ det3 (zrows (f_sc (chain k0 k1))) <> 0 /\ fc_symmetric (chain k0 k1) /\ symmetric3 unit_cell3 /\ csolves cdiag /\
  forall ad, exists r, dos_from_fc erfc reigh cdiag argsort chunk coeffs junk 1 wmin room src (plain_args (Z.of_nat g0, Z.of_nat g1, Z.of_nat g2) ad) None param
    (new_fc (chain k0 k1) one_mass None unit_cell3) = Ok r.
Proof.
  intros. split; [reflexivity|]. split; [apply chain_complete|]. split; [cbn; lra|]. split; [apply chain_sym|]. split; [reflexivity|].
  split; [exact cdiag_solves|]. intros ad. apply chain_dos; try assumption. apply diag_good. assumption.
Qed.

(** C96.  Without --adaptive, the curves (whatever the weighting, --pdos, broadening and sum rule
    short of --asr=reciprocal) do not depend on which eigenvectors the eigensolver chooses, on
    earlier calculations or on uninitialised memory. *)
Theorem C96_solvers : forall erfc reigh argsort chunk coeffs ceigh ceigh' d mass born diel cs cs' junk junk' k wmin room src a asr param r r',
  csolves ceigh -> csolves ceigh' -> csorts ceigh -> csorts ceigh' -> asr <> Some Reciprocal -> a_adaptive a = false ->
  dos_from_fc erfc reigh ceigh argsort chunk coeffs junk k wmin room src a asr param (after erfc reigh ceigh argsort chunk (new_fc d mass born diel) cs) = Ok r ->
  dos_from_fc erfc reigh ceigh' argsort chunk coeffs junk' k wmin room src a asr param (after erfc reigh ceigh' argsort chunk (new_fc d mass born diel) cs') = Ok r' -> r = r'.
Proof. exact solvers_same. Qed.
Print Assumptions C96_solvers.
(** Solvers that choose different eigenvectors. *)
Example C96_solvers_meets : forall erfc reigh argsort chunk coeffs junk wmin room src param,
  csolves (L_unique4.with_vectors L_unique4.axes) /\ csolves (L_unique4.with_vectors L_unique4.turned) /\
  csorts (L_unique4.with_vectors L_unique4.axes) /\ csorts (L_unique4.with_vectors L_unique4.turned) /\
  forall v, exists r, dos_from_fc erfc reigh (L_unique4.with_vectors v) argsort chunk coeffs junk 1 wmin room src (plain_args (2, 3, 1)%Z false) None param
    (new_fc (chain 1 0) one_mass None unit_cell3) = Ok r.
Proof.
  intros. split; [apply L_unique4.with_vectors_solves, L_unique4.axes_orth|]. split; [apply L_unique4.with_vectors_solves, L_unique4.turned_orth|].
  split; [apply L_unique4.with_vectors_sorts|]. split; [apply L_unique4.with_vectors_sorts|].
  intros v. refine (chain_dos erfc reigh argsort chunk coeffs (L_unique4.with_vectors v) 1 0 _ junk wmin room src 2 3 1 false param _ _ _); [apply vectors_good|lia..].
Qed.

(** C96.  Earlier calculations with the same object and uninitialised memory have no effect on
    the tool, its errors included, for any options. *)
Theorem C96_history : forall erfc reigh ceigh argsort chunk coeffs d mass born diel cs junk junk' k wmin room src a asr param,
  dos_from_fc erfc reigh ceigh argsort chunk coeffs junk k wmin room src a asr param (after erfc reigh ceigh argsort chunk (new_fc d mass born diel) cs)
  = dos_from_fc erfc reigh ceigh argsort chunk coeffs junk' k wmin room src a asr param (new_fc d mass born diel).
Proof. exact run_history. Qed.
Print Assumptions C96_history.

(** C96 with --adaptive (reference method, Gaussian shape): each mode of the grid's calculation is
    drawn as a Gaussian whose width comes from that mode's own gradient in that calculation and
    the spacing of that grid, 2 |gradient| / cbrt (N V), with the scale and instrument widths of
    C79.  (The gradients themselves are C11.) *)
Theorem C96_adaptive : forall erfc reigh argsort chunk coeffs ceigh d mass born diel cs junk k wmin room src a asr param s bins ls, 0 < k -> 0 < wmin -> (1 <= a_ebins a)%nat ->
  a_weighting a = "dos"%string -> a_pdos a = None -> a_adaptive a = true -> a_method a = Reference -> a_shape a = "gauss"%string -> a_eb a = None ->
  (a_ascale a = None /\ s = 1 \/ a_ascale a = Some s /\ s <> 0) ->
  let x := after erfc reigh ceigh argsort chunk (new_fc d mass born diel) cs in
  dos_from_fc erfc reigh ceigh argsort chunk coeffs junk k wmin room src a asr param x = Ok (bins, ls) ->
  exists g0 g1 g2, (0 < g0)%nat /\ (0 < g1)%nat /\ (0 < g2)%nat /\ grid_spec (f_cell d) (a_grid a) (a_spacing a) = Some (Z.of_nat g0, Z.of_nat g1, Z.of_nat g2) /\
  let n := M_dynmat.n_atoms d in let N := (g0 * g1 * g2)%nat in let Q := map (mp_point g0 g1 g2) (seq 0 N) in
  exists w ms y, result erfc reigh ceigh argsort chunk junk (mkOpts Q None asr true param true false true true) x = Ok (Q, w, ms) /\ length ms = N /\
    ls = [Some y] /\ length bins = (a_ebins a + 1)%nat /\ length y = a_ebins a /\
    forall i, (i < a_ebins a)%nat -> nth i y 0 = factor (a_scale a) * (3 / INR (3 * n) * (Sum (seq 0 N) (fun j => Sum (seq 0 (3 * n)) (fun m =>
      match nth_error ms j with
      | Some md => match m_grad md with
                   | Some v => gaussian (drawn_sd s (a_inst a) (k * wmin) (k * (2 / cbrt (INR N * cell_vectors_to_volume (f_cell d)) * norm (v m 0%nat, v m 1%nat, v m 2%nat))) (k * m_freq md m)) (middle bins i - k * m_freq md m)
                   | None => 0
                   end
      | None => 0
      end)) / INR N)).
Proof. exact adaptive_run. Qed.
Print Assumptions C96_adaptive.
(** [C96_counts_meets] with [ad] true is such a run. *)
Example C96_adaptive_meets : forall g, let a := plain_args g true in
  a_weighting a = "dos"%string /\ a_pdos a = None /\ a_adaptive a = true /\ a_method a = Reference /\ a_shape a = "gauss"%string /\ a_eb a = None /\ a_ascale a = None.
Proof. intros. repeat split. Qed.

(** C96 with --asr=realspace.  Whatever the other options, the tool then does exactly what it does
    without --asr for a new object holding the corrected force constants: same curves, same
    errors.  (The correction itself is C15.) *)
Theorem C96_realspace : forall erfc reigh ceigh argsort chunk d mass born diel warned fc', enforce_realspace_asr reigh argsort chunk d = Ok (warned, fc') ->
  forall coeffs cs cs' junk junk' k wmin room src a param,
  dos_from_fc erfc reigh ceigh argsort chunk coeffs junk k wmin room src a (Some Realspace) param (after erfc reigh ceigh argsort chunk (new_fc d mass born diel) cs)
  = dos_from_fc erfc reigh ceigh argsort chunk coeffs junk' k wmin room src a None param (after erfc reigh ceigh argsort chunk (new_fc (with_fc d fc') mass born diel) cs').
Proof. exact L_powasr.dos_realspace. Qed.
Print Assumptions C96_realspace.
Example C96_realspace_meets : forall k, exists fc', enforce_realspace_asr (L_asr6.tabulated (L_asr6.spring k) (L_asr6.spring_ev k) L_asr6.even_v) L_asr6.isort 100 (L_asr6.sprung k) = Ok (true, fc').
Proof. intros. apply L_asr6.sprung_runs. Qed.
