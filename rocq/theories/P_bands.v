(** Property C84: the band path and euphonic-dispersion. *)
From Coq Require Import String Sorted Permutation.
From Verif Require L_asr6 L_bandmain.
From Verif Require Import Base Cpx Vec3 M_grid M_cell M_qpts M_dynmat M_dipole M_struct M_asr M_calc M_path M_dos M_reorder M_bins M_bands
  S_qpts S_path S_dynmat S_dipole S_asr S_calc S_bins S_reorder S_intmap S_bands S_unique L_dynmat2 L_nac L_calc4 L_reorder2 L_bands L_bands2 L_bands3 L_bands4.
Open Scope R_scope.

(** C84.  From force constants the bands are drawn along the path seekpath gives for the crystal
    and the requested spacing, with every interior gamma twice: x is the distance along it, the
    values at each point are the frequencies of the modes at that q-point (at gamma, those of the
    limit along the path), the labels are those of the path, and the regions are its parts
    between breaks.  Without reordering and without acoustic sum rule. *)
Theorem C84_bands_partial : forall seekpath erfc reigh ceigh argsort chunk d mass born diel,
  home_first d -> search_complete d -> det3 (zrows (f_sc d)) <> 0 -> fc_symmetric d -> symmetric3 diel -> csolves ceigh ->
  exists L, shares_images d L /\
  forall junk lookup found tol k kx a u types s segs, da_reorder a = false -> da_asr a = None -> labelled_path seekpath ->
  dispersion_tool seekpath erfc reigh ceigh argsort chunk junk lookup found tol k kx a (DForce u types (new_fc d mass born diel)) = Ok (s, segs) ->
  exists l, lookup (da_unit a) = Some l /\
  let b := seekpath (cell_in u (f_cell d)) (f_atom_r d) types (da_spacing a / l) in
  let qpts := doubled (bp_k b) (bp_labels b) in
  along_path (reciprocal_cell (f_cell d)) kx qpts (xs s) /\ length (ys s) = length qpts /\
  (forall i q, nth_error qpts i = Some q -> exists md, nth_error (ys s) i = Some (map (fun m => m_freq md m * k) (seq 0 (3 * M_dynmat.n_atoms d))) /\
     modes_of (3 * M_dynmat.n_atoms d) mass (whole_matrix erfc d born diel true (da_param a) L q (if is_gamma q then Some (approach qpts i) else None)) md) /\
  ((exists t, (t < length (bp_labels b))%nat /\ nth t (bp_labels b) ""%string <> ""%string) ->
   exists ts, xticks s = Some ts /\ forall z name, In (z, name) ts <-> exists t, (t < length (bp_labels b))%nat /\ nth t (bp_labels b) ""%string <> ""%string /\
     name = written (nth t (bp_labels b) ""%string) /\ (z = Z.of_nat (shifted (bp_labels b) t) \/ (interior_gamma_label (bp_labels b) t = true /\ z = Z.of_nat (S (shifted (bp_labels b) t))))) /\
  exists idx, StronglySorted lt idx /\ (forall i, In i idx <-> exists t, starts_region (bp_labels b) t /\ i = shifted (bp_labels b) t) /\ cut_at s idx segs.
Proof. exact bands_drawn. Qed.
Print Assumptions C84_bands_partial.

(** C84.  It does draw them, whenever the unit of the spacing is known and the eigensolver
    converges. *)
Theorem C84_runs : forall seekpath erfc reigh ceigh argsort chunk junk lookup found tol k kx a u types x l,
  labelled_path seekpath -> (forall n A, ceigh n A <> None) -> da_reorder a = false -> da_asr a = None -> lookup (da_unit a) = Some l ->
  exists s segs, dispersion_tool seekpath erfc reigh ceigh argsort chunk junk lookup found tol k kx a (DForce u types x) = Ok (s, segs).
Proof. exact tool_runs. Qed.
Print Assumptions C84_runs.

(** C84.  At an interior gamma the first copy is approached from the point before, the second
    from the point after. *)
Theorem C84_sides : forall b t, length (bp_k b) = length (bp_labels b) -> lone_gamma b t ->
  let qpts := doubled (bp_k b) (bp_labels b) in let i := shifted (bp_labels b) t in
  (0 < i)%nat /\ nth_error qpts i = Some vzero /\ nth_error qpts (S i) = Some vzero /\ nth_error qpts (S (S i)) = Some (nth (S t) (bp_k b) vzero) /\
  nth_error qpts (i - 1) = Some (nth (t - 1) (bp_k b) vzero) /\
  approach qpts i = vsub vzero (nth (t - 1) (bp_k b) vzero) /\ approach qpts (S i) = nth (S t) (bp_k b) vzero /\
  S (S i) = shifted (bp_labels b) (S t).
Proof. exact sides. Qed.
Print Assumptions C84_sides.

(** C84.  So the sum of the squared frequencies at the second copy exceeds that at the first
    by the difference of the non-analytic parts for these two directions - even where the point
    after gamma belongs to another region. *)
Theorem C84_copies : forall seekpath erfc reigh ceigh argsort chunk d mass born diel, labelled_path seekpath ->
  home_first d -> search_complete d -> det3 (zrows (f_sc d)) <> 0 -> fc_symmetric d -> symmetric3 diel -> csolves ceigh -> (forall i, (i < M_dynmat.n_atoms d)%nat -> 0 < mass i) ->
  forall junk lookup found tol k kx a u types s segs t, 0 < k -> da_reorder a = false -> da_asr a = None ->
  dispersion_tool seekpath erfc reigh ceigh argsort chunk junk lookup found tol k kx a (DForce u types (new_fc d mass (Some born) diel)) = Ok (s, segs) ->
  (forall l, lookup (da_unit a) = Some l -> lone_gamma (seekpath (cell_in u (f_cell d)) (f_atom_r d) types (da_spacing a / l)) t) ->
  exists l, lookup (da_unit a) = Some l /\
  let b := seekpath (cell_in u (f_cell d)) (f_atom_r d) types (da_spacing a / l) in let i := shifted (bp_labels b) t in
  exists r r', nth_error (ys s) i = Some r /\ nth_error (ys s) (S i) = Some r' /\
  let part v := sumn (3 * M_dynmat.n_atoms d) (fun c => re (gamma_correction (f_cell d) born diel v c c) / mass (c / 3)%nat) in
  squares r' - squares r = k * k * (part (nth (S t) (bp_k b) vzero) - part (vsub vzero (nth (t - 1) (bp_k b) vzero))).
Proof. intros seekpath erfc reigh ceigh argsort chunk d mass born diel Hp. exact (copies_differ seekpath erfc reigh ceigh argsort chunk Hp d mass born diel). Qed.
Print Assumptions C84_copies.

(** C84 refuted: where the path breaks off at gamma, the last point of the region is not the
    limit along the region.  One ion in a cubic box, charged along x; the path goes from X
    along x to gamma, breaks, and goes on from Y.  The first region has four points, the last two
    of them gamma at the same x value, but the frequencies there differ: the last one is
    computed for the direction of Y. *)
Theorem C84_break_refuted : exists b ion, labelled_path (fun _ _ _ _ => b) /\ lone_gamma b 2 /\ starts_region (bp_labels b) 3 /\
  nth 1 (bp_k b) vzero = (1/4, 0, 0) /\ nth 3 (bp_k b) vzero = (0, 1/2, 0) /\
  forall erfc reigh ceigh argsort chunk junk lookup found tol k kx a u types l, csolves ceigh -> (forall n A, ceigh n A <> None) -> 0 < k ->
  da_reorder a = false -> da_asr a = None -> lookup (da_unit a) = Some l ->
  exists s g segs r r', dispersion_tool (fun _ _ _ _ => b) erfc reigh ceigh argsort chunk junk lookup found tol k kx a (DForce u types ion) = Ok (s, g :: segs) /\
  length (ys g) = 4%nat /\ nth 2 (xs g) 0 = nth 3 (xs g) 0 /\ nth_error (ys g) 2 = Some r /\ nth_error (ys g) 3 = Some r' /\ squares r - squares r' = k * k * (4 * PI).
Proof.
  exists corner, (new_fc (held 1) (fun _ => 1) (Some ion_charge) unit_cell3). split; [exact corner_labelled|]. split; [exact corner_lone|]. split; [apply corner_starts; reflexivity|].
  split; [reflexivity|]. split; [reflexivity|]. exact break_direction.
Qed.
Print Assumptions C84_break_refuted.

(** C84 refuted: the spacing asked for is not the spacing used, if the crystal is displayed in
    another unit of length: in a unit in which the bohr is v, the path is the one for a
    spacing v/u times that in a unit in which it is u. *)
Theorem C84_spacing_refuted : forall seekpath erfc reigh ceigh argsort chunk junk lookup found tol k kx a u v types x, path_scales seekpath -> 0 < u -> 0 < v ->
  dispersion_tool seekpath erfc reigh ceigh argsort chunk junk lookup found tol k kx a (DForce v types x) =
  dispersion_tool seekpath erfc reigh ceigh argsort chunk junk lookup found tol k kx
    (mkDA (da_reorder a) (da_unit a) (da_spacing a * (v / u)) (da_asr a) (da_param a) (da_btol a)) (DForce u types x).
Proof. exact spacing_units. Qed.
Print Assumptions C84_spacing_refuted.
Example C84_spacing_matters : path_scales coarse /\ length (bp_k (coarse (cell_in 1 unit_cell3) [] [] 1)) = 3%nat /\ length (bp_k (coarse (cell_in 2 unit_cell3) [] [] 1)) = 2%nat.
Proof. split; [exact coarse_scales|exact coarse_differs]. Qed.

(** C84.  Modes or frequencies from a file are drawn as they are, divided into regions where a
    step is more than --btol times the median step. *)
Theorem C84_loaded : forall seekpath erfc reigh ceigh argsort chunk junk lookup found tol k kx a cell qpts d t, da_reorder a = false ->
  ((exists e, d = DModes cell qpts e /\ t = et e) \/ d = DFreqs cell qpts t) -> 0 <= kx -> (2 <= length qpts)%nat -> length qpts = nq t ->
  exists s segs idx m, dispersion_tool seekpath erfc reigh ceigh argsort chunk junk lookup found tol k kx a d = Ok (s, segs) /\
  along_path (reciprocal_cell cell) kx qpts (xs s) /\ length (ys s) = length qpts /\
  (forall q, (q < nq t)%nat -> nth_error (ys s) q = Some (map (fun m => freq t q m * k) (seq 0 (nm t)))) /\ xticks s = Some (found qpts) /\
  is_median m (gaps (xs s)) /\ StronglySorted lt idx /\
  (forall b, In b idx <-> (0 < b < length (xs s))%nat /\ big_gap (da_btol a) m (nth b (xs s) 0 - nth (b - 1) (xs s) 0)) /\ cut_at s idx segs.
Proof. exact loaded_drawn. Qed.
Print Assumptions C84_loaded.

(** C84.  With --reorder the values at a point are the same, in another order - as long as the
    matching never runs out of overlaps or the modes change little from point to point (C28). *)
Theorem C84_reorder_partial : forall seekpath erfc reigh ceigh argsort chunk junk lookup found tol k kx a cell qpts e, da_reorder a = true -> 0 <= kx ->
  (2 <= length qpts)%nat -> length qpts = nq (et e) -> nm (et e) = (3 * n_atoms e)%nat ->
  ((forall t, (1 <= t < nq (et e))%nat -> nth (t - 1) (calc_reorder tol true qpts) false = true -> always_overlap (n_atoms e) (evec e (t - 1)%nat) (evec e t)) \/
  (forall t, (1 <= t < nq (et e))%nat -> nth (t - 1) (calc_reorder tol true qpts) false = true ->
     orthonormal (n_atoms e) (evec e (t - 1)%nat) /\ orthonormal (n_atoms e) (evec e t) /\ partnered (n_atoms e) (evec e (t - 1)%nat) (evec e t))) ->
  exists s segs idx m, dispersion_tool seekpath erfc reigh ceigh argsort chunk junk lookup found tol k kx a (DModes cell qpts e) = Ok (s, segs) /\
  along_path (reciprocal_cell cell) kx qpts (xs s) /\ length (ys s) = length qpts /\
  (forall q, (q < nq (et e))%nat -> exists row, nth_error (ys s) q = Some row /\ Permutation row (map (fun m => freq (et e) q m * k) (seq 0 (nm (et e))))) /\ xticks s = Some (found qpts) /\
  is_median m (gaps (xs s)) /\ StronglySorted lt idx /\
  (forall b, In b idx <-> (0 < b < length (xs s))%nat /\ big_gap (da_btol a) m (nth b (xs s) 0 - nth (b - 1) (xs s) 0)) /\ cut_at s idx segs.
Proof. exact reorder_drawn. Qed.
Print Assumptions C84_reorder_partial.
Example C84_reorder_meets : let qpts := [(0, 0, 0); (1/4, 0, 0)] : list V3 in length qpts = nq (et swap_e) /\ nm (et swap_e) = (3 * n_atoms swap_e)%nat /\
  forall t, (1 <= t < nq (et swap_e))%nat -> nth (t - 1) (calc_reorder 0 true qpts) false = true ->
    orthonormal (n_atoms swap_e) (evec swap_e (t - 1)%nat) /\ orthonormal (n_atoms swap_e) (evec swap_e t) /\ partnered (n_atoms swap_e) (evec swap_e (t - 1)%nat) (evec swap_e t).
Proof.
  split; [reflexivity|]. split; [reflexivity|]. intros t Ht _. cbn [swap_e et nq] in Ht. assert (t = 1%nat) as -> by lia.
  destruct swap_partnered as (H1 & H2 & H3 & _). split; [exact H1|]. split; [exact H2|exact H3].
Qed.

(** C84.  Reordering frequencies without eigenvectors, and a spacing in an unknown unit, are
    refused. *)
Theorem C84_refused : forall seekpath erfc reigh ceigh argsort chunk junk lookup found tol k kx a,
  (forall cell qpts t, da_reorder a = true -> dispersion_tool seekpath erfc reigh ceigh argsort chunk junk lookup found tol k kx a (DFreqs cell qpts t) = Err NoEigenvectors) /\
  (forall u types x, lookup (da_unit a) = None -> dispersion_tool seekpath erfc reigh ceigh argsort chunk junk lookup found tol k kx a (DForce u types x) = Err BadLengthUnit).
Proof. exact refusals. Qed.
Print Assumptions C84_refused.

(** C84.  With any acoustic sum rule, without reordering: the frequencies drawn at a q-point are
    those the force constants object calculates there with that sum rule. *)
Theorem C84_any_asr : forall seekpath erfc reigh ceigh argsort chunk junk lookup found tol k kx a u types x l qpts w ms,
  da_reorder a = false -> labelled_path seekpath -> lookup (da_unit a) = Some l ->
  let n := M_dynmat.n_atoms (o_d x) in
  let b := seekpath (cell_in u (f_cell (o_d x))) (f_atom_r (o_d x)) types (da_spacing a / l) in
  result erfc reigh ceigh argsort chunk junk (mkOpts (doubled (bp_k b) (bp_labels b)) None (da_asr a) true (da_param a) true false false false) x = Ok (qpts, w, ms) ->
  exists s segs, dispersion_tool seekpath erfc reigh ceigh argsort chunk junk lookup found tol k kx a (DForce u types x) = Ok (s, segs) /\ length (ys s) = length qpts /\
  (forall i md, nth_error ms i = Some md -> nth_error (ys s) i = Some (map (fun m => m_freq md m * k) (seq 0 (3 * n)))) /\
  along_path (reciprocal_cell (f_cell (o_d x))) kx qpts (xs s) /\
  exists idx, StronglySorted lt idx /\ (forall i, In i idx <-> exists t, starts_region (bp_labels b) t /\ i = shifted (bp_labels b) t) /\ cut_at s idx segs.
Proof. exact bands_result. Qed.
Print Assumptions C84_any_asr.

(** C84.  From force constants with --reorder, with or without acoustic sum rule: at every
    q-point the frequencies of the modes calculated there are drawn in some order, and one
    branch follows, from a q-point to the next of the same line, modes whose eigenvectors
    overlap by more than a half.  Partial: for modes each of which has such a partner at the
    next point. *)
Theorem C84_reorder_force_partial : forall seekpath erfc reigh ceigh argsort chunk junk lookup found tol k kx a u types x l qpts w ms,
  da_reorder a = true -> labelled_path seekpath -> csolves ceigh -> lookup (da_unit a) = Some l ->
  let n := M_dynmat.n_atoms (o_d x) in
  let b := seekpath (cell_in u (f_cell (o_d x))) (f_atom_r (o_d x)) types (da_spacing a / l) in
  result erfc reigh ceigh argsort chunk junk (mkOpts (doubled (bp_k b) (bp_labels b)) None (da_asr a) true (da_param a) true false false false) x = Ok (qpts, w, ms) ->
  (forall t md md', (1 <= t)%nat -> nth_error ms (t - 1) = Some md -> nth_error ms t = Some md' -> nth (t - 1) (calc_reorder tol true qpts) false = true -> partnered n (by_atom md) (by_atom md')) ->
  exists s segs perm, dispersion_tool seekpath erfc reigh ceigh argsort chunk junk lookup found tol k kx a (DForce u types x) = Ok (s, segs) /\ length (ys s) = length qpts /\
  (forall i md, nth_error ms i = Some md -> Permutation (perm i) (seq 0 (3 * n)) /\ nth_error (ys s) i = Some (map (fun m => m_freq md m * k) (perm i))) /\
  (forall t md md', (1 <= t)%nat -> nth_error ms (t - 1) = Some md -> nth_error ms t = Some md' -> nth (t - 1) (calc_reorder tol true qpts) false = true ->
     forall j, (j < 3 * n)%nat -> 1 / 2 < Cnorm2 (inner n (by_atom md (nth j (perm (t - 1)%nat) 0%nat)) (by_atom md' (nth j (perm t) 0%nat)))) /\
  along_path (reciprocal_cell (f_cell (o_d x))) kx qpts (xs s) /\
  exists idx, StronglySorted lt idx /\ (forall i, In i idx <-> exists t, starts_region (bp_labels b) t /\ i = shifted (bp_labels b) t) /\ cut_at s idx segs.
Proof. exact reorder_force. Qed.
Print Assumptions C84_reorder_force_partial.

(** Non-vacuity: the ion above meets the hypotheses of C84_bands_partial; the path has labels. *)
Example C84_meets : let d := held 1 in home_first d /\ search_complete d /\ det3 (zrows (f_sc d)) <> 0 /\ fc_symmetric d /\ symmetric3 unit_cell3 /\ csolves cdiag /\
  labelled_path (fun _ _ _ _ => corner) /\ nth 0 (bp_labels corner) ""%string <> ""%string.
Proof.
  split; [apply held_home|]. split; [exact (orth_complete _ (held_home 1) (held_orth 1) (held_inside 1))|]. split; [apply held_det|]. split; [apply held_sym|].
  split; [reflexivity|]. split; [exact cdiag_solves|]. split; [exact corner_labelled|discriminate].
Qed.
(** With a solver for diagonal matrices all consecutive modes are partners. *)
Example C84_reorder_force_meets : csolves cdiag /\ forall erfc reigh argsort chunk junk o x qpts w ms, result erfc reigh cdiag argsort chunk junk o x = Ok (qpts, w, ms) ->
  forall t md md', nth_error ms (t - 1) = Some md -> nth_error ms t = Some md' -> partnered (M_dynmat.n_atoms (o_d x)) (by_atom md) (by_atom md').
Proof. exact (conj cdiag_solves cdiag_result). Qed.

(** C84.  With --asr=realspace the tool does exactly what it does without --asr for a new object
    holding the corrected force constants (C15), reordering and errors included. *)
Theorem C84_realspace : forall seekpath erfc reigh argsort chunk lookup found tol k kx a u types d mass born diel ceigh junk junk' warned fc', da_asr a = Some Realspace ->
  enforce_realspace_asr reigh argsort chunk d = Ok (warned, fc') ->
  dispersion_tool seekpath erfc reigh ceigh argsort chunk junk lookup found tol k kx a (DForce u types (new_fc d mass born diel))
  = dispersion_tool seekpath erfc reigh ceigh argsort chunk junk' lookup found tol k kx (mkDA (da_reorder a) (da_unit a) (da_spacing a) None (da_param a) (da_btol a))
      (DForce u types (new_fc (with_fc d fc') mass born diel)).
Proof. exact L_bandmain.bands_realspace. Qed.
Print Assumptions C84_realspace.
Example C84_realspace_meets : forall k, exists fc', enforce_realspace_asr (L_asr6.tabulated (L_asr6.spring k) (L_asr6.spring_ev k) L_asr6.even_v) L_asr6.isort 100 (L_asr6.sprung k) = Ok (true, fc').
Proof. intros. apply L_asr6.sprung_runs. Qed.

(** C84.  What was calculated with the object before, and uninitialised memory, have no effect on
    the tool; without --reorder and --asr=reciprocal the bands do not depend on which eigenvectors
    the eigensolver chooses. *)
Theorem C84_solvers : forall seekpath erfc reigh argsort chunk lookup found tol k kx a u types d mass born diel,
  let tool ceigh junk x := dispersion_tool seekpath erfc reigh ceigh argsort chunk junk lookup found tol k kx a (DForce u types x) in
  (forall ceigh junk junk' cs, tool ceigh junk (after erfc reigh ceigh argsort chunk (new_fc d mass born diel) cs) = tool ceigh junk' (new_fc d mass born diel)) /\
  forall ceigh ceigh' junk junk' r r', csolves ceigh -> csolves ceigh' -> csorts ceigh -> csorts ceigh' -> da_asr a <> Some Reciprocal -> da_reorder a = false ->
    tool ceigh junk (new_fc d mass born diel) = Ok r -> tool ceigh' junk' (new_fc d mass born diel) = Ok r' -> r = r'.
Proof. intros. split; [exact (L_bandmain.band_history seekpath erfc reigh argsort chunk lookup found tol k kx a u types d mass born diel)|exact (L_bandmain.bands_solvers seekpath erfc reigh argsort chunk lookup found tol k kx a u types d mass born diel)]. Qed.
Print Assumptions C84_solvers.
