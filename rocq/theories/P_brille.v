(** Property C82: interpolation with Brille. *)
From Coq Require Import String.
From Verif Require Import Base Cpx Vec3 M_grid M_qpts M_dynmat M_dipole M_struct M_asr M_calc M_brille S_qpts S_dynmat S_dipole S_asr S_calc S_brille L_nac L_brille L_brille2.
Open Scope R_scope.

(** C82.  At a q-point of its grid the interpolator returns the frequencies (times k, one
    hartree in meV) and eigenvectors that the force constants object gives there with the
    keyword arguments passed on, whatever the other q-points asked for. *)
Theorem C82_grid_points : forall Z (zone : M3 -> list V3 -> list nat -> Z) volume points erfc reigh ceigh argsort chunk interpolate k cpus junk u types x gt n dn kw ikw g d' x',
  exact_at_points interpolate -> from_force_constants zone volume points erfc reigh ceigh argsort chunk junk u types x gt n dn kw ikw = Ok (g, d', x') -> NoDup (g_rlu g) ->
  exists w ms, result erfc reigh ceigh argsort chunk junk (with_kwargs (g_rlu g) (forced (given ikw no_kwargs))) x = Ok (g_rlu g, w, ms) /\ List.length ms = List.length (g_rlu g) /\
  forall qpts ik i j q, nth_error qpts i = Some q -> nth_error (g_rlu g) j = Some q -> exists md, nth_error ms j = Some md /\
    let r := interpolated interpolate k cpus g qpts ik in b_qpts r = qpts /\
    (forall m, b_freq r i m = m_freq md m * k) /\ (forall m a c, (c < 3)%nat -> b_evec r i m a c = m_evec md m (3 * a + c)%nat).
Proof. intros Z zone volume points erfc reigh ceigh argsort chunk. exact (grid_points zone volume points erfc reigh ceigh argsort chunk). Qed.
Print Assumptions C82_grid_points.

(** C82.  These are the modes of the interpolated dynamical matrix at that q-point.  Partial:
    asr=None and crystals for which the image search is wide enough (C65, C10). *)
Theorem C82_eigenmodes_partial : forall Z (zone : M3 -> list V3 -> list nat -> Z) volume points erfc reigh ceigh argsort chunk d mass born diel interpolate k cpus,
  home_first d -> search_complete d -> det3 (zrows (f_sc d)) <> 0 -> fc_symmetric d -> symmetric3 diel -> csolves ceigh -> exact_at_points interpolate ->
  exists L, shares_images d L /\
  forall junk u types gt n dn kw ikw g d' x', i_asr (given ikw no_kwargs) = None ->
    from_force_constants zone volume points erfc reigh ceigh argsort chunk junk u types (new_fc d mass born diel) gt n dn kw ikw = Ok (g, d', x') -> NoDup (g_rlu g) ->
    forall qpts ik i j q, nth_error qpts i = Some q -> nth_error (g_rlu g) j = Some q -> exists md,
      modes_of (3 * n_atoms d) mass
        (whole_matrix erfc d born diel (given (i_dipole (given ikw no_kwargs)) true) (given (i_param (given ikw no_kwargs)) 1) L q
           (if (given (i_splitting (given ikw no_kwargs)) true && is_gamma q)%bool then Some (approach (g_rlu g) j) else None)) md /\
      let r := interpolated interpolate k cpus g qpts ik in
      (forall m, b_freq r i m = m_freq md m * k) /\ (forall m a c, (c < 3)%nat -> b_evec r i m a c = m_evec md m (3 * a + c)%nat).
Proof. intros Z zone volume points erfc reigh ceigh argsort chunk d mass born diel interpolate k cpus. exact (grid_eigenmodes zone volume points erfc reigh ceigh argsort chunk d mass born diel interpolate k cpus). Qed.
Print Assumptions C82_eigenmodes_partial.

(** C82.  insert_gamma and reduce_qpts in the keyword arguments are ignored, as documented. *)
Theorem C82_ignored : forall Z (zone : M3 -> list V3 -> list nat -> Z) volume points erfc reigh ceigh argsort chunk junk u types x gt n dn kw a s di pa sp i i' r r' gr,
  let out ikw := match from_force_constants zone volume points erfc reigh ceigh argsort chunk junk u types x gt n dn kw (Some ikw) with Ok (g, _, x') => Ok (g, x') | Err e => Err e end in
  out (mkI a s di pa sp i r gr) = out (mkI a s di pa sp i' r' gr).
Proof. intros Z zone volume points erfc reigh ceigh argsort chunk. exact (ignored zone volume points erfc reigh ceigh argsort chunk). Qed.
Print Assumptions C82_ignored.

(** C82.  Any other grid type is refused. *)
Theorem C82_unknown_type : forall Z (zone : M3 -> list V3 -> list nat -> Z) volume points erfc reigh ceigh argsort chunk junk u types x gt n dn kw ikw,
  gt <> "trellis"%string -> gt <> "mesh"%string -> gt <> "nest"%string ->
  from_force_constants zone volume points erfc reigh ceigh argsort chunk junk u types x gt n dn kw ikw = Err BadGridType.
Proof. intros Z zone volume points erfc reigh ceigh argsort chunk. exact (unknown_type zone volume points erfc reigh ceigh argsort chunk). Qed.
Print Assumptions C82_unknown_type.

(** C82.  Brille is asked for grid_npts points, in whatever unit the cell is displayed. *)
Theorem C82_npts : forall Z (zone : M3 -> list V3 -> list nat -> Z) volume points erfc reigh ceigh argsort chunk junk u types x gt n ikw g d' x',
  0 < n -> 0 < volume (zone (spglib_cell u (f_cell (o_d x))) (f_atom_r (o_d x)) types) ->
  from_force_constants zone volume points erfc reigh ceigh argsort chunk junk u types x gt n None None ikw = Ok (g, d', x') ->
  exists t kw, grid_kind gt = Ok t /\ points t (zone (spglib_cell u (f_cell (o_d x))) (f_atom_r (o_d x)) types) kw = Ok (g_rlu g) /\
    asked_points (volume (zone (spglib_cell u (f_cell (o_d x))) (f_atom_r (o_d x)) types)) kw n.
Proof. intros Z zone volume points erfc reigh ceigh argsort chunk. exact (npts_asked zone volume points erfc reigh ceigh argsort chunk). Qed.
Print Assumptions C82_npts.

(** C82 is false of grid_density, documented as points per cubic inverse angstrom.  [ua] is one
    bohr in angstrom, [u] one bohr in the unit in which the crystal displays its cell: the number
    of points asked for is density times the zone's volume in inverse angstrom only if the two
    agree; otherwise it is (ua/u)^3 times as many.  So changing a display unit changes the
    grid. *)
Theorem C82_density_refuted : forall Z (zone : M3 -> list V3 -> list nat -> Z) volume points erfc reigh ceigh argsort chunk junk u ua types x gt n dn ikw g d' x',
  volume_scales zone volume -> 0 < u -> 0 < ua -> 0 < dn ->
  0 < volume (zone (spglib_cell ua (f_cell (o_d x))) (f_atom_r (o_d x)) types) ->
  from_force_constants zone volume points erfc reigh ceigh argsort chunk junk u types x gt n (Some dn) None ikw = Ok (g, d', x') ->
  exists t kw, grid_kind gt = Ok t /\ points t (zone (spglib_cell u (f_cell (o_d x))) (f_atom_r (o_d x)) types) kw = Ok (g_rlu g) /\
    asked_points (volume (zone (spglib_cell u (f_cell (o_d x))) (f_atom_r (o_d x)) types)) kw
      (dn * volume (zone (spglib_cell ua (f_cell (o_d x))) (f_atom_r (o_d x)) types) * (ua / u) ^ 3).
Proof. intros Z zone volume points erfc reigh ceigh argsort chunk. exact (density_asked zone volume points erfc reigh ceigh argsort chunk). Qed.
Print Assumptions C82_density_refuted.

(** C82 is false of the caller's own dictionary of keyword arguments: the call sets
    insert_gamma and reduce_qpts in it to False, so that using it again for the force constants
    no longer does what the caller asked for. *)
Theorem C82_dictionary_refuted : forall Z (zone : M3 -> list V3 -> list nat -> Z) volume points erfc reigh ceigh argsort chunk junk u types x gt n dn kw d g d' x',
  from_force_constants zone volume points erfc reigh ceigh argsort chunk junk u types x gt n dn kw (Some d) = Ok (g, d', x') ->
  exists e, d' = Some e /\ i_insert e = Some false /\ i_reduce e = Some false /\
  (i_weights e, i_asr e, i_dipole e, i_param e, i_splitting e, i_grads e) = (i_weights d, i_asr d, i_dipole d, i_param d, i_splitting d, i_grads d).
Proof. intros Z zone volume points erfc reigh ceigh argsort chunk. exact (dict_changed zone volume points erfc reigh ceigh argsort chunk). Qed.
Print Assumptions C82_dictionary_refuted.

(** C82 is false of return_mode_gradients=True among the keyword arguments: the call always
    raises. *)
Theorem C82_gradients_refuted : forall Z (zone : M3 -> list V3 -> list nat -> Z) volume points erfc reigh ceigh argsort chunk junk u types x gt n dn kw d r,
  i_grads d = Some true -> from_force_constants zone volume points erfc reigh ceigh argsort chunk junk u types x gt n dn kw (Some d) <> Ok r.
Proof. intros Z zone volume points erfc reigh ceigh argsort chunk. exact (gradients_raise zone volume points erfc reigh ceigh argsort chunk). Qed.
Print Assumptions C82_gradients_refuted.

(** C82.  The grid is of the kind asked for, over the Brillouin zone of the crystal, and given
    grid_kwargs are passed on as they are. *)
Theorem C82_grid : forall Z (zone : M3 -> list V3 -> list nat -> Z) volume points erfc reigh ceigh argsort chunk junk u types x gt n dn kw ikw g d' x',
  from_force_constants zone volume points erfc reigh ceigh argsort chunk junk u types x gt n dn kw ikw = Ok (g, d', x') ->
  exists t args, ((gt = "trellis"%string /\ t = Trellis) \/ (gt = "mesh"%string /\ t = Mesh) \/ (gt = "nest"%string /\ t = Nest)) /\
  points t (zone (spglib_cell u (f_cell (o_d x))) (f_atom_r (o_d x)) types) args = Ok (g_rlu g) /\ forall given, kw = Some given -> args = given.
Proof. intros Z zone volume points erfc reigh ceigh argsort chunk. exact (grid_made zone volume points erfc reigh ceigh argsort chunk). Qed.
Print Assumptions C82_grid.

(** C82.  A density of zero, or without density zero points, raises ZeroDivisionError for a
    trellis or mesh. *)
Theorem C82_zero : forall Z (zone : M3 -> list V3 -> list nat -> Z) volume points erfc reigh ceigh argsort chunk junk u types x gt n dn ikw,
  gt = "trellis"%string \/ gt = "mesh"%string -> dn = Some 0 \/ (dn = None /\ n = 0) ->
  from_force_constants zone volume points erfc reigh ceigh argsort chunk junk u types x gt n dn None ikw = Err ZeroDivision.
Proof. intros Z zone volume points erfc reigh ceigh argsort chunk. exact (zero_raises zone volume points erfc reigh ceigh argsort chunk). Qed.
Print Assumptions C82_zero.

(** Non-vacuity: contracts that can be met, and a grid of three points that is made. *)
Example C82_contracts : exact_at_points lookup_points /\ volume_scales det_zone det_volume /\ NoDup some_points.
Proof. exact (conj lookup_exact (conj det_scales some_points_nodup)). Qed.
Example C82_runs : forall erfc reigh argsort chunk junk x, exists r,
  from_force_constants det_zone det_volume (fun _ _ _ => Ok some_points) erfc reigh (fun _ _ => Some ((fun _ => 0), (fun _ _ => Czero))) argsort chunk junk 1 [] x "nest" 100 None None None = Ok r
  /\ g_rlu (fst (fst r)) = some_points.
Proof. exact brille_meets. Qed.
