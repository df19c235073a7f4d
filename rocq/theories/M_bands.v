(** Model of the band path of the command line tools and of euphonic-dispersion up to plotting:
    /repo/euphonic/cli/utils.py 184-198 [_get_q_distance], 305-343
    [_bands_from_force_constants], /repo/euphonic/cli/dispersion.py 15-48 [main],
    /repo/euphonic/qpoint_frequencies.py 291-309 [get_dispersion].
    - seekpath.get_explicit_k_path is the argument [seekpath]: cell, fractional positions,
      species numbers and reference distance give the q-points and their labels.
    - The calculation is M_calc (Python evaluation), in hartree; [k] is one hartree in
      --energy-unit.  calculate_qpoint_frequencies gives the same frequencies as
      calculate_qpoint_phonon_modes.
    - A Spectrum1DCollection is an [xspec] whose y value at a point is the list of all bands
      there: y_data is the transpose, and y_data[:, a:b] takes those of the points a to b.
    - The labels found by get_qpoint_labels are the argument [found]. *)
From Coq Require Import String.
From Verif Require Import Base Cpx Vec3 M_grid M_cell M_qpts M_dynmat M_dipole M_struct M_asr M_calc M_path M_dos M_reorder M_bins M_brille.
Open Scope R_scope.

Inductive bderr :=
  | BadLengthUnit            (* ValueError, utils.py:193-196 *)
  | NoEigenvectors           (* TypeError, dispersion.py:21-23 *)
  | BandCalcErr (e : cerr)
  | BandReorderErr (e : rerr)
  | BandSplitErr (e : binerr).

(** utils.py:184-198 and .to('1 / angstrom') 323; [lookup] gives a length unit in angstrom *)
Definition q_distance (lookup : string -> option R) (unit : string) (q : R) : res R bderr :=
  match lookup unit with Some l => Ok (q / l) | None => Err BadLengthUnit end.

(** explicit_kpoints_rel and explicit_kpoints_labels *)
Record bpath := mkBP { bp_k : list V3; bp_labels : list string }.

Section Bands.
Variable seekpath : M3 -> list V3 -> list nat -> R -> bpath.
Variables (erfc : R -> R) (reigh : real_eigh) (ceigh : complex_eigh) (argsort : list R -> list nat) (chunk : nat).
Variable junk : nat -> nat -> nat -> R.

(** utils.py:314-326; [u] is one bohr in the unit of cell_vectors (crystal.py:180) *)
Definition band_path (u : R) (types : list nat) (x : fcobj) (dist : R) (insert : bool) : bpath :=
  let b := seekpath (spglib_cell u (f_cell (o_d x))) (f_atom_r (o_d x)) types dist in
  if insert then let r := cli_insert_gamma (bp_k b) (bp_labels b) in mkBP (fst r) (snd r) else b.

(** utils.py:334-343 with _calc_modes_kwargs 425-431: asr and dipole_parameter from the command
    line, reduce_qpts=False, the rest by default *)
Definition band_options (b : bpath) (asr : option asr_kind) (param : R) : options :=
  mkOpts (bp_k b) None asr true param true false false false.

(** QpointPhononModes; frequencies times k *)
Definition mode_table (k : R) (n : nat) (w : list R) (ms : list modes) : etable :=
  let none := mkModes (fun _ => 0) (fun _ _ => Czero) None in
  mkE (mkF (List.length ms) (3 * n) (fun q m => m_freq (nth q ms none) m * k) (fun q => nth q w 0)) n
      (fun q m a c => m_evec (nth q ms none) m (3 * a + c)%nat).

(** utils.py:305-343: the modes, the tick labels and the break points *)
Definition bands_from_force_constants (k u : R) (types : list nat) (x : fcobj) (dist : R) (insert : bool) (asr : option asr_kind) (param : R)
  : res (list V3 * etable * list (nat * string) * list nat) bderr :=
  let b := band_path u types x dist insert in
  match result erfc reigh ceigh argsort chunk junk (band_options b asr param) x with
  | Err e => Err (BandCalcErr e)
  | Ok (qpts, w, ms) => Ok (qpts, mode_table k (M_dynmat.n_atoms (o_d x)) w ms, cli_tick_labels (bp_labels b), cli_break_points (bp_labels b))
  end.

(** What was loaded (dispersion.py:19-37); the cell of modes and frequencies is there for the
    x axis. *)
Inductive ddata :=
  | DForce (u : R) (types : list nat) (x : fcobj)
  | DModes (cell : M3) (qpts : list V3) (e : etable)
  | DFreqs (cell : M3) (qpts : list V3) (t : ftable).
Record dargs := mkDA { da_reorder : bool; da_unit : string; da_spacing : R; da_asr : option asr_kind; da_param : R; da_btol : R }.

(** get_dispersion: [kx] takes 1/bohr to the inverse unit of cell_vectors *)
Definition dispersion (found : list V3 -> ticks) (kx : R) (cell : M3) (qpts : list V3) (t : ftable) : xspec (list R) :=
  mkX (calc_abscissa (reciprocal_cell cell) kx qpts) (map (fun q => map (freq t q) (seq 0 (nm t))) (seq 0 (nq t))) (Some (found qpts)).
(** dispersion.py:39-52 *)
Definition draw (found : list V3 -> ticks) (tol kx : R) (a : dargs) (cell : M3) (qpts : list V3) (e : etable) (labels : list (nat * string)) (at_ : option (list nat))
  : res (xspec (list R) * list (xspec (list R))) bderr :=
  match (if da_reorder a then reorder_frequencies tol true qpts e else Ok e) with
  | Err er => Err (BandReorderErr er)
  | Ok e' =>
    let s0 := dispersion found kx cell qpts (et e') in
    let s := match labels with [] => s0 | l => mkX (xs s0) (ys s0) (Some (map (fun q => (Z.of_nat (fst q), snd q)) l)) end in
    match (match at_ with Some idx => split s (Some (map Z.of_nat idx)) None | None => split s None (Some (da_btol a)) end) with
    | Err er => Err (BandSplitErr er)
    | Ok segs => Ok (s, segs)
    end
  end.
(** dispersion.py:15-52 *)
Definition dispersion_tool (lookup : string -> option R) (found : list V3 -> ticks) (tol k kx : R) (a : dargs) (d : ddata)
  : res (xspec (list R) * list (xspec (list R))) bderr :=
  match d with
  | DForce u types x =>
      match q_distance lookup (da_unit a) (da_spacing a) with
      | Err e => Err e
      | Ok dist =>
        match bands_from_force_constants k u types x dist true (da_asr a) (da_param a) with
        | Err e => Err e
        | Ok (qpts, e, labels, idx) => draw found tol kx a (f_cell (o_d x)) qpts e labels (Some idx)
        end
      end
  | DModes cell qpts e => draw found tol kx a cell qpts (mkE (mkF (nq (et e)) (nm (et e)) (fun q m => freq (et e) q m * k) (wt (et e))) (n_atoms e) (evec e)) [] None
  | DFreqs cell qpts t =>
      if da_reorder a then Err NoEigenvectors
      else draw found tol kx a cell qpts (mkE (mkF (nq t) (nm t) (fun q m => freq t q m * k) (wt t)) 0 (fun _ _ _ _ => Czero)) [] None
  end.
End Bands.
