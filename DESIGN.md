# Design: a Rocq model of Euphonic

The code in /repo is read as text and never run. Everything proved here is about
the Gallina model in `rocq/theories`; the link to the code is the file:line
citation on every definition.

## Layout

For each topic there are up to four files:

* `M_<topic>.v`  model: Gallina functions mirroring the code, no proofs;
* `S_<topic>.v`  specification: the few words needed to read the theorems
  (only when the statement needs something beyond standard vocabulary);
* `L_<topic>.v`  lemmas and proofs;
* `P_<topic>.v`  property theorems only, each closed with `exact lemma.`, each
  followed by `Print Assumptions` and by an `Example` showing that its
  hypotheses are met by a concrete, non-trivial case.

Names: `Cnn_<what>` is a theorem for property Cnn. `..._refuted` means the
English property is false of the code as modelled; the theorem exhibits the
witness. `..._partial` means only part of the property is proved; the missing
part is stated next to it.

## Number model

* Floats are modelled as mathematical reals (`R` of the standard library) where
  the code does arithmetic with irrational functions, and as elements of an
  arbitrary ordered structure or `Z`/`Q` where only comparisons or integer
  arithmetic happen. Rounding is therefore outside the model; tolerances that
  are in the code (`1e-15`, `1e-5`, `0.1`) are kept literally.
* Complex numbers are pairs of reals (`Cpx.v`).
* NumPy arrays are lists, lists of lists, or index functions with explicit
  extents. Broadcasting is written out. Exceptions are values (`Err name`).
* External code (LAPACK `eigh`, spglib, scipy `nnls`, pint parsing, random
  numbers, the file system) enters as an argument of the theorem: either an
  arbitrary function, or a function with the contract written in the statement.

## Trusted base

* Coq's kernel (8.16.1, `coqc`; no kernel check is switched off, no plugins).
* The axioms `Print Assumptions` lists under each theorem. They are all from the
  standard library; the full list, theorem by theorem, is at the end of this file.
  The model declares no axiom, parameter, functor or module type.
* The fidelity of the transcription: every definition cites the lines it models
  and says where it simplifies. Nothing ties the Gallina text to the Python and C
  text mechanically; `seeded/LOG.jsonl` records how the theorems react when the
  model is changed the way a bug would change the code.
  In a record `first_failures` are the declarations the compiler rejected; `theorems_failed`
  are the property theorems that rest on those, found from the text of the files, so a theorem
  there may have lost a lemma rather than become false. Where only the proof script or the
  number of arguments broke, and where the edited model was not accepted at all, a note should
  say so. That was checked for every record that failed in a model file, and record by record
  for the last two rounds (C99 to C102), but not for failures of lemmas in earlier rounds.
* Contracts written in theorem statements for code outside the model (`eigh`
  returns an orthonormal eigen-system in ascending order, pint reads back the
  unit it printed, spglib's operations map the crystal onto itself, random
  numbers lie in [0,1), and so on). They are hypotheses, not axioms.

## Plan per property

| id | modelled | proof method |
|----|----------|--------------|
| C01 | reciprocal_cell, cell volume, cart<->frac over R | field identities |
| C02 | mp_grid as map over an index product | NoDup/In/length by list lemmas, Z arithmetic |
| C03 | get_mp_grid_spec with real ceil | `archimed` characterisation of ceil |
| C04 | get_all_origins with repeat/tile written out | refinement to box predicate; refutation for step <> 1 |
| C05 | _get_shell_origins | set equality with Chebyshev shell, counting |
| C06 | phases and dyn_mat sums over finite lists | trig addition formulas, sum induction |
| C07 | reduce_qpts bookkeeping (np.unique, inverse, appended gammas) | list induction; result-for-each-index theorem |
| C08 | np.insert, weight halving, q-directions | list induction; refutation for weights=None |
| C09 | gamma correction | field algebra |
| C10 | image search over +-2 shells, weights 1/n | sum identity when n>0; witness for skewed cell; orthogonal cells have an image |
| C11 | dmat_grad | derivative of finite trig sums (`derivable_pt_lim`) |
| C12 | C loop as array writes; upper triangle | equality of entries; write-set disjointness for schedules |
| C13 | det_array vs det | equality iff an off-diagonal product vanishes; witness |
| C14 | arrays as (buffer, strides, dtype) | reading theorem for normalised arrays; refutation for crystal.atom_r |
| C15 | ASR with eigen-decomposition contract | linear algebra on lists/functions |
| C16 | cache state machine | invariant by induction over call sequences; refutations after mutation |
| C17 | unit model: dimension + factor (+ contexts) | invariant over sequences of assignments |
| C18 | JSON value type and conversions | structural induction on nested arrays |
| C19 | _check_constructor_inputs, _replace_dim | iff characterisation |
| C20 | np.digitize/np.histogram, DOS | sum exchange, telescoping |
| C21 | dos_map | linearity of sums |
| C22 | PDOS via modulus squared | sum exchange |
| C23 | structure factor | complex algebra |
| C24 | weights passed to StructureFactor | refutation |
| C25 | DW sums with chunking and mask | quadratic form, list chunk lemma |
| C26 | Bose factors | exp identities |
| C27 | sqw binning | sum exchange |
| C28 | reorder greedy loop | permutation under positivity; refutation witness |
| C29 | edges/centres | list induction |
| C30 | split | list induction; refutation for edge-type axes |
| C31-C34 | collections and metadata as association lists | list induction; refutations |
| C35-C36 | broadening bookkeeping; Chebyshev mapping | sum identity; refutation for lorentz |
| C37 | kinematics over R | trig bounds; refutation for 3*pi |
| C38-C39 | sampling | trig identity, counting |
| C40-C41 | abscissa, labels | list induction |
| C42-C44 | species index, equivalent atoms, supercell search | list induction |
| C45-C46 | phase conversion, weights | complex algebra, sums |
| C47-C48 | byte-level record reader, block reader | round-trip by induction |
| C49 | mode widths | cube-root sign argument; refutation |
| C50 | CLI path handling | list induction |
| C51-C52 | unit handling, optional inputs | case analysis, refutation |
| C53 | Ewald image bookkeeping of the dipole initialisation | list induction; refutation for one atom |
| C54-C55 | label text, default energy bins of the CLI | case analysis, list maxima |
| C56 | fast broadening with a single width | convolution index arithmetic |
| C57 | symmetrised Debye-Waller factors | group sums |
| C58-C59 | addition of spectra and collections, shown units | list induction |
| C60-C62 | spread of sphere samples, powder q-points and bins | counting, trig identities, intermediate values |
| C63 | CASTEP binary reader on top of the byte-level record reader | write/read round trip by induction |
| C64-C65 | whole `_calculate_phonons_at_qpts` with its caches as state | invariant over call sequences, eigen-contract |
| C66 | get_reference_data on the shipped data files, transcribed in full | tree induction, computation |
| C67-C71 | Phonopy force-constant reader | index arithmetic, case analysis |
| C72-C73 | .phonon_dos reader on lines | list induction |
| C74-C75 | Phonopy mode reader | list induction, case analysis |
| C76-C77 | fixed-width and mixed broadening of spectra, with objects as a store | sums, store reasoning |
| C78-C79 | euphonic-dos | case analysis, composition with C20, C22, C76 |
| C80 | euphonic-powder-map | composition with C37, C38, C61, C77 |
| C81 | load_data_from_file on a directory | string lemmas, case analysis |
| C82 | BrilleInterpolator, with Brille itself as a contract | composition with C65, scaling of a volume |
| C83 | euphonic-intensity-map up to plotting | composition of C22, C50, C77; a positive weight one step away |
| C84 | band path and euphonic-dispersion up to plotting, with seekpath as a contract | composition of C28, C40, C53, C65; trace of the matrix is the sum of squared frequencies |
| C85 | sample_sphere_dos, _pdos and _structure_factor, with the modes calculation as an argument | composition of C22, C25-C27, C38, C61 |
| C86 | euphonic.plot, with Matplotlib as a record of what it is given | slices at repeated x, index arithmetic, extrema of lists |
| C87 | to_text_file of spectra and collections, the file as a record of header values and rows | list indexing; the metadata of C31 |
| C88 | calculate_optimum_dipole_parameter on the object state of C64/C65, the clock an argument | invariant over the loop: what each call leaves on the object |
| C89 | euphonic-show-sampling up to the points given to Matplotlib | the sampling functions of C38, C39; least grids by ceilings of square roots |
| C90 | whole calculations at gamma (C65) for force constants obeying the sum rule | three zero frequencies from a Parseval argument on the centre of mass; row sums of the dipole part at gamma; a charged crystal as counterexample |
| C91 | mp_grid, reduction to the first zone, the gamma tests of Python and C and np.arange of the dipole scan with every operation rounded (Flocq's binary64) | half-ulp error bounds; a subtraction of nearby numbers is exact; monotonicity of rounding |
| C92 | what two correct eigensolvers can disagree on: whole calculations (C65), densities of states, Debye-Waller factors, maps | overlaps of eigenvectors of different eigenvalues vanish, so functions of the matrix are determined; histograms are sums of such functions |
| C93 | check_brille_settings whole: sampling, direct calculation, one grid after another with the object and dictionary they leave, residuals, slices, refusals; Brille and the eigensolver are arguments | the state left by a call is like new (C16), the dictionary's two changed keys are forced anyway (C82); vanishing residuals from C92 |
| C94 | pairs of runs of the whole calculation on two descriptions of one crystal: another origin, other atom and cell orders and, for crystals without Born charges, lattice translations of atoms and orientations | the matrices of the two runs are similar through a phase for each atom, a renumbering and a rotation, so that modes of one are modes of the other seen differently; C92 then removes the choice of eigenvectors; the Ewald sums reach the same shells because the largest term of a shell does not depend on the order |
| C95 | _compose_style with the list it changes, _plot_label_kwargs, matplotlib_save_or_show and the ends of the four plotting tools; Matplotlib's sheets and pint's lengths are arguments | last writer wins along a list of sheets; case analysis of the options |
| C96 | the whole of euphonic-dos from a ForceConstants object: grid, calculation (M_calc), energy bins, curves, broadening (M_clidos) | C65 for the modes, C79 for the curves, C92 for the eigenvectors, C16 for the history; the weights of a grid are all 1/N |
| C97 | _get_cli_parser with all its features, the six get_parser functions, and argparse's reading of a line as documented; Python's int and float are arguments | induction over the line in both directions (what is accepted, and only that); names of options checked to be distinct by computation; picking blocks from a list of distinct names |
| C98 | the program euphonic-dos from the list of words to bins, curves and figure: M_parser, the reading of each setting, M_doscalc, M_clidos, M_style; the loader and the tables of units are arguments | the manual of C97 gives kind and default of every setting the program reads; then C96; permutations and filtered lists of options give the same settings where it matters |
| C99 | M_powcalc: main of powder_map.py on the calculation of M_calc, with M_powder, M_sphere and M_weight for the rest; earlier uses of the object and uninitialised memory are functions of the q-points of each calculation | every calculation of the run gives a table of modes of the whole dynamical matrix (C65), put into the averages of C80; sums over modes do not depend on the eigenvectors (C92); history (C16) |
| C100 | M_powmain: the program euphonic-powder-map from the list of words to the map and figure: M_parser, the reading and conversion of each setting, M_powcalc, M_style; the loader and the tables of units are arguments | the manual of C97 gives kind and default of every setting; arguments read back to settings; then C99 in 1/bohr, converted to 1/length-unit |
| C101 | M_bandmain: the program euphonic-dispersion from the list of words to the bands and figure: M_parser, the reading of each setting, M_bands, M_style; the loader, seekpath and the tables of units are arguments | as C98 and C100, on the bands of C84; sorted frequencies do not depend on the eigenvectors (C92) |
| C102 | M_intmain: the program euphonic-intensity-map from the list of words to the map and figure: M_parser, the reading and conversion of each setting, M_bands' path, M_intmap, M_style; the loader, seekpath, the tables of units and the map of structure factors for --weighting coherent are arguments | as C101, on the maps of C83; counts of sorted frequencies do not depend on the eigenvectors (C92) |

## Findings

What the proofs showed to be false of the code as modelled. Each item names the
theorem(s) that state it with a witness or for a whole class of inputs; all of
them are `..._refuted`. The corresponding property is otherwise proved, or
proved outside the stated case.

Lattice and interpolation

* C04 `get_all_origins` with step other than 1 returns duplicates or raises.
* C06 polar crystals: at zone faces (a half-odd-integer component) D(q+G) is not
  D(q), the truncated Ewald sum is lopsided.
* C08 `insert_gamma` loses total weight with integer weights; `weights=None` is
  not the same as equal weights.
* C09 a whole-number `q_dir` array silently gives a zero non-analytic correction.
* C10 for a skewed supercell the image search (two shells) can find no image: the
  force constant is dropped without notice.
* C11 mode gradients of imaginary modes have the wrong sign.
* C12, C13 the C code computes the determinant of the dielectric tensor with a
  sign error, so C and Python differ for tensors with off-diagonal elements; the
  position lookup is shared between threads and can return the wrong direction.
* C14 `crystal.atom_r` is never normalised (a Fortran-ordered or float32 array is
  read as garbage by C); integer q-points, Born charges, dielectric tensor or cell
  vectors are read as the bits of doubles; float cell origins as ints.
* C15 the real-space sum rule leaves translations with a force when the acoustic
  modes found are not uniform; degenerate optic modes mix in; the
  reciprocal-space rule has no complex conjugate, so a phase i doubles the
  eigenvalue instead of removing it.
* C16 the sum rule warning is given on the first call only.
* C49 a left-handed cell gives negative mode widths.
* C51 the inverse supercell matrix is used transposed in
  `from_total_fc_with_dipole`; the dielectric tensor is used without converting
  its unit.
* C52 Born charges without dielectric tensor raise an unnamed AttributeError;
  a dielectric tensor alone is accepted in any unit; a CASTEP file with Born
  charges and no dielectric tensor cannot be read.
* C53 a polar crystal of one atom has no real-space Ewald terms.
* C64 assigning born, dielectric or force_constants leaves stale cached values.

Spectra and broadening

* C20 a mode on the last bin edge is dropped. C21 a q-point of zero weight makes
  the map non-finite.
* C24 q-point weights are dropped by `calculate_structure_factor`.
* C25 one exactly zero frequency makes the Debye-Waller factor non-finite.
* C26 without temperature both signs of energy get full intensity; imaginary
  modes are inverted.
* C28 reordering can lose a mode and repeat another.
* C29 centres do not return to the original edges at the ends; the regularity
  check refuses every evenly spaced point axis of three points or more.
* C30 splitting an edge-type axis gives point data; unordered break points
  duplicate data; negative ones lose tick labels.
* C32, C34 `select` reorders and duplicates; `col[a:len(col)]` and empty slices raise.
* C33, C59 scaling a 2-D collection scales an axis; 2-D `from_spectra` mixes
  stored and shown numbers.
* C17 a failed unit assignment still changes the unit shown; inverse units show
  wrong values; an accepted unit can make the getter raise.
* C35, C36, C56 interpolated broadening: the widest sample loses its upper share,
  Lorentzian spacing ignores the requested error, kernels are cut off beyond half
  the bins.
* C58 axes that differ by less than the absolute tolerance of np.allclose are
  added as if equal (all axes in small units are).
* C76 a Lorentzian is n/(n-1) times too wide, zero width gives NaN, a Gaussian
  on a descending axis is not applied, very fine unequal bins count as equal, a
  width function is refused for evenly spaced points.
* C77 broadening a map with no or zero width returns the same object; width
  functions on point-type axes use half-spacing steps.

Sampling, paths and tools

* C37 angle ranges beyond 540 degrees miss backscattering.
* C38, C39, C60 the polar grid raises for one or two points, "case-insensitive"
  names are refused, `regular_square(offset=False, jitter=True)` leaves the
  square, polar grids crowd the poles.
* C41, C54 small turns and reversals are unlabelled; labels can be wrong or
  missing.
* C55, C62 default energy bins decrease if all frequencies are negative.
* C78 `--pdos` on a crystal of one species always raises KeyError.
* C79 `--instrument-broadening` is used as a standard deviation with
  `--adaptive`; `--adaptive-scale 0` is ignored.
* C80 the default energy range of the powder map is estimated at one q-point and
  can miss every mode; `--pdos` on a crystal of one species always raises.
* C81 a StructureFactor file is loaded as frequencies; a named
  force_constants.hdf5 is not read if phonopy.yaml has its own force constants.
* C82 Brille's grid_density is per cubic inverse unit of the displayed cell
  vectors, not per 1/angstrom^3; the caller's dictionary of keyword arguments is
  changed; return_mode_gradients=True always raises.
* C83 euphonic-intensity-map uses only the first --energy-broadening value; its
  --q-broadening is applied before the path is divided into regions, so intensity
  crosses the breaks, and it counts points instead of distances.
* C84 --q-spacing is in inverse units of the displayed cell vectors, not 1/angstrom;
  where the path breaks off at gamma, the last point of the region is computed for
  the direction of the first point of the next region.
* C86 a region of a divided spectrum without any labelled point cannot be plotted;
  a first region of zero length leaves all subplot widths undefined; maps in
  different intensity units are put on one colour scale with the numbers of their
  own units; a first map of only NaN leaves no colour scale.
* C88 the initialisation time of the first parameter tested includes the search for
  images (and the fit of the real-space sum rule), that of no other does; a
  parameter up to a hundredth of a step above the maximum is tested.
* C89 euphonic-show-sampling raises for one or two points of the polar grid and for
  fewer than six of the improved one; --jitter is accepted and ignored for the
  recurrence sequences.
* C93 euphonic-brille-convergence always samples gamma first; where the acoustic
  frequencies there are exactly zero the structure factors are not numbers and the
  tool stops. Two --energy-broadening values never work. Called as a function, its own
  defaults fail (brille_npts=5000 is not a list, n_threads is missing), and more
  slices than sample points but one raise IndexError. The residuals of single
  structure factors need not vanish where the interpolation is exact (C92).

Files

* C87 the first column of a text file is not x_data but the bin centres, from which
  the edges cannot be recovered: spectra on different bins make the same file.
* C18 Fortran-ordered eigenvectors cannot be written, real ones not read back;
  no q-points or an empty crystal cannot be read back; tuples and arrays in
  metadata do not survive.
* C19 a scalar Quantity is accepted for any array; some errors have no name.
* C44, C67 Phonopy force constants: a copy other than the first, a coordinate of
  exactly 1, a non-symmetric supercell matrix or a missing reduced_to put them on
  the wrong atoms.
* C46 repeated ids that are not neighbours are not shared.
* C47 a float record of odd length defeats the marker check.
* C48 a .phonon file cut between blocks gives phantom gamma points, one cut in
  the header hangs.
* C66 whole numbers are missing from the reference data.
* C69, C70 .h5 is recognised and then refused; a BORN file overrides the charges
  of the summary; charges without dielectric tensor are returned alone.
* C72, C73 the gradient unit argument is ignored; a short DOS table is accepted;
  a one-bin file is refused.
* C74, C75 eigenvectors of mesh.hdf5 and qpoints.hdf5 are read transposed; the
  crystal in a YAML mode file is always assumed to be in angstrom and amu.
* C90 Born charges that do not add up to nothing are accepted: with LO-TO splitting
  gamma then has fewer than three modes of frequency zero. (The dipole part alone
  never gives a force along a common move of all atoms: its row sums at gamma are
  antisymmetric, and vanish for isotropic charges.)
* C92 the gradients of modes that share a frequency, and so the mode widths and the
  adaptively broadened spectra, depend on the eigenvectors the solver picks: at a
  crossing of two branches one correct solver gives slopes, another zero everywhere.
  The structure factors of single degenerate modes depend on them too (their maps
  do not).
* C95 options of value zero or empty (--linewidth 0, --fontsize 0, --font '',
  --save-json '') are as if not given: lines asked to have no width are drawn one
  point wide. _compose_style extends the list it is given, so a caller who keeps the
  list draws the next figure with the options of the last (the tools make a new list
  each time). With a unit that is no length euphonic-dispersion stops before it saves
  the data, the other tools after.
* C97 an option with an optional word or any number of words (--asr, --pdos, --eb,
  --style, --shape …) just before the file name takes the file name for itself:
  `euphonic-dos --asr quartz.castep_bin` is refused. A bare --shape is accepted and
  means no shape at all (None), although None is not among its choices. Unknown
  feature names are ignored by _get_cli_parser, and 'adaptive-broadening' without
  'ebins' too: the ValueError at utils.py:822 is made but not raised.

## What is partial

`..._partial` theorems prove the property outside the cases refuted above, with
these further restrictions, stated next to each theorem:

* C06 (polar): not where a component of q is a half-odd-integer.
* C10, C15 (interpolated gamma), C51 (one-cell round trip), C65, C90: supercells
  whose images are all within the searched shells (always so for compact ones:
  boxes, cubic cells of any centring, hexagonal, rhombohedral from 48.2 to 111.7
  degrees, reduced monoclinic); C65 with asr='realspace' for corrections that keep the
  symmetry of the force constants, with asr='reciprocal' for Hermitian corrections;
  C90 with Born charges for balanced dipole parts.
* C12: conditions on the dielectric tensor, half-odd-integer q and directions;
  the thread theorem covers a thread alone in the lookup.
* C35, C36, C56: see the refutations.
* C51: symmetric supercell matrix, one-cell round trip.
* C80: explicit kernels for Gaussian single widths; the averages of every
  weighting are without broadening and kinematics.
* C83: Gaussian widths; `--weighting coherent` without broadening.
* C84: what the frequencies are is stated without --asr (with it, through the modes of
  the calculation; C84_realspace: those of the corrected force constants); with --reorder
  under the conditions of C28.
* C94: the origin in general; other orders of atoms and cells without --asr and with
  complete image searches; turns and atoms in other cells only without Born charges.
  (With them the numbers do change in principle: the shells of the Ewald sums are
  shells of cells, and are cut by the largest Cartesian component of their terms.)
* C96: the exact counts without --asr, --pdos, --weighting and broadening, and for
  complete image searches. C98: its counts likewise. C99 and C100: their averages likewise,
  and without --asr. C101: its frequencies likewise, and without --reorder.
  C102: its map of force constants likewise, and only for lines without --weighting, --asr and
  broadening (C102_loaded_partial: without --weighting and broadening). The map of
  --weighting coherent is an argument of the model, so C102 says where its settings go but not
  what it shows; C102_solvers and C102_realspace are likewise about --weighting dos.

## Not modelled

* Floating-point rounding (except C91 and the scan of C88, where every operation is
  rounded as IEEE 754 says, and C14, which is about bits), overflow, NaN
  propagation beyond the places where the model has an explicit error or `None`.
* Matplotlib itself (C86 stops at what it is given), legends and what styles look like;
  docs, packaging, performance.
* M_dosmain: --use-c and --n-threads (C12), and the order in which a bad unit and an
  error of the calculation are noticed; the loader is an argument (M_load is its model).
  M_powmain likewise; --use-brille and the text boxes are left out there, and tolerances
  on the |q| axis are in 1/bohr, not 1/length-unit. M_bandmain as M_dosmain: the energy
  unit is looked up before the calculation. M_intmain: the map of --weighting coherent is an
  argument; less than one bin is an error by definition (the program's later steps for
  --ebins 0 and -1 are not followed, so that clause of C102_refused is an assumption).
* M_parser: argparse is modelled from its documentation; abbreviated options,
  --option=value, -xVALUE and -- are left out.
* The parsers of YAML, HDF5 and JSON text; pint's own arithmetic; BLAS/LAPACK,
  FFT, nnls, spglib, brille, seekpath (arguments or contracts).
* The thread memory model: the parallel loop is modelled as reordering of
  iterations, and, for the shared lookup, as interleaving of single steps.
* M_calc: uninitialised memory is an arbitrary finite real; NaN there would
  survive multiplication by zero.
* M_layout: float16, longdouble, strings and objects; big-endian machines.
* M_phonopy, M_phmodes, M_load: a file is a record of what its keys hold; words
  and comments in text tables, NumPy broadcasting of one-row force constants and
  integer eigenvectors in YAML are left out; paths with a trailing slash too.
* M_phdos: comment lines within tables.
* M_text: the header is the values put into it, json.dumps, the version and the
  number format are left out. M_opt: printing left out, the clock is an argument.
  M_show: axes, markers and showing or saving the figure.
* M_brille: Brille's zones, grids and interpolation are function arguments; from
  what is asked of Brille to how many points it makes is Brille's business.
* M_style: which settings Matplotlib knows and which values it accepts; the text boxes
  of euphonic-powder-map.
* M_bands: seekpath is a function argument.
* M_brconv: labels, titles and legends; the numbers in the labels are modelled.
* M_fixed: scipy's filters are their documented formulas.
* M_sphere, M_weight: the calculation of modes is a function argument (it is the
  subject of C65), and so are the random numbers of every shell.
* M_clidos, M_powder, M_intmap, M_bands: what was loaded is an argument (M_doscalc puts
  the calculation of M_calc in for the argument of M_clidos); JSON output left out.

## Print Assumptions

Output of `Print Assumptions`, 603 theorems, grouped by what it lists.

* **Closed under the global context** (no axioms) (60): C04_get_all_origins_box_partial, C04_step_duplicates_refuted, C04_step_error_refuted, C05_shell_origins, C05_shells_partition_cube, C12_lookup_alone_partial, C12_lookup_ends, C12_shared_lookup_race_refuted, C14_as_given_partial, C14_fortran_refuted, C14_integers_as_doubles_refuted, C14_integers_partial, C14_narrow_refuted, C19_collection1d, C19_collection2d, C19_crystal, C19_debye_waller, C19_errors, C19_first_named, C19_phonon_modes, C19_qpoint_frequencies, C19_spectrum1d, C19_spectrum2d, C19_structure_factor, C19_table, C19_unnamed_refuted, C30_both_refused, C31_own_entries_win, C32_select, C32_select_no_match, C34_empty_slice_refuted, C34_full_slice_refuted, C34_integer_index, C34_integer_out_of_range, C34_long_slice_refuted, C34_position, C34_sequence_index, C34_slice_partial, C38_case_insensitive_refuted, C42_species_partition, C47_all_records, C47_end_of_file, C47_floats, C47_integer, C47_integers, C47_marker_mismatch, C47_marker_mismatch_items, C47_negative_marker, C47_odd_length_refuted, C47_payload, C47_truncated, C50_break_points, C50_tick_labels, C69_formats_partial, C69_short_extensions_refuted, C69_unknown_format_refuted, C70_sources_partial, C75_format, C93_other_data, C95_cases.

* `ClassicalDedekindReals.sig_forall_dec` (34): C18_array_metadata_refuted, C18_crystal, C18_debye_waller, C18_empty_crystal_refuted, C18_force_constants, C18_fortran_order_refuted, C18_no_qpoints_refuted, C18_phonon_modes, C18_qpoint_frequencies, C18_real_eigenvectors_refuted, C18_spectrum1d, C18_spectrum2d, C18_structure_factor, C18_tuple_metadata_refuted, C32_select_once_refuted, C32_select_order_refuted, C50_breaks_follow_insertion, C50_insert_gamma, C66_entries_partial, C66_errors, C66_whole_numbers_refuted, C69_summary_first, C71_hdf5, C71_text_back, C71_truncated, C71_wrong_shape, C72_collection, C72_contents, C72_spectrum, C72_total_element_refuted, C73_bad_table, C73_marks, C73_one_bin_refuted, C73_short_table_refuted.

* `ClassicalDedekindReals.sig_forall_dec`, `FunctionalExtensionality.functional_extensionality_dep` (165): C01_cell_volume, C02_mp_grid_complete, C02_mp_grid_positions, C07_c_is_gamma, C07_reduction_invisible, C07_results_follow_input_order, C08_default_weights_refuted, C08_directions_of_copies, C08_insert_gamma_qpts, C08_insert_gamma_weights, C08_total_weight_float_partial, C08_total_weight_int_refuted, C10_compact_search_complete, C10_compact_shapes, C10_near_image_exists, C10_orthogonal_search_complete, C13_c_determinant_difference, C13_c_determinant_refuted, C15_degenerate_refuted, C15_obeyed_kept, C15_realspace_partial, C15_reciprocal_partial, C15_reciprocal_phase_refuted, C15_translation_refuted, C15_uncorrected, C17_accepted_unit_unreadable_refuted, C17_assign_read, C17_assign_read_plain, C17_collection_unit_unchecked_refuted, C17_failed_assignment_refuted, C17_inverse_unit_refuted, C17_plain_getter_partial, C17_shown_value, C17_unit_checked, C17_units_only_change_display, C19_force_constants, C19_scalar_refuted, C29_centre_axis, C29_edge_axis, C29_even_points_rejected_refuted, C29_evenness_check, C29_no_bins_refused, C29_other_lengths_refused, C29_regular_round_trip_refuted, C30_automatic_breakpoints, C30_edge_axis_refuted, C30_negative_index_refuted, C30_split_loses_nothing, C30_unordered_refuted, C31_round_trip, C31_unambiguous, C32_group_by_partitions, C32_groups_sum_to_whole, C32_sum, C33_collection_2d_copy_refuted, C33_collection_2d_refuted, C33_inverse_unit_refuted, C33_scale_in_place_partial, C33_scaled_copy, C37_usual_angles, C39_own_cell, C39_recurrence, C39_regular_square_partial, C39_regular_square_refuted, C44_chunk_size_irrelevant, C44_force_constants_placed_partial, C44_other_copy_refuted, C44_relative_index_exact, C46_average, C46_phonopy, C46_plain, C46_prefer_unsplit, C46_separated_refuted, C46_total, C46_two_unsplit, C48_contents, C48_cut_in_block, C48_cut_in_header, C48_header_hang_refuted, C48_missing_blocks_refuted, C48_split_hides_missing_refuted, C51_skewed_refuted, C52_born_needs_dielectric, C52_born_only_refuted, C52_both_or_neither, C52_castep_refuted, C52_dielectric_only_refuted, C52_other_errors_tell, C52_setter_refuted, C54_gamma_label_refuted, C54_label_sound_partial, C54_negative_point_refuted, C54_wrong_label_refuted, C55_default_bins_cover_partial, C55_negative_refuted, C58_adding_collections, C58_adding_spectra, C58_different_axes_refuted, C59_lines_shown, C59_maps_raw_refuted, C59_maps_shown_partial, C62_all_imaginary_refuted, C62_cover, C63_round_trip, C63_truncated, C66_shipped, C67_coordinate_one_refuted, C67_no_reduced_to_refuted, C67_placed_partial, C67_supercell_matrix_refuted, C68_nac_units, C70_no_dielectric_refuted, C70_summary_priority_refuted, C72_area, C72_gradient_unit_refuted, C72_sum_of_species, C76_total, C78_all_species_partial, C78_chosen_partial, C78_one_species_error_refuted, C78_total, C80_samples, C83_covers, C83_energy_axis, C84_sides, C86_frame, C86_gap_first_refuted, C86_image, C86_image_runs, C86_labels_refused, C86_lines, C86_map_units_refuted, C86_maps_partial, C86_maps_run, C86_regions, C86_regions_run, C86_runs, C86_tick_refused, C86_ticks, C86_units_refused, C86_unlabelled_region_refuted, C86_zero_range_refuted, C87_columns, C87_first_column_refuted, C87_reserved, C87_single, C88_qpts, C95_base_grows, C95_outputs, C95_same_list_refuted, C95_settings, C95_zero_refuted, C97_bare_shape_refuted, C97_exclusions, C97_exclusive, C97_features, C97_features_refuted, C97_file_swallowed_refuted, C97_manual, C97_manual_options, C97_meaning, C97_needed, C97_nothing_ignored, C97_order, C97_unknown_option.

* `ClassicalDedekindReals.sig_forall_dec`, `ClassicalDedekindReals.sig_not_dec`, `FunctionalExtensionality.functional_extensionality_dep` (92): C01_cart_frac_roundtrip, C01_frac_cart_roundtrip, C01_reciprocal_cell_dual, C01_reciprocal_volume, C03_mp_grid_spec, C06_short_range_hermitian, C06_short_range_periodic, C06_short_range_time_reversal, C06_solver_sees_full_matrix, C09_direction_only_partial, C09_integer_direction_refuted, C09_symmetric, C09_transverse, C10_gamma_sum_partial, C10_orthogonal_gamma_sum_partial, C10_orthogonal_shared_equally_partial, C10_shared_equally_partial, C10_skewed_supercell_refuted, C11_dyn_mat_gradient, C11_imaginary_mode_sign_refuted, C11_mode_gradient_real_mode_partial, C12_offdiagonal_dielectric_refuted, C15_interpolated_gamma_partial, C23_formula, C23_nonnegative, C23_phase_translation_scale, C23_time_reversal, C24_equal_weights_partial, C24_explicit_weights_partial, C24_weights_dropped_refuted, C25_chunks_irrelevant, C25_cutoff, C25_formula, C25_zero_frequency_refuted, C26_no_temperature_refuted, C26_zero_temperature, C27_bins, C27_integral, C27_succeeds, C28_follows_modes_partial, C28_matched_steps, C28_mode_lost_refuted, C28_permutation_partial, C28_unmatched_step, C37_direct, C37_indirect, C37_one_energy, C37_wide_range_refuted, C38_message_refuted, C38_polar_grid, C39_golden_columns, C39_golden_square, C40_abscissa_monotone, C40_abscissa_steps, C41_direction_change_refuted, C41_labelled_positions_partial, C41_reversal_refuted, C43_raises_unless_unique, C43_reported_atoms_are_equivalent, C45_eigenvectors, C45_orthonormal, C45_structure_factor, C45_unit_phase, C56_peak_is_kernel, C57_site_symmetry, C74_band_hdf5, C74_not_modes_refuted, C74_points_hdf5_refuted, C74_yaml, C74_yaml_crystal, C75_commensurate, C75_eigenvectors_needed, C75_eigenvectors_needed_hdf5, C75_units_refuted, C81_castep, C81_json_force_constants, C81_json_frequencies, C81_json_modes, C81_json_refused, C81_named_file_refuted, C81_phonopy_force, C81_phonopy_modes, C81_phonopy_needs_summary, C81_structure_factor_refuted, C81_unknown, C92_debye_waller, C92_gradient_sums, C92_maps, C92_mode_structure_factors_differ, C92_modes, C94_origin_structure_factors, C94_reciprocal_cell.

* `ClassicalDedekindReals.sig_forall_dec`, `ClassicalDedekindReals.sig_not_dec`, `Classical_Prop.classic`, `FunctionalExtensionality.functional_extensionality_dep` (252): C06_polar_hermitian, C06_polar_periodic_partial, C06_polar_time_reversal, C06_zone_face_refuted, C100_bare_partial, C100_coherent_partial, C100_counts_partial, C100_order, C100_refused, C100_settings, C100_solvers, C100_typed, C101_bands_partial, C101_bare_partial, C101_loaded, C101_order, C101_refused, C101_runs, C101_settings, C101_solvers, C101_typed, C102_bare_partial, C102_loaded_partial, C102_loaded_runs, C102_map_partial, C102_order, C102_realspace, C102_refused, C102_runs, C102_settings, C102_solvers, C102_typed, C12_any_order_matches_python_partial, C14_complex_partial, C14_doubles_partial, C14_float_origins_refuted, C16_history, C16_warning_refuted, C20_dos_counts_modes, C20_full_range_area_three, C20_last_edge_refuted, C21_map_averages_to_dos_partial, C21_zero_weight_refuted, C22_neutron_weights, C22_pdos_sums_to_dos, C22_weightings_add, C25_positive_semidefinite_partial, C26_detailed_balance, C26_imaginary_inverted, C35_spacing_above_one, C35_weight_split_partial, C35_widest_point_partial, C36_gauss_monotone_partial, C36_lorentz_constant_refuted, C36_lorentz_refuted, C38_exact_count, C38_exact_count_small, C38_grid_partial, C38_improved_minimum, C38_polar_grid_refuted, C38_projected_grid, C38_unknown_method, C49_mode_widths_left_handed_refuted, C49_mode_widths_partial, C51_dielectric_unit_refuted, C51_dielectric_unit_scales, C51_one_cell_round_trip_partial, C51_subtracts_partial, C53_home_cell_included, C53_one_atom_refuted, C56_far_tail_refuted, C56_lower_limit, C56_single_width_exact_partial, C56_width_is_fwhm, C60_even_latitudes_refuted, C60_golden, C60_golden_places, C60_grid_places, C60_improved, C60_polar_grid_refuted, C60_projected_grid, C60_random_places, C61_on_shell, C64_born_refuted, C64_dielectric_refuted, C64_force_constants_ignored_refuted, C64_force_constants_refuted, C65_complete_partial, C65_modes_partial, C65_only_errors, C65_realspace, C65_realspace_modes_partial, C65_reciprocal_partial, C65_weights, C65_wrong_weights, C66_bluebook_refuted, C76_descending_refuted, C76_fine_bins_refuted, C76_function, C76_function_points_refuted, C76_gauss, C76_lines, C76_lorentz_partial, C76_lorentz_width_refuted, C76_uneven_bins, C76_zero_gauss, C76_zero_lorentz_refuted, C77_function_points_refuted, C77_function_x, C77_function_y, C77_gauss_map, C77_lorentz_map_partial, C77_new_object_partial, C77_order, C77_same_object_refuted, C78_drawn, C78_one_species_refuted, C79_adaptive_lorentz_partial, C79_adaptive_partial, C79_alias, C79_fixed_width, C79_instrument_width_refuted, C79_plain, C79_refused, C79_weighted, C79_weighted_runs, C79_zero_scale_refuted, C80_broadening_partial, C80_coherent, C80_coherent_runs, C80_dos_average, C80_dos_average_runs, C80_dos_map_grid_partial, C80_dos_map_partial, C80_energy_axis, C80_energy_range_refuted, C80_kinematics, C80_no_range, C80_one_species_refuted, C80_pdos_partial, C80_pdos_refused, C80_pdos_runs_partial, C80_q_axis, C80_widths, C82_density_refuted, C82_dictionary_refuted, C82_eigenmodes_partial, C82_gradients_refuted, C82_grid, C82_grid_points, C82_ignored, C82_npts, C82_unknown_type, C82_zero, C83_break_refuted, C83_broadening_partial, C83_coherent, C83_coherent_of_modes, C83_map, C83_map_of_modes, C83_polynomial_refuted, C83_refused, C83_scale, C83_ticks, C84_any_asr, C84_bands_partial, C84_break_refuted, C84_copies, C84_loaded, C84_realspace, C84_refused, C84_reorder_force_partial, C84_reorder_partial, C84_runs, C84_solvers, C84_spacing_refuted, C85_default_bins, C85_dos, C85_pdos, C85_pdos_sums_to_dos, C85_reuse, C85_runs, C85_structure_factor, C85_temperature_clash, C88_errors, C88_first_time_refuted, C88_idle, C88_jobs, C88_maximum_refuted, C88_parameters, C88_runs, C88_scan_double, C88_suggestion, C89_cube, C89_few_refuted, C89_jitter_refuted, C89_powder, C89_refused, C89_regular_square, C89_sphere, C89_sphere_grids, C89_square, C90_acoustic_partial, C90_balanced, C90_charged_refuted, C90_dipole_rows, C90_isotropic, C90_realspace_partial, C91_equivalent, C91_gamma, C91_gamma_far, C91_grid, C91_grid_gamma, C91_model, C91_positions, C91_reduction, C91_rounding, C92_calculation, C92_dos, C92_equivalent_qpts, C92_gradients_differ, C93_all_together, C93_defaults_refuted, C93_each_alone, C93_exact, C93_gamma_refuted, C93_residuals, C93_slices, C93_widths_refuted, C94_description_partial, C94_maps_partial, C94_origin, C96_adaptive, C96_counts_partial, C96_history, C96_realspace, C96_solvers, C98_arguments, C98_arguments_modes, C98_bare_partial, C98_counts_partial, C98_errors, C98_looks, C98_order, C98_typed, C99_axis_partial, C99_coherent_partial, C99_counts_partial, C99_history, C99_pdos_partial, C99_realspace, C99_solvers.
