{"id": "C01", "title": "Reciprocal cell is dual to the cell vectors", "statement": "For every crystal with linearly independent cell vectors a_1,a_2,a_3 (right- or left-handed), Crystal.reciprocal_cell() returns b_1,b_2,b_3 with a_i . b_j = 2*pi if i=j and 0 otherwise, and the signed volume of the reciprocal cell is (2*pi)^3 / cell_volume(). Hence converting a q-point to Cartesian and back is the identity.", "quantifier": "all 3x3 real cell matrices with non-zero determinant, all q-points", "why_tests_cant": "Tests use a handful of materials; duality is an identity over a 9-parameter family including skewed and left-handed cells.", "anchors": ["euphonic/crystal.py:Crystal.reciprocal_cell", "euphonic/crystal.py:Crystal.cell_volume", "euphonic/util.py:_cell_vectors_to_volume", "euphonic/powder.py:_qpts_cart_to_frac"]}
{"id": "C02", "title": "Monkhorst-Pack grids are complete, distinct, symmetric and uniform", "statement": "mp_grid((n1,n2,n3)) with positive divisions returns exactly n1*n2*n3 pairwise different q-points; every coordinate lies strictly between -1/2 and 1/2; the grid is closed under q -> -q; neighbouring points along an axis differ by exactly 1/n; and every combination of the three axis values appears once.", "quantifier": "all triples of positive integers", "why_tests_cant": "Grid sizes are unbounded; tests only check a few explicit tables.", "anchors": ["euphonic/util.py:mp_grid"]}
{"id": "C03", "title": "Suggested grid divisions honour the requested spacing and are minimal", "statement": "For every crystal and every positive spacing, Crystal.get_mp_grid_spec(spacing) returns positive integers (n1,n2,n3) such that |b_i|/n_i <= spacing, and no smaller integer n_i would satisfy that.", "quantifier": "all non-degenerate cells and all positive real spacings", "why_tests_cant": "The claim is about a rounding boundary over a continuum of cell sizes.", "anchors": ["euphonic/crystal.py:Crystal.get_mp_grid_spec"]}
{"id": "C04", "title": "get_all_origins enumerates exactly the requested box", "statement": "get_all_origins(max_xyz, min_xyz, step) returns every lattice point min + step*k inside the half-open box [min,max) once and no other point, for every step.", "quantifier": "all integer triples min <= max and all positive steps", "why_tests_cant": "Needs all sizes, including non-cubic boxes, where repeat/tile ordering mistakes only show for unequal sides, and steps other than 1.", "anchors": ["euphonic/util.py:get_all_origins"]}
{"id": "C05", "title": "Shell origins partition the lattice", "statement": "The n-th shell used in the Ewald-type sums contains exactly the integer points whose largest absolute coordinate is n, each once; so the shells 0..n together contain each point of the (2n+1)^3 box exactly once and the n-th shell has (2n+1)^3-(2n-1)^3 points.", "quantifier": "all shell numbers n >= 0 and all integer triples", "why_tests_cant": "Unbounded n; an off-by-one in one face would double count or lose a face of the shell.", "anchors": ["euphonic/force_constants.py:ForceConstants._get_shell_origins"]}
{"id": "C06", "title": "Interpolated dynamical matrices are periodic and time-reversal symmetric", "statement": "For every force-constants object, q-point and reciprocal-lattice vector G, the dynamical matrix at q+G equals the one at q, and the one at -q is the complex conjugate of the one at q. If the supplied force constants have the symmetry required of a second derivative, the dynamical matrix is Hermitian.", "quantifier": "all force constants, image lists, real q-points and integer G", "why_tests_cant": "An identity over infinitely many q and all force constant values.", "anchors": ["euphonic/force_constants.py:ForceConstants._calculate_dyn_mat", "euphonic/force_constants.py:ForceConstants._calculate_phases"]}
{"id": "C07", "title": "Q-point reduction does not change results", "statement": "With reduce_qpts=True, calculate_qpoint_phonon_modes returns for the i-th requested q-point the same result as calculating that q-point on its own: duplicated and G-equivalent q-points share a calculation but output order and multiplicity are preserved, and with LO-TO splitting each gamma point keeps the direction determined by its own neighbours.", "quantifier": "all lists of q-points (any length, any repetition), all per-q calculations that are invariant under reciprocal-lattice translations", "why_tests_cant": "The index bookkeeping (unique/inverse plus appended gammas) depends on the arbitrary multiset and order of q-points.", "anchors": ["euphonic/force_constants.py:ForceConstants._calculate_phonons_at_qpts"]}
{"id": "C08", "title": "insert_gamma preserves total weight and q-point order", "statement": "With insert_gamma=True, each gamma point strictly inside the list of q-points appears twice in the output, all other q-points keep their order, the sum of the weights is unchanged when weights are supplied, and the first copy gets the direction of the left neighbour and the second that of the right neighbour. Omitting weights is equivalent to supplying equal weights.", "quantifier": "all lists of q-points and weights", "why_tests_cant": "Depends on arbitrary positions and numbers of gamma points.", "anchors": ["euphonic/force_constants.py:ForceConstants._calculate_phonons_at_qpts", "euphonic/force_constants.py:ForceConstants._get_q_dirs"]}
{"id": "C09", "title": "The non-analytic correction depends only on direction", "statement": "The LO-TO correction added at gamma depends only on the direction of approach: scaling q_dir by any non-zero factor (including -1) leaves it unchanged, it is symmetric in the joint (atom, Cartesian) index, and it vanishes when the Born charges are transverse to the direction.", "quantifier": "all cells, Born charges, positive-definite dielectric tensors, non-zero directions", "why_tests_cant": "Continuum of directions and tensors.", "anchors": ["euphonic/force_constants.py:ForceConstants._calculate_gamma_correction", "c/dyn_mat.c:calculate_gamma_correction"]}
{"id": "C10", "title": "Each force constant is counted exactly once", "statement": "For every atom pair and supercell cell, the weights with which the periodic images of a force constant enter the interpolation sum to one, so no force constant is lost or double counted at gamma.", "quantifier": "all cell shapes, supercell matrices, atom positions", "why_tests_cant": "Which images lie in the Wigner-Seitz cell depends on the geometry; only a proof covers all cells, including strongly skewed ones.", "anchors": ["euphonic/force_constants.py:ForceConstants._calculate_supercell_images", "euphonic/force_constants.py:ForceConstants._calculate_phonons_at_qpts"]}
{"id": "C11", "title": "Mode gradients come from the exact derivative of the dynamical matrix", "statement": "The dynamical matrix gradient used for mode gradients and adaptive broadening is the true derivative of the interpolated dynamical matrix with respect to the Cartesian q-vector, for every q-point and direction.", "quantifier": "all force constants, lattice vectors, q-points and directions", "why_tests_cant": "A derivative is a limit statement over all directions; finite differences only sample it.", "anchors": ["euphonic/force_constants.py:ForceConstants._calculate_dyn_mat", "c/dyn_mat.c:calculate_dyn_mat_at_q"]}
{"id": "C12", "title": "C extension and pure Python compute the same dynamical matrix", "statement": "The Hermitian matrix handed to the eigensolver by the C extension (use_c=True) is the same one the pure-Python code hands to numpy, whatever the number of threads: same short-range part, same gradient, same mass weighting.", "quantifier": "all force constants satisfying the force-constant symmetry, image lists and q-points, all schedules of the per-q loop", "why_tests_cant": "Equality of two implementations with different storage order and summation structure for all inputs and all thread schedules.", "anchors": ["c/dyn_mat.c:calculate_dyn_mat_at_q", "c/dyn_mat.c:mass_weight_dyn_mat", "c/_euphonic.c:calculate_phonons", "euphonic/force_constants.py:ForceConstants._calculate_dyn_mat"]}
{"id": "C13", "title": "C extension and pure Python use the same dielectric determinant", "statement": "The determinant of the dielectric tensor used by the long-range correction is the same in C and in Python, so polar materials give the same frequencies with use_c=True and use_c=False.", "quantifier": "all 3x3 dielectric tensors", "why_tests_cant": "Test materials have diagonal dielectric tensors, for which a sign error in a cofactor is invisible.", "anchors": ["c/util.c:det_array", "c/dyn_mat.c:calculate_dipole_correction", "euphonic/force_constants.py:ForceConstants._calculate_dipole_correction"]}
{"id": "C14", "title": "The C extension is independent of NumPy memory layout and dtype", "statement": "Whatever the memory order (C or Fortran) or numeric dtype of the arrays supplied by the user, every number read by the C extension is the corresponding array element.", "quantifier": "all arrays reaching the C interface, all layouts and dtypes", "why_tests_cant": "The combination of layouts, dtypes and optional attributes is not enumerated by tests.", "anchors": ["euphonic/validate.py:_ensure_contiguous_attrs", "euphonic/validate.py:_ensure_contiguous_args", "euphonic/force_constants.py:ForceConstants._calculate_phonons_at_qpts", "c/_euphonic.c:calculate_phonons"]}
{"id": "C15", "title": "Real-space acoustic sum rule is enforced", "statement": "With asr='realspace', if the acoustic eigenvectors found are real, orthonormal and belong to the three smallest-magnitude eigenvalues of the gamma matrix, the corrected force constants give exactly zero acoustic eigenvalues at gamma and leave the optic ones unchanged; more generally the correction subtracts the acoustic projector contribution only.", "quantifier": "all gamma-point matrices and eigen-decompositions", "why_tests_cant": "Spectral statement for all matrix sizes.", "anchors": ["euphonic/force_constants.py:ForceConstants._enforce_realspace_asr", "euphonic/force_constants.py:ForceConstants._enforce_reciprocal_asr"]}
{"id": "C16", "title": "Repeated calculations do not depend on call history", "statement": "Calling calculate_qpoint_phonon_modes several times on the same ForceConstants object, with any sequence of asr/dipole/dipole_parameter/q-point options, gives each time the result a freshly constructed object would give.", "quantifier": "all finite sequences of calls with all option values", "why_tests_cant": "Histories are unbounded; caches make results depend on earlier calls if invalidation is wrong.", "anchors": ["euphonic/force_constants.py:ForceConstants._calculate_phonons_at_qpts", "euphonic/force_constants.py:ForceConstants._dipole_correction_init"]}
{"id": "C17", "title": "Changing display units never changes the physical value", "statement": "For every object with *_unit attributes, setting the unit to any unit of the right dimension changes only how the value is shown: converting the shown quantity back to a fixed unit gives the same value; an incompatible unit raises an error and leaves the object unchanged; assigning a quantity and reading it back gives the same quantity.", "quantifier": "all stored values, all units, all sequences of unit assignments and value assignments", "why_tests_cant": "Any history of unit changes; unit strings are unbounded.", "anchors": ["euphonic/validate.py:_check_unit_conversion", "euphonic/crystal.py:Crystal.__setattr__", "euphonic/crystal.py:Crystal.cell_vectors", "euphonic/qpoint_frequencies.py:QpointFrequencies.frequencies"]}
{"id": "C18", "title": "Dictionary and JSON serialisation round-trips", "statement": "Writing any Euphonic object with to_json_file and reading it with from_json_file (or to_dict/from_dict) gives an object with the same attributes, including complex arrays, optional attributes and nested crystals.", "quantifier": "all attribute values of any shape, including complex arrays and empty crystals", "why_tests_cant": "Nested arrays of arbitrary depth and content.", "anchors": ["euphonic/io.py:_to_json_dict", "euphonic/io.py:_from_json_dict", "euphonic/io.py:_obj_to_dict", "euphonic/io.py:_process_dict"]}
{"id": "C19", "title": "Constructor validation accepts exactly the documented shapes and types", "statement": "Constructing an object succeeds if and only if every argument has the documented type and, where a shape is documented, the documented shape, with -1 (or alternatives) matching any extent; otherwise a TypeError or ValueError names the first offending argument.", "quantifier": "all argument tuples, all shapes of all ranks", "why_tests_cant": "Shapes and ranks are unbounded.", "anchors": ["euphonic/validate.py:_check_constructor_inputs", "euphonic/validate.py:_replace_dim"]}
{"id": "C20", "title": "DOS integrates to the number of modes in range", "statement": "calculate_dos (no adaptive broadening) is non-negative, and its integral over the bins equals the weight-averaged number of modes per q-point whose frequency lies inside the binned range, so it is 3 (per the documented normalisation) times the fraction in range; modes outside the range never contribute.", "quantifier": "all frequency tables, weights and strictly increasing bin edges", "why_tests_cant": "All data sizes; boundary frequencies equal to bin edges are measure-zero in tests.", "anchors": ["euphonic/qpoint_frequencies.py:QpointFrequencies._calculate_dos"]}
{"id": "C21", "title": "DOS map averages to the DOS", "statement": "The weighted average over q-points of calculate_dos_map equals calculate_dos with the same bins.", "quantifier": "all frequency tables, weights and bins", "why_tests_cant": "Identity for all table sizes and weights.", "anchors": ["euphonic/qpoint_frequencies.py:QpointFrequencies.calculate_dos_map", "euphonic/qpoint_frequencies.py:QpointFrequencies._calculate_dos"]}
{"id": "C22", "title": "Partial densities of states sum to the total", "statement": "For normalised eigenvectors the sum over all atoms (and, grouped, over all species) of the unweighted PDOS equals the total DOS in every bin.", "quantifier": "all eigenvector tables normalised per mode, all bins and weights", "why_tests_cant": "Requires an exact identity over all mode and atom counts.", "anchors": ["euphonic/qpoint_phonon_modes.py:QpointPhononModes.calculate_pdos", "euphonic/spectra.py:SpectrumCollectionMixin.sum", "euphonic/spectra.py:SpectrumCollectionMixin.group_by"]}
{"id": "C23", "title": "Structure factors are non-negative and independent of eigenvector phase", "statement": "calculate_structure_factor returns non-negative values that do not change when any eigenvector is multiplied by a complex number of modulus one, scale as the square of the scattering lengths, and are unchanged by translating all atoms rigidly.", "quantifier": "all q-points, eigenvectors, scattering lengths, phases and rigid translations", "why_tests_cant": "Phases are a continuum and eigensolvers return arbitrary ones.", "anchors": ["euphonic/qpoint_phonon_modes.py:QpointPhononModes.calculate_structure_factor"]}
{"id": "C24", "title": "Structure-factor weights follow the q-point weights", "statement": "The StructureFactor returned for a weighted set of q-points carries the same weights, so powder averages of it use them.", "quantifier": "all weight vectors", "why_tests_cant": "Tests use equal weights.", "anchors": ["euphonic/qpoint_phonon_modes.py:QpointPhononModes.calculate_structure_factor", "euphonic/structure_factor.py:StructureFactor.calculate_1d_average"]}
{"id": "C25", "title": "Debye-Waller matrices are symmetric and positive semi-definite", "statement": "calculate_debye_waller returns for each atom a real 3x3 matrix that is symmetric and positive semi-definite, does not depend on internal chunking, ignores modes below frequency_min, and is finite.", "quantifier": "all mode tables, temperatures >= 0, frequency_min >= 0 and chunk sizes", "why_tests_cant": "Quadratic-form inequality for all vectors, and chunk sizes depend on data size.", "anchors": ["euphonic/qpoint_phonon_modes.py:QpointPhononModes.calculate_debye_waller"]}
{"id": "C26", "title": "Bose-corrected intensities obey detailed balance", "statement": "For each mode with frequency w>0 at temperature T>0, the ratio of the intensity placed at -w to that at +w is exp(-w/kT); at T=0 there is no intensity at negative energy; without a temperature only +w is populated.", "quantifier": "all frequencies, temperatures and structure factors", "why_tests_cant": "Exact functional identity over continuous parameters.", "anchors": ["euphonic/structure_factor.py:StructureFactor._bose_corrected_structure_factor", "euphonic/structure_factor.py:StructureFactor._bose_factor", "euphonic/structure_factor.py:StructureFactor.calculate_sqw_map"]}
{"id": "C27", "title": "S(q,w) maps conserve intensity", "statement": "For each q-point, the integral over energy of the map returned by calculate_sqw_map equals the sum of the (Bose-corrected) intensities of the modes whose (positive or negative) energy lies in the bins, and each mode is in exactly one bin per sign.", "quantifier": "all structure factors, bins and temperatures", "why_tests_cant": "All table sizes and bin positions.", "anchors": ["euphonic/structure_factor.py:StructureFactor.calculate_sqw_map"]}
{"id": "C28", "title": "Reordered modes are a permutation of the originals", "statement": "reorder_frequencies returns at every q-point a permutation of the original modes: no mode is lost or duplicated.", "quantifier": "all eigenvector tables", "why_tests_cant": "Greedy matching with ties/zero overlaps is only exercised by special eigenvectors (symmetric materials).", "anchors": ["euphonic/qpoint_phonon_modes.py:QpointPhononModes.reorder_frequencies"]}
{"id": "C29", "title": "Bin edges and centres are consistent", "statement": "For data given as bin edges the centres returned are the midpoints and the edges are returned unchanged; for data given as centres, the computed edges bracket every centre, there is one more of them, and for regular spacing converting back gives the same centres.", "quantifier": "all strictly increasing axes of any length", "why_tests_cant": "All lengths and irregular spacings.", "anchors": ["euphonic/spectra.py:Spectrum.get_bin_edges", "euphonic/spectra.py:Spectrum.get_bin_centres", "euphonic/spectra.py:Spectrum._bin_centres_to_edges"]}
{"id": "C30", "title": "Splitting a spectrum loses nothing", "statement": "split() cuts a spectrum into consecutive segments whose data, concatenated, are the original data, and every tick label appears in exactly one segment at the same position.", "quantifier": "all spectra, all breakpoint lists, edge- or centre-type axes", "why_tests_cant": "All breakpoint sets, including adjacent and boundary ones.", "anchors": ["euphonic/spectra.py:Spectrum.split", "euphonic/spectra.py:Spectrum._ranges_from_indices", "euphonic/spectra.py:Spectrum._cut_x_ticks"]}
{"id": "C31", "title": "Collection metadata round-trips", "statement": "Building a collection from spectra with arbitrary metadata and reading back the metadata of each element gives the original metadata; the combined metadata is unambiguous.", "quantifier": "all lists of metadata dictionaries, including differing key sets", "why_tests_cant": "Arbitrary key sets and values, any number of spectra.", "anchors": ["euphonic/spectra.py:SpectrumCollectionMixin._combine_metadata", "euphonic/spectra.py:SpectrumCollectionMixin.iter_metadata", "euphonic/spectra.py:SpectrumCollectionMixin._get_item_metadata"]}
{"id": "C32", "title": "Grouping and summing agree", "statement": "group_by(keys) partitions the collection: each spectrum contributes to exactly one group, so the sum over the groups equals the sum of the whole collection, for any keys; select(key=value) returns exactly the spectra whose metadata match, each once and in order.", "quantifier": "all collections, all key tuples, all selections", "why_tests_cant": "Any number of spectra and metadata patterns.", "anchors": ["euphonic/spectra.py:SpectrumCollectionMixin.group_by", "euphonic/spectra.py:SpectrumCollectionMixin.select", "euphonic/spectra.py:SpectrumCollectionMixin.sum"]}
{"id": "C33", "title": "Scaling a spectrum scales its intensities", "statement": "spectrum*c (and spectrum*=c) multiplies the intensity data by c and leaves the axes unchanged, for every spectrum class (1D, 2D, 1D collection, 2D collection).", "quantifier": "all spectra and scalars", "why_tests_cant": "Tests exercise only some classes; the claim is for every class.", "anchors": ["euphonic/spectra.py:Spectrum.__imul__", "euphonic/spectra.py:Spectrum.__mul__", "euphonic/spectra.py:Spectrum2D.__imul__", "euphonic/spectra.py:Spectrum2DCollection"]}
{"id": "C34", "title": "Collection indexing behaves like a Python sequence", "statement": "For a collection of n spectra, col[i] is the i-th spectrum for -n<=i<n, col[a:b] selects the same elements as list slicing, and out-of-range integers raise IndexError.", "quantifier": "all lengths, indices and slices", "why_tests_cant": "All index/length combinations.", "anchors": ["euphonic/spectra.py:SpectrumCollectionMixin.__getitem__", "euphonic/spectra.py:SpectrumCollectionMixin._validate_item"]}
{"id": "C35", "title": "Variable-width broadening conserves spectral weight", "statement": "In the interpolated variable-width broadening each input point with width inside the sampled range contributes its full weight to the histograms that are convolved, split between two neighbouring kernels; no weight is created or lost, for every adaptive_error accepted.", "quantifier": "all sample positions, widths, weights and spacing factors", "why_tests_cant": "Weight bookkeeping carried between loop iterations for any number of kernels.", "anchors": ["euphonic/broadening.py:_width_interpolated_broadening"]}
{"id": "C36", "title": "adaptive_error controls the kernel spacing for both shapes", "statement": "Asking for a smaller adaptive_error yields a finer width spacing, for Gaussian and for Lorentzian kernels.", "quantifier": "all pairs of error values in the accepted range", "why_tests_cant": "Continuous parameter; tests only compare spectra at one or two errors.", "anchors": ["euphonic/broadening.py:_get_spacing"]}
{"id": "C37", "title": "Kinematic constraints keep exactly the accessible region", "statement": "apply_kinematic_constraints keeps a (q, energy) cell if and only if some scattering angle in the requested range satisfies momentum and energy conservation at one of its bounding edges as documented; everything else becomes NaN and kept values are unchanged.", "quantifier": "all incident/final energies, angle ranges and bins", "why_tests_cant": "Angles, energies and bins are continuous; the extremes of cos over a range depend on turning points.", "anchors": ["euphonic/spectra.py:apply_kinematic_constraints", "euphonic/spectra.py:_get_cos_range"]}
{"id": "C38", "title": "Sphere sampling stays on the unit sphere with the requested number of points", "statement": "Every sampling function returns points with x^2+y^2+z^2=1 and the promised number of points, for every npts it accepts; powder sampling with a grid method uses at least npts points and the fewest points with the prescribed aspect.", "quantifier": "all npts and all jitter values", "why_tests_cant": "All npts, random jitter values.", "anchors": ["euphonic/sampling.py:golden_sphere", "euphonic/sampling.py:spherical_polar_improved", "euphonic/sampling.py:spherical_polar_grid", "euphonic/powder.py:_get_qpts_sphere", "euphonic/powder.py:_check_gridpts"]}
{"id": "C39", "title": "Square sampling stays in the unit square", "statement": "golden_square, regular_square and recurrence_sequence return npts points with both coordinates in [0,1), with and without jitter.", "quantifier": "all npts, offsets and jitter values", "why_tests_cant": "All npts and random jitter values.", "anchors": ["euphonic/sampling.py:golden_square", "euphonic/sampling.py:regular_square", "euphonic/sampling.py:recurrence_sequence"]}
{"id": "C40", "title": "Dispersion abscissa is monotone and consistent with distances", "statement": "The x-axis of a dispersion starts at 0, never decreases, increases by the Cartesian distance between consecutive q-points except that reciprocal-lattice-equivalent neighbours contribute no gap.", "quantifier": "all lists of q-points and cells", "why_tests_cant": "All paths.", "anchors": ["euphonic/util.py:_calc_abscissa"]}
{"id": "C41", "title": "Tick labels mark the ends and all direction changes", "statement": "The q-point labels produced for a path always include the first and the last q-point, are strictly increasing in position, and include every q-point where the direction changes.", "quantifier": "all q-point paths", "why_tests_cant": "All paths.", "anchors": ["euphonic/util.py:get_qpoint_labels", "euphonic/util.py:_recip_space_labels", "euphonic/util.py:direction_changed"]}
{"id": "C42", "title": "Species index partitions the atoms", "statement": "get_species_idx returns each species once in order of first appearance, and the index arrays partition 0..n_atoms-1: index i is listed under species s if and only if atom i is of species s, in increasing order.", "quantifier": "all atom type lists", "why_tests_cant": "Arbitrary atom lists.", "anchors": ["euphonic/crystal.py:Crystal.get_species_idx", "euphonic/util.py:_get_unique_elems_and_idx"]}
{"id": "C43", "title": "Symmetry-equivalent atom maps are sound", "statement": "When get_symmetry_equivalent_atoms returns, for every operation s and atom i the reported atom has the same species and lies within tol (modulo lattice vectors) of the transformed atom i; if no atom or more than one atom qualifies an error is raised.", "quantifier": "all crystals and all operation lists returned by the symmetry finder", "why_tests_cant": "Arbitrary structures and operations.", "anchors": ["euphonic/crystal.py:Crystal.get_symmetry_equivalent_atoms"]}
{"id": "C44", "title": "Supercell-to-unit-cell index search is exact and chunk independent", "statement": "Re-indexing of Phonopy force constants finds for each supercell atom the first unit-cell copy equivalent to it modulo the supercell, independent of chunk size, whenever one exists.", "quantifier": "all supercells, all numbers of cells (crossing the chunk boundary or not)", "why_tests_cant": "The chunked search only matters for large supercells.", "anchors": ["euphonic/util.py:_get_supercell_relative_idx", "euphonic/util.py:convert_fc_phases"]}
{"id": "C45", "title": "Phonopy eigenvector phase conversion preserves physics", "statement": "Converting Phonopy eigenvectors to the Euphonic phase convention multiplies each atom's component by a unit-modulus phase: norms, per-atom moduli and orthogonality are preserved, and the structure factor computed afterwards uses the documented convention.", "quantifier": "all eigenvectors, q-points, atom positions", "why_tests_cant": "Continuous parameters.", "anchors": ["euphonic/readers/phonopy.py:convert_eigenvector_phases"]}
{"id": "C46", "title": "Imported q-point weights are normalised", "statement": "Weights read from Phonopy files sum to one and are proportional to the file's integer weights; weights of q-points repeated in a CASTEP file (LO-TO split gammas) are shared so that the total weight is preserved.", "quantifier": "all weight lists and repetition patterns", "why_tests_cant": "Arbitrary files.", "anchors": ["euphonic/readers/phonopy.py:_convert_weights", "euphonic/readers/castep.py:read_phonon_data"]}
{"id": "C47", "title": "Fortran record reader is exact and detects corruption", "statement": "Reading a sequential unformatted Fortran file written with 4-byte big-endian record markers returns exactly the payload of every record in order; a mismatch between the begin and end markers raises an IO error and the end of file is reported as end of file.", "quantifier": "all record sequences and payloads", "why_tests_cant": "All byte strings.", "anchors": ["euphonic/readers/castep.py:_read_entry"]}
{"id": "C48", "title": "Truncated CASTEP phonon files are not silently accepted", "statement": "If a .phonon file contains fewer q-point blocks than its header announces, reading raises an error rather than returning q-points that are not in the file.", "quantifier": "all files, all truncation points", "why_tests_cant": "Truncation can happen at any byte.", "anchors": ["euphonic/readers/castep.py:read_phonon_data"]}
{"id": "C49", "title": "Mode widths are non-negative", "statement": "mode_gradients_to_widths returns non-negative widths for every gradient and every cell.", "quantifier": "all mode gradients and cells (either handedness)", "why_tests_cant": "Cells in tests are right-handed.", "anchors": ["euphonic/util.py:mode_gradients_to_widths", "euphonic/util.py:_cell_vectors_to_volume"]}
{"id": "C50", "title": "Plot break points agree with the abscissa", "statement": "The CLI inserts gamma points only where a path crosses or ends at a break, keeps every other q-point, and the split positions and tick labels refer to the same q-points.", "quantifier": "all paths", "why_tests_cant": "All paths.", "anchors": ["euphonic/cli/utils.py:_insert_gamma", "euphonic/cli/utils.py:_get_break_points", "euphonic/cli/utils.py:_get_tick_labels"]}
{"id": "C51", "title": "Total and short-range force constants are inverse views", "statement": "ForceConstants.from_total_fc_with_dipole subtracts exactly the long-range dipole part that interpolation adds back at the supercell-commensurate q-points, for any units of the supplied dielectric and Born charges.", "quantifier": "all force constants, units of inputs", "why_tests_cant": "All unit choices.", "anchors": ["euphonic/force_constants.py:ForceConstants.from_total_fc_with_dipole"]}
{"id": "C52", "title": "Invalid combinations of Born charges and dielectric are rejected clearly", "statement": "A ForceConstants object either has both Born charges and dielectric tensor or neither; supplying exactly one gives a documented error or is handled, never an object in an inconsistent state.", "quantifier": "all combinations of optional inputs", "why_tests_cant": "Combinations reach through readers (CASTEP files with only one block).", "anchors": ["euphonic/force_constants.py:ForceConstants.__init__", "euphonic/readers/castep.py:read_interpolation_data"]}
{"id": "C53", "title": "The dipole correction sums real-space images for every polar crystal", "statement": "When Born charges and a dielectric tensor are given, the Ewald sum behind the dipole correction contains its real-space part: the home cell and successive shells of neighbouring cells are included until their terms are negligible, whatever the number of atoms.", "quantifier": "all cells, atom positions, Born charges, dielectric tensors and dipole_parameter values", "why_tests_cant": "The cutoff is decided by the data; test crystals all have several atoms and a converged default dipole_parameter.", "anchors": ["euphonic/force_constants.py:ForceConstants._dipole_correction_init", "euphonic/force_constants.py:ForceConstants._calculate_dipole_correction"]}
{"id": "C54", "title": "Tick labels name the right point", "statement": "A label printed for a labelled q-point names a high-symmetry point with the same coordinates modulo reciprocal lattice vectors, every q-point accepted as gamma is labelled gamma, and every listed point is recognised at its own coordinates.", "quantifier": "all q-points and all tables of high-symmetry points", "why_tests_cant": "The tests use cubic-like tables and exact coordinates; the coordinate-rolling fallback, rounding noise and negative table entries occur only for other lattices.", "anchors": ["euphonic/util.py:_get_qpt_label", "euphonic/util.py:get_qpoint_labels"]}
{"id": "C55", "title": "Default energy bins cover every mode", "statement": "The energy bins chosen by the command line tools when no limits are given are strictly increasing and contain every mode frequency.", "quantifier": "all frequency tables, including imaginary (negative) frequencies, and all bin counts of at least 2", "why_tests_cant": "Tests use stable crystals with positive frequencies.", "anchors": ["euphonic/cli/utils.py:_get_energy_bins"]}
{"id": "C56", "title": "Fast broadening with one width draws the exact kernel", "statement": "When every point has the same width, the fast (interpolated) broadening method puts, in every bin, exactly the sum over the points of weight times the broadening kernel evaluated at the distance between the two bins.", "quantifier": "all bin counts, point sets, widths, kernel shapes and accepted error targets", "why_tests_cant": "Regression data compare one spectrum; truncation of the kernel depends on the number of bins and the position of the point.", "anchors": ["euphonic/broadening.py:_width_interpolated_broadening"]}
{"id": "C57", "title": "Symmetrised Debye-Waller matrices have the symmetry of the crystal", "statement": "With symmetrise=True, calculate_debye_waller returns matrices such that, for every operation of the space group, the matrix of the image of an atom is the rotation of the matrix of that atom.", "quantifier": "all mode tables, temperatures, cells, and space groups (any finite set of operations closed under composition that permutes the atoms)", "why_tests_cant": "Tests compare a few crystals to stored numbers; the invariance must hold for every space group.", "anchors": ["euphonic/qpoint_phonon_modes.py:QpointPhononModes.calculate_debye_waller", "euphonic/crystal.py:Crystal.get_symmetry_equivalent_atoms"]}
{"id": "C58", "title": "Adding spectra and collections", "statement": "spectrum + spectrum has the sum of the intensities on the common axes with the metadata entries both have; collection + collection holds the spectra of the first followed by those of the second, each with its own metadata; spectra on different axes are refused.", "quantifier": "all spectra and collections, axes, tick labels and metadata", "why_tests_cant": "Tests add a few spectra; metadata merging and the axis comparison must be right for every combination of keys and for axes of every magnitude.", "anchors": ["euphonic/spectra.py:Spectrum1D.__add__", "euphonic/spectra.py:SpectrumCollectionMixin.__add__", "euphonic/spectra.py:Spectrum1DCollection.from_spectra"]}
{"id": "C59", "title": "A collection holds the values its spectra show", "statement": "Spectrum1DCollection.from_spectra and Spectrum2DCollection.from_spectra give, for every spectrum, the intensity values that spectrum shows in the common shown unit, also after the displayed units of the spectra were changed.", "quantifier": "all numbers of spectra, values, stored and displayed units", "why_tests_cant": "Tests build collections from freshly made spectra; the claim covers every history of unit changes.", "anchors": ["euphonic/spectra.py:Spectrum1DCollection.from_spectra", "euphonic/spectra.py:Spectrum2DCollection.from_spectra"]}
{"id": "C60", "title": "Sphere samples are spread evenly over the area", "statement": "For every sphere sampling method the number of samples above any height is that cap's share of the sphere's area times the number of samples, up to the granularity of the method, and 'latitude' lines are evenly spaced in z where the documentation says so.", "quantifier": "all npts, grid sizes and heights", "why_tests_cant": "A powder average is biased by uneven samples at every grid size; tests compare stored results for a few sizes.", "anchors": ["euphonic/sampling.py:golden_sphere", "euphonic/sampling.py:sphere_from_square_grid", "euphonic/sampling.py:spherical_polar_grid", "euphonic/sampling.py:spherical_polar_improved"]}
{"id": "C61", "title": "Powder q-points have the requested length", "statement": "The fractional q-points used by sample_sphere_dos, sample_sphere_pdos and sample_sphere_structure_factor correspond to Cartesian vectors of length mod_q, one for every sampled direction, for every crystal cell.", "quantifier": "all cells (also triclinic), radii, methods and numbers of points", "why_tests_cant": "A transposed lattice is invisible for orthogonal or symmetric cells.", "anchors": ["euphonic/powder.py:_qpts_cart_to_frac", "euphonic/powder.py:sample_sphere_dos", "euphonic/powder.py:sample_sphere_structure_factor"]}
{"id": "C62", "title": "Default powder energy bins hold every mode", "statement": "If energy_bins is not given, the powder functions use increasing bin edges from zero such that every mode with non-negative energy lies in a bin.", "quantifier": "all sets of frequencies and numbers of bins", "why_tests_cant": "All frequency sets, including all-imaginary ones.", "anchors": ["euphonic/powder.py:_get_default_bins"]}
{"id": "C63", "title": "CASTEP binary files are read exactly", "statement": "Reading a .castep_bin/.check file returns exactly the quantities CASTEP wrote: cell vectors, atom positions (brought into the cell), masses and types in the file's species order, supercell matrix, cell origins, every force constant at its (cell, i, j) place, Born charges of each atom and the dielectric tensor, whatever the order of the blocks and whatever other records are in between; a file cut anywhere before its END record is refused.", "quantifier": "all file contents, block orders, unrelated records and cut positions", "why_tests_cant": "Sample files exercise one layout; column-major index mistakes vanish for symmetric matrices and single-species cells.", "anchors": ["euphonic/readers/castep.py:read_interpolation_data", "euphonic/readers/castep.py:_read_cell", "euphonic/readers/castep.py:_read_entry"]}
{"id": "C64", "title": "Assigning new data to an object takes effect", "statement": "Assigning new force constants, Born charges or a dielectric tensor to a ForceConstants object makes every later calculation give what a new object built with those values would give.", "quantifier": "all values assigned, after any earlier calculations", "why_tests_cant": "Whether kept intermediate results go stale depends on the history of calls and assignments.", "anchors": ["euphonic/force_constants.py:ForceConstants.force_constants", "euphonic/force_constants.py:ForceConstants._calculate_phonons_at_qpts"]}
{"id": "C65", "title": "Returned modes are the eigenmodes of the interpolated dynamical matrix", "statement": "Without an acoustic sum rule correction, calculate_qpoint_phonon_modes returns at every requested (and inserted) q-point, whatever reduction of equivalent q-points or earlier calls took place, a full orthonormal set of eigenvectors of the mass-weighted Fourier-interpolated dynamical matrix (with the dipole and direction-of-approach parts when asked for), each with the signed square root of its eigenvalue as frequency; it raises only for a wrong number of weights, a supercell that lacks a cell, or an eigensolver that does not converge.", "quantifier": "all force constants, masses, Born charges, dielectric tensors, q-point lists, options and call histories", "why_tests_cant": "Reference data cover a few crystals and q-point lists; reduction, splitting, insertion and caching interact.", "anchors": ["euphonic/force_constants.py:ForceConstants.calculate_qpoint_phonon_modes", "euphonic/force_constants.py:ForceConstants._calculate_phonons_at_qpts", "euphonic/force_constants.py:ForceConstants._calculate_phonons_at_q"]}
{"id": "C66", "title": "Every number in a reference data file is available", "statement": "get_reference_data(collection, physical_property) returns, for every element whose entry in the file is a number (or a complex number), exactly that number in the file's unit, and nothing else; in particular every element with a number in the data files shipped with Euphonic can be looked up, so that neutron-weighted densities of states can be computed for any crystal made of tabulated elements. Unknown collections and properties are reported as errors.", "quantifier": "every reference data file (bundled or the user's own), every physical property and every element", "why_tests_cant": "Tests look up a few elements; whether a value survives depends on how each of the hundreds of numbers in a file happens to be written (39 or 39.0).", "anchors": ["euphonic/util.py:get_reference_data", "euphonic/util.py:_get_unit_conversion", "euphonic/data/bluebook.json", "euphonic/data/sears-1992.json"]}
{"id": "C67", "title": "Phonopy force constants end up on the right pair of atoms", "statement": "ForceConstants.from_phonopy attaches every force constant in the Phonopy files, between a primitive-cell atom and any atom of the supercell, to a pair of atoms of the returned crystal and a cell origin such that their separation equals (up to the position tolerance and a supercell translation) the separation of the two atoms in the file; the returned supercell matrix turns primitive into supercell vectors, there is one origin per cell and no two are equivalent.", "quantifier": "every Phonopy summary file: all cells, atoms, coordinates, primitive and supercell matrices, full and compact force constants", "why_tests_cant": "Tests read a handful of files, all with coordinates inside [0,1) and symmetric supercell matrices.", "anchors": ["euphonic/readers/phonopy.py:read_interpolation_data", "euphonic/readers/phonopy.py:_extract_summary", "euphonic/readers/phonopy.py:_extract_crystal_data", "euphonic/util.py:convert_fc_phases"]}
{"id": "C68", "title": "Phonopy's Born charges and dielectric tensor give Phonopy's non-analytical term in any units", "statement": "Whatever length, force-constant, Born-charge and dielectric units the Phonopy file uses and the caller asks for, the returned Born charges, dielectric tensor and cell reproduce the non-analytical correction that Phonopy computes from the file with its conversion factor.", "quantifier": "all unit systems, conversion factors, charges, dielectric tensors, cells and directions", "why_tests_cant": "Tests cover the default units of a few calculators.", "anchors": ["euphonic/readers/phonopy.py:read_interpolation_data", "euphonic/readers/phonopy.py:_extract_born"]}
{"id": "C69", "title": "The force constants file is read in the format its name or fc_format says", "statement": "Force constants in the summary file are used when present; otherwise the file given is read as HDF5 if fc_format is 'hdf5' or if fc_format is not given and the name ends in .hdf5, .hd5 or .h5, as text if fc_format is 'phonopy' or not given with another name, and any other fc_format is an error.", "quantifier": "every file name and every value of fc_format", "why_tests_cant": "Tests use two file names.", "anchors": ["euphonic/readers/phonopy.py:read_interpolation_data"]}
{"id": "C70", "title": "Born charges come from the summary file unless it has none", "statement": "Born charges, dielectric tensor and conversion factor in the summary file take priority, the BORN file is used only if Born charges cannot be found there, the conversion factor may come from either, a missing factor is an error, and Born charges are never returned without a dielectric tensor.", "quantifier": "every combination of data present in the summary file and in the BORN file", "why_tests_cant": "The cases depend on which of several optional entries are present in two files; tests use complete ones.", "anchors": ["euphonic/readers/phonopy.py:read_interpolation_data", "euphonic/readers/phonopy.py:_extract_born"]}
{"id": "C71", "title": "FORCE_CONSTANTS files are read back exactly or refused", "statement": "A FORCE_CONSTANTS text file in full or compact format is read back number by number; a file that ends after any earlier line, or whose shape does not match the crystal, is refused.", "quantifier": "all numbers of atoms and cells, both formats, all values, every line at which the file may end", "why_tests_cant": "Tests read complete files of a few sizes.", "anchors": ["euphonic/readers/phonopy.py:_extract_force_constants", "euphonic/readers/phonopy.py:_check_fc_shape"]}
{"id": "C72", "title": "A CASTEP .phonon_dos file is read back column by column", "statement": "From a complete .phonon_dos file the reader returns the q-points, weights, frequencies and mode gradients in file order, the frequency bins, the total DOS and for each species the column of that species (species in order of first appearance in the atom list), all in the units asked for; areas under the curves do not depend on the unit; Spectrum1D.from_castep_phonon_dos gives the total or the element asked for and an error for an element that is not in the crystal, and the collection lists the total and then every species with its label.", "quantifier": "all crystals, numbers of atoms, species, branches, q-points and bins, all values and units", "why_tests_cant": "Tests read two files; the mapping from columns to species depends on the order of atoms.", "anchors": ["euphonic/readers/castep.py:read_phonon_dos_data", "euphonic/spectra.py:Spectrum1D.from_castep_phonon_dos", "euphonic/spectra.py:Spectrum1DCollection.from_castep_phonon_dos"]}
{"id": "C73", "title": "An incomplete .phonon_dos file is refused", "statement": "A .phonon_dos file that ends early, whose table does not have the announced number of bins, or whose rows do not have a column for each species is refused; a complete file is accepted whatever its number of bins.", "quantifier": "every line at which the file may end, all numbers of bins, species and columns", "why_tests_cant": "Tests read complete files only.", "anchors": ["euphonic/readers/castep.py:read_phonon_dos_data"]}
{"id": "C74", "title": "Modes read from any Phonopy file are the modes Phonopy computed", "statement": "Whatever file Phonopy's modes are read from (mesh, band or qpoints; YAML or HDF5), the q-points, frequencies and weights are those of the file, and the eigenvector returned for a mode is that mode's eigenvector up to the change of phase convention, so that it is an eigenvector of the dynamical matrix.", "quantifier": "all numbers of q-points and atoms, all frequencies and eigenvectors, all file kinds", "why_tests_cant": "Tests compare frequencies only, because eigenvectors of degenerate modes are not unique, and have one expected result per file made by the reader itself.", "anchors": ["euphonic/readers/phonopy.py:read_phonon_data", "euphonic/readers/phonopy.py:_extract_phonon_data_hdf5", "euphonic/readers/phonopy.py:_extract_phonon_data_yaml"]}
{"id": "C75", "title": "Phonopy modes are read in the right format with the right crystal", "statement": "The format of a Phonopy file of modes is the one given or that of its extension, other formats are an error; the crystal in the file takes priority over the one in the summary file; lengths and masses are converted from the units they are in; files without eigenvectors and summary files of another number of atoms are refused.", "quantifier": "all file names and formats, all crystals and units", "why_tests_cant": "The cases depend on which entries two files have and on their units; tests use files in angstrom.", "anchors": ["euphonic/readers/phonopy.py:read_phonon_data", "euphonic/readers/phonopy.py:_extract_summary"]}
{"id": "C76", "title": "Fixed-width broadening draws the requested kernel", "statement": "Broadening a 1D spectrum, or each line of a 1D collection, with a fixed width shares every value out among its neighbours: the shares are non-negative, symmetric, sum to the whole, and follow a Gaussian or Lorentzian whose full width at half maximum is the width asked for, in the units of the axis. The sum of non-negative data never grows, and is kept when the data vanish near the ends. Width zero changes nothing. Unevenly spaced bins are refused unless convolution is requested by name, which warns.", "quantifier": "every evenly spaced axis (points or edges) of at least two values, every data array, every positive width, both shapes, every method argument", "why_tests_cant": "tests compare one stored array; the relation between the requested and the drawn width depends on the number of bins and on the spacing, and zero widths, descending axes and very fine axes are separate branches", "anchors": ["euphonic/spectra.py:Spectrum._broaden_data", "euphonic/spectra.py:Spectrum._gfwhm_to_sigma", "euphonic/spectra.py:_distribution_1d", "euphonic/spectra.py:_get_dist_bins", "euphonic/spectra.py:Spectrum1D.broaden", "euphonic/spectra.py:Spectrum1DCollection.broaden"]}
{"id": "C77", "title": "Broadening a map returns a new map broadened along the axes asked for", "statement": "Spectrum2D.broaden returns a new object whose intensities are those of the original broadened along x and y independently with the given fixed widths or width functions, fixed widths first; an axis without a width is left as it is, both axes are kept, and changing the result in place never changes the original.", "quantifier": "every map with evenly spaced axes given as edges or points, every combination of absent, fixed and function widths, every later in-place scaling of the result", "why_tests_cant": "object identity after the call, the order of the stages and the different treatment of point and edge axes are not visible in comparisons of single arrays", "anchors": ["euphonic/spectra.py:Spectrum2D.broaden", "euphonic/spectra.py:Spectrum2D._broaden_spectrum2d_with_function", "euphonic/broadening.py:variable_width_broadening"]}
{"id": "C78", "title": "The lines of a PDOS plot are sums over the atoms they are named after", "statement": "euphonic-dos and the other command line tools draw, without --pdos, the sum over all atoms; with --pdos and no names a line Total followed by one line per species in order of first appearance; with names one line for each of them that occurs, in the order of the request. Each line is the sum of the PDOS of exactly the atoms of its species and carries that label. A request without any occurring species is an error.", "quantifier": "every crystal with at least one atom, every set of per-atom PDOS lines, every list of names, every weighting", "why_tests_cant": "test crystals have a fixed list of atoms; the grouping must be right for every arrangement of species, including a single species, repeated names and names that do not occur", "anchors": ["euphonic/cli/utils.py:_arrange_pdos_groups", "euphonic/cli/dos.py:main", "euphonic/qpoint_phonon_modes.py:QpointPhononModes.calculate_pdos"]}
{"id": "C79", "title": "The options of euphonic-dos mean what their help says", "statement": "Without broadening options the line counts modes per bin, times --scale. --instrument-broadening W is a full width at half maximum in the energy unit of the plot, on its own and combined with --adaptive; --adaptive draws each mode as a Gaussian of its own width times --adaptive-scale, combined in quadrature with the instrument's polynomial; --energy-broadening stands for the one or the other and is refused together with it.", "quantifier": "every command line, every loaded data set, every energy unit", "why_tests_cant": "tests compare stored plots for a few command lines, so a width used as the wrong measure, or a zero that is ignored, is stored as the expected result", "anchors": ["euphonic/cli/dos.py:main", "euphonic/cli/utils.py:_get_cli_parser", "euphonic/cli/utils.py:_get_energy_bins", "euphonic/cli/utils.py:_grid_spec_from_args"]}
{"id": "C80", "title": "A powder map has the requested axes, averages each row over a sphere of the right |q|, and its options only do what they say", "statement": "euphonic-powder-map divides --q-min..--q-max into the fewest equal bins not wider than --q-spacing; each row is sampled at the middle |q| of its bin with --npts points (or the density rule kept within --npts-min and --npts-max); for --weighting dos it is the mean number of modes per energy bin over those points; the energy axis covers the modes that are sampled unless limited by the user; broadening spreads the unbroadened map; --e-i/--e-f only blank entries no detector sees.", "quantifier": "every command line of the tool, every set of force constants, every sampling method and random draw", "why_tests_cant": "tests compare stored maps of two crystals at a few |q| values; whether the range estimated from one q-point covers the modes depends on the crystal", "anchors": ["euphonic/cli/powder_map.py:main", "euphonic/cli/powder_map.py:_get_broaden_kwargs", "euphonic/powder.py:sample_sphere_dos", "euphonic/cli/utils.py:_get_energy_bins"]}
{"id": "C81", "title": "The tools load the kind of data the file holds", "statement": "Given a file, the command line tools load the data that file holds, as the class it belongs to: .phonon gives phonon modes (frequencies only if only those are asked for), .castep_bin and .check give force constants, a .json file gives the Euphonic object that was written to it, a Phonopy .yaml or .hdf5 file gives modes (frequencies if it has no eigenvectors) or else force constants completed by the files beside it; a file with no known extension, a .json of another kind of object, and force constants without their summary file are refused.", "quantifier": "all paths and names, all directory contents, all modes, frequencies and force constants, with and without the frequencies-only request", "why_tests_cant": "the choice depends on the name, the contents and the neighbouring files together; tests name one file of each kind in a directory of its own and so never see one file shadow another", "anchors": ["euphonic/cli/utils.py:load_data_from_file", "euphonic/cli/utils.py:_load_phonopy_file", "euphonic/cli/utils.py:_load_euphonic_json"]}
{"id": "C82", "title": "Interpolating with Brille agrees with the force constants at the points of its grid, and its options mean what they say", "statement": "A BrilleInterpolator made from force constants gives, at every q-point of its grid, the frequencies and eigenvectors the force constants give there with the same keyword arguments (insert_gamma and reduce_qpts do not matter); grid_npts is the approximate number of grid points and grid_density their number per cubic inverse angstrom, whatever units the crystal is displayed in; an unknown grid type is refused; the caller's arguments are left as they were.", "quantifier": "all force constants, grid types, densities, keyword arguments and q-points, for every Brille grid and every interpolation that is exact on its own points", "why_tests_cant": "tests mock Brille or compare stored results for two crystals in their default units; they never change the display unit or reuse the keyword arguments", "anchors": ["euphonic/brille.py:BrilleInterpolator.from_force_constants", "euphonic/brille.py:BrilleInterpolator.calculate_qpoint_phonon_modes", "euphonic/crystal.py:Crystal.to_spglib_cell"]}
{"id": "C83", "title": "The intensity map tool draws the requested map", "statement": "euphonic-intensity-map draws, for every q-point of the path, the density of states (or structure factor) of its modes on evenly spaced energy bins over --e-min to --e-max, by default covering all modes; --scale multiplies every intensity; --q-broadening and --energy-broadening broaden along the two axes by the requested widths, several energy values being the coefficients of a polynomial in energy; the map is divided into regions where the path has a break, and the regions do not influence each other; combinations it cannot do are refused.", "quantifier": "all force constants, modes or frequencies, paths and options", "why_tests_cant": "tests compare the plotted data of a few command lines with stored data made by the same code, with at most one broadening value and no check at the breaks", "anchors": ["euphonic/cli/intensity_map.py:main", "euphonic/cli/utils.py:_get_energy_bins", "euphonic/cli/utils.py:_get_break_points", "euphonic/spectra.py:Spectrum2D.broaden", "euphonic/spectra.py:Spectrum.split"]}
{"id": "C84", "title": "euphonic-dispersion draws the modes along the path it was asked for", "statement": "From force constants euphonic-dispersion draws the frequencies of the modes along the path seekpath gives for the crystal, sampled with the requested --q-spacing whatever units the crystal is displayed in; the x axis is the distance along the path, the labels are at the points they name, the path is divided into regions where it has a break, and at a gamma point each side of it shows the limit along its own piece of the path (LO-TO splitting). Modes or frequencies from a file are drawn as they are, divided into regions at steps larger than --btol times the median step. --reorder changes only the order of the bands at a q-point. A spacing in an unknown unit and --reorder without eigenvectors are refused.", "quantifier": "all force constants, modes or frequencies, every path seekpath can give, all options, every eigensolver that solves", "why_tests_cant": "tests compare the plotted lines of a few command lines with stored ones for crystals in their default units, made by the same code", "anchors": ["euphonic/cli/dispersion.py:main", "euphonic/cli/utils.py:_bands_from_force_constants", "euphonic/cli/utils.py:_insert_gamma", "euphonic/cli/utils.py:_get_q_distance", "euphonic/qpoint_frequencies.py:QpointFrequencies.get_dispersion"]}
{"id": "C85", "title": "Powder averages are averages over the sphere of the momentum transfer", "statement": "sample_sphere_structure_factor, sample_sphere_dos and sample_sphere_pdos at |q| = Q evaluate the modes at points that all have length Q in the crystal's reciprocal lattice, as many as the sampling gives, and return, bin by bin, the weighted average over these points of what the modes scatter into the bin (with the Debye-Waller factor and Bose factor of the one temperature in use), of the number of modes in the bin, or of each atom's share of them; the partial densities of all atoms sum to the total. A Debye-Waller factor of another temperature than the one asked for is refused. Default energy bins contain every mode.", "quantifier": "all crystals with a proper cell, all Q, samplings, numbers of points, jitter, temperatures, bins, and every outcome of the modes calculation", "why_tests_cant": "tests compare a few averages on one crystal with stored ones, mocking the calculation of modes; none ranges over crystals and samplings", "anchors": ["euphonic/powder.py:sample_sphere_structure_factor", "euphonic/powder.py:sample_sphere_dos", "euphonic/powder.py:sample_sphere_pdos", "euphonic/cli/utils.py:_get_debye_waller"]}
{"id": "C86", "title": "Plots show every value at its place and on a common scale", "statement": "plot_1d draws each line of a spectrum in pieces that together hold all its points at the bin centres, starting a new piece wherever two x values in a row are the same, with one colour and one legend entry per line; the frame spans the x axis and the ticks stand at the x values they name. plot_2d draws the value for x number i and y number j in column i and row j. Given several spectra, there is one subplot for each, as wide as its x axis is long; 1-D plots in different units are refused, and all 2-D maps share one colour scale, the limits asked for or the least and greatest intensity of all of them, so that equal intensities get equal colours. What can be plotted as a whole can also be plotted divided into regions.", "quantifier": "all spectra and collections, point or edge axes, tick labels, line labels, numbers of regions, units, NaN gaps", "why_tests_cant": "tests compare figures of a few stored spectra, all in one unit, with stored coordinates", "anchors": ["euphonic/plot.py:plot_1d", "euphonic/plot.py:plot_1d_to_axis", "euphonic/plot.py:plot_2d", "euphonic/plot.py:plot_2d_to_axis", "euphonic/plot.py:_set_x_tick_labels"]}
{"id": "C87", "title": "Text files hold every value of a spectrum in the column the header names", "statement": "Spectrum1D.to_text_file and Spectrum1DCollection.to_text_file write one row for each value of the x axis and one column for each line after the first; the header names the units and, for each line, its column and the metadata that is its own, which together with the common metadata of the header is the metadata of the line. The first column is where the values are.", "quantifier": "all spectra and collections with point or edge axes, all metadata, all units", "why_tests_cant": "tests compare a few written files with stored ones, none of which has metadata in every combination of common and own", "anchors": ["euphonic/spectra.py:Spectrum1D.to_text_file", "euphonic/spectra.py:Spectrum1DCollection.to_text_file"]}
{"id": "C88", "title": "The suggested dipole parameter is the fastest of those asked for, timed without set-up", "statement": "euphonic-optimise-dipole-parameter tests the parameters from the minimum in equal steps up to the maximum, times one calculation of one q-point that sets up the Ewald sum and one of n q-points that does not, and suggests the parameter with the least time per q-point, returning its own times; a step of zero, a range without values, a number of q-points that is not positive and a file without force constants are refused.", "quantifier": "all ranges, steps, numbers of q-points, force constants, calculation options and all readings of the clock", "why_tests_cant": "what is timed depends on what earlier calculations left on the object; tests run a few ranges and cannot fix the clock", "anchors": ["euphonic/cli/optimise_dipole_parameter.py:calculate_optimum_dipole_parameter"]}
{"id": "C89", "title": "The sampling tool draws the points the powder functions use", "statement": "euphonic-show-sampling draws, for every sampling it offers, the requested number of points, or for grids the least number of grid points that is enough, which a message then names; the points lie in the unit square or cube or on the unit sphere, and for the sphere they are the directions the powder functions use. --jitter displaces them. Other names and numbers of points that are not positive are refused.", "quantifier": "all integers npts, all sampling names, with and without jitter, all random numbers", "why_tests_cant": "tests draw a few small samplings and compare stored coordinates", "anchors": ["euphonic/cli/show_sampling.py:main"]}
{"id": "C90", "title": "Acoustic modes at gamma", "statement": "If the force constants obey the acoustic sum rule, calculate_qpoint_phonon_modes at gamma returns three modes of frequency zero, and every other mode leaves the centre of mass of the cell at rest; this holds with asr=None and asr='realspace', after any earlier calls, with and without Born charges, dipole part and LO-TO splitting.", "quantifier": "all crystals with force constants obeying the sum rule, all masses, Born charges, dielectric tensors, histories of calls, options and q-points that are gamma", "why_tests_cant": "tests compare frequencies of stored materials within loose tolerances at gamma", "anchors": ["euphonic/force_constants.py:ForceConstants.calculate_qpoint_phonon_modes", "euphonic/force_constants.py:ForceConstants._calculate_phonons_at_q", "euphonic/force_constants.py:ForceConstants._dipole_correction_init", "euphonic/force_constants.py:ForceConstants._calculate_gamma_correction"]}
{"id": "C91", "title": "Grids and reduced q-points are right in double precision", "statement": "mp_grid returns distinct double precision points, each the double nearest to its exact position, closed under negation to the last bit, inside the first zone, with the gamma point in it exactly if all divisions are odd; reducing a q-point to the first zone is free of rounding error in Python and in C, so q-points that differ by a reciprocal lattice vector are treated alike; the gamma tests of Python and C agree on every q-point and accept what is within 1e-15 of a reciprocal lattice vector.", "quantifier": "all grid divisions below 2^52 (2^48 for gamma points), all q-points whose coordinates are finite doubles", "why_tests_cant": "rounding errors depend on every bit of the input; tests compare with tolerances on a few grids and q-points", "anchors": ["euphonic/util.py:mp_grid", "euphonic/util.py:is_gamma", "euphonic/force_constants.py:ForceConstants._calculate_phonons_at_qpts", "c/util.c:is_gamma", "c/dyn_mat.c"]}
{"id": "C92", "title": "Spectra do not depend on which eigenvectors the solver returns", "statement": "Modes of equal frequency have no unique eigenvectors, and LAPACK in Python and zheevd in C may return different ones.  The frequencies, the density of states, the partial densities of states, the Debye-Waller factors and every S(q,w) map and average made from the structure factors are nevertheless the same for every correct solver; and without Born charges the frequencies at q, q plus a reciprocal lattice vector and -q are the same.  (The structure factor and the frequency gradient of a single mode are not.)", "quantifier": "all Hermitian matrices, all pairs of solvers that return orthonormal eigenvectors, all force constants, options and histories of calls", "why_tests_cant": "tests run one LAPACK build, compare with reference data up to degenerate groups and tolerances, and cannot try other eigenvectors", "anchors": ["euphonic/force_constants.py:ForceConstants._calculate_phonons_at_q", "c/_euphonic.c", "euphonic/qpoint_frequencies.py:QpointFrequencies.calculate_dos", "euphonic/qpoint_phonon_modes.py:QpointPhononModes.calculate_pdos", "euphonic/qpoint_phonon_modes.py:QpointPhononModes.calculate_debye_waller", "euphonic/qpoint_phonon_modes.py:QpointPhononModes.calculate_structure_factor", "euphonic/structure_factor.py:StructureFactor.calculate_sqw_map"]}
{"id": "C93", "title": "The Brille convergence tool compares like with like", "statement": "euphonic-brille-convergence draws, for each grid setting in the order given, the interpolated minus the directly calculated frequencies, structure factors and spectra at the same sample q-points, from the same force constants with the same keyword arguments, in the same energy bins and with the same broadening.  What is drawn for one setting does not depend on which other settings are tried or in which order.  Where the interpolated modes are modes of the same matrices as the direct ones, the residuals of the spectra are zero whichever eigenvectors were returned.  The slices are at the sample q-points after the first, which is gamma.", "quantifier": "all force constants, all lists of grid settings, sample sizes, bins, broadenings and keyword arguments; all interpolators and eigensolvers", "why_tests_cant": "the repository's tests compare a few runs with stored curves; the force constants object and the dictionary of keyword arguments are changed between the grids, and independence is a statement about all orders", "anchors": ["euphonic/cli/brille_convergence.py:check_brille_settings", "euphonic/brille.py:BrilleInterpolator.from_force_constants", "euphonic/cli/utils.py:_brille_calc_modes_kwargs", "euphonic/cli/utils.py:_get_energy_bins", "euphonic/sampling.py:recurrence_sequence"]}
{"id": "C94", "title": "Results do not depend on how the crystal is described", "statement": "Moving the origin of the fractional coordinates changes nothing that a phonon calculation returns, for any options, with or without Born charges and sum rule corrections, and leaves structure factors exactly as they were.  Renumbering the atoms, moving atoms to equivalent places in other unit cells, listing the cells of the supercell in another order or by other representatives, and turning the crystal and its Cartesian axes give the same frequencies with the same multiplicities, the same density of states, the partial densities of states of the same atoms, the same Debye-Waller factors in the turned axes and the same structure factor maps.", "quantifier": "all force constants, options, histories of calls and eigensolvers; all origins, orders of atoms and cells, lattice translations of single atoms, and orthogonal matrices", "why_tests_cant": "tests fix one description of each crystal; the independence is a relation between two runs over all descriptions, and the eigenvectors of the two runs differ", "anchors": ["euphonic/force_constants.py:ForceConstants.calculate_qpoint_phonon_modes", "euphonic/force_constants.py:ForceConstants._calculate_supercell_images", "euphonic/force_constants.py:ForceConstants._dipole_correction_init", "euphonic/qpoint_phonon_modes.py:QpointPhononModes.calculate_structure_factor", "euphonic/qpoint_phonon_modes.py:QpointPhononModes.calculate_debye_waller", "euphonic/qpoint_phonon_modes.py:QpointPhononModes.calculate_pdos", "euphonic/crystal.py:Crystal.reciprocal_cell"]}
{"id": "C95", "title": "Plot options take precedence over style sheets, and produce one figure", "statement": "Whatever style sheets and options are combined, the plotting tools draw with the values given by --cmap, --font, --fontsize, --linewidth and --figsize (in inches, whatever its unit); other settings come from the last of the user's --style sheets that mentions them, then from the tool's own sheets unless --no-base-style is given, then from what was in force. The figure has the title and labels asked for, or labels from the units of its axes; it goes to the file named by --save-to or else to the screen, once, after the data if --save-json is given. A wrong unit or an unknown style ends the tool without a figure. Drawing one figure leaves no trace in the style of the next.", "quantifier": "all combinations of options, style sheets, units, tools and settings in force", "why_tests_cant": "the combinations of sheets and options are unbounded, and the tests compare figures for a handful of option lists that all have non-zero values", "anchors": ["euphonic/cli/utils.py:_compose_style", "euphonic/cli/utils.py:_plot_label_kwargs", "euphonic/cli/utils.py:matplotlib_save_or_show", "euphonic/cli/dispersion.py:main", "euphonic/cli/dos.py:main", "euphonic/cli/intensity_map.py:main", "euphonic/cli/powder_map.py:main", "euphonic/styles"]}
{"id": "C96", "title": "euphonic-dos from force constants plots the crystal's own density of states", "statement": "Started from force constants, euphonic-dos calculates the modes on the Monkhorst-Pack grid asked for, or found from the spacing, and plots the histogram of exactly those frequencies: each bin holds 3/(number of modes) times the mean over the grid of the number of modes of the dynamical matrix in the bin, all grid points counting equally, and with the default energy range the area is three per atom. With --adaptive each mode is a Gaussian whose width comes from its own gradient and the spacing of the same grid. The curves do not depend on the eigenvectors the solver happens to choose, on earlier calculations with the object or on uninitialised memory.", "quantifier": "all crystals, grids, options, solvers, histories and memory contents", "why_tests_cant": "the tests compare the tool with stored output of the same code for two or three materials and small grids; no stored output shows that the curve is the crystal's own density of states", "anchors": ["euphonic/cli/dos.py:main", "euphonic/cli/utils.py:_calc_modes_kwargs", "euphonic/cli/utils.py:_grid_spec_from_args", "euphonic/force_constants.py:ForceConstants.calculate_qpoint_phonon_modes", "euphonic/force_constants.py:ForceConstants.calculate_qpoint_frequencies", "euphonic/util.py:mp_grid", "euphonic/util.py:mode_gradients_to_widths"]}
{"id": "C97", "title": "A command line means what it says", "statement": "For each tool, a command line made of known options, each with the words it wants, and one file name is accepted; every option given has the value its words stand for, every other option its default, and nothing else is set. A line is accepted only if it is of this form: unknown options, too few or too many words, words that are not numbers or not among the choices, a missing file name and two options that exclude each other are all refused. The order of the options, and on which side of the file name they stand, does not matter. Every setting a tool reads exists after any accepted line, and the tools that pass all settings on as keyword arguments pass exactly the arguments of the function called.", "quantifier": "all six tools, all command lines of any length, all options, words and orders; all sets of features of the parser", "why_tests_cant": "the tests run a few dozen fixed command lines out of infinitely many; an option that swallows the file name, a pair of options that should exclude each other but does not, or a combination of features without a parser shows only on lines nobody tried", "anchors": ["euphonic/cli/utils.py:_get_cli_parser", "euphonic/cli/utils.py:get_args", "euphonic/cli/dispersion.py:get_parser", "euphonic/cli/dos.py:get_parser", "euphonic/cli/intensity_map.py:get_parser", "euphonic/cli/powder_map.py:get_parser", "euphonic/cli/optimise_dipole_parameter.py:get_parser", "euphonic/cli/brille_convergence.py:get_parser"]}
{"id": "C98", "title": "euphonic-dos: the words of the command line decide the curves", "statement": "For every list of words, euphonic-dos either refuses the line, reports an error of the file, a unit or the calculation, or draws: it never meets a setting that is missing or of the wrong kind. With force constants in the file and none of --weighting, --pdos, --adaptive, --asr and the broadening options among the words, what is drawn is the histogram of the crystal's own frequencies on the grid of --grid (or the one found from --grid-spacing and --length-unit), with as many bins as --ebins says, in the unit of --energy-unit, times --scale; with nothing but the file these are a spacing of 0.1 per angstrom, 200 bins, meV, and area 3. The order of the options changes nothing at all, and the options about titles, labels, styles, sizes and files to write change neither bins nor curves nor errors before the drawing.", "quantifier": "all lists of words, all crystals with complete image searches (for the counts), all eigensolvers, all loaders and units", "why_tests_cant": "the composition of parser, loader, calculation, binning and plotting over all command lines cannot be enumerated; tests fix a few lines and compare with stored output", "anchors": ["euphonic/cli/dos.py:main", "euphonic/cli/dos.py:get_parser", "euphonic/cli/utils.py:_get_cli_parser", "euphonic/cli/utils.py:_grid_spec_from_args", "euphonic/cli/utils.py:_calc_modes_kwargs", "euphonic/cli/utils.py:_get_energy_bins", "euphonic/force_constants.py:ForceConstants.calculate_qpoint_phonon_modes"]}
{"id": "C99", "title": "euphonic-powder-map from force constants: the map shows the crystal's own modes, whatever the eigensolver and the history", "statement": "For force constants, every map that euphonic-powder-map makes without broadening and kinematic cuts holds, in the row of each |q| bin, the plain average over the q-points sampled on the sphere through the middle of the bin of what the modes of the crystal's own dynamical matrix give: their number per energy bin (--weighting dos), the shares of the atoms in them (--pdos and the weightings by cross section), or the intensity they scatter (--weighting coherent), the last damped with --temperature by the one Debye-Waller factor of the same crystal on the --grid. Without --e-max the energy axis ends at 1.2 times the highest frequency at (0, 0, 1/2). Whatever the options short of --asr=reciprocal, the map does not depend on which eigenvectors the eigensolver picks for degenerate modes; and never on what the object was used for before or on uninitialised memory.", "quantifier": "all crystals with complete image searches (for the averages), all force constants, all q ranges, samplings, temperatures and weightings, all eigensolvers, all earlier calculations", "why_tests_cant": "the composition of sampling, interpolation, diagonalisation, Debye-Waller factor and binning, and the choice of eigenvectors in degenerate spaces, cannot be enumerated; tests compare a few maps with stored output on one machine", "anchors": ["euphonic/cli/powder_map.py:main", "euphonic/powder.py:sample_sphere_dos", "euphonic/powder.py:sample_sphere_pdos", "euphonic/powder.py:sample_sphere_structure_factor", "euphonic/cli/utils.py:_get_debye_waller", "euphonic/force_constants.py:ForceConstants.calculate_qpoint_phonon_modes"]}
{"id": "C100", "title": "euphonic-powder-map: what the words of the command line ask for is what the map shows", "statement": "For every list of words given to euphonic-powder-map: the program either refuses the line, the file (unreadable, or not force constants) or the combination of --pdos with --weighting coherent, or makes its map with arguments that say what the options say, whatever --length-unit and --energy-unit are and in whatever order the options come; it never uses a setting that is missing or of the wrong kind. |q| values, spacings, widths and densities of points count in 1/length-unit. The |q| axis goes from --q-min to --q-max in the fewest equal bins not wider than --q-spacing; a line that asks for no other weighting, broadening, kinematic cut or sum rule gives in each row the histogram of the crystal's own modes averaged over the sphere, --weighting coherent the intensity they scatter. The line with the file alone gives 120 bins of 0.025 1/angstrom, 200 energy bins and 1000 golden-spiral points per sphere. The result does not depend on the eigenvectors the eigensolver picks (without --asr reciprocal), on the history of the object, or on uninitialised memory.", "quantifier": "all lists of words, all files, all tables of units, all crystals with complete image searches (for the averages), all eigensolvers", "why_tests_cant": "there are about forty options in any order and unit; tests run a few lines and compare with stored output, and cannot show that each setting reaches the right argument, converted, for every value", "anchors": ["euphonic/cli/powder_map.py:main", "euphonic/cli/powder_map.py:get_parser", "euphonic/cli/powder_map.py:_get_broaden_kwargs", "euphonic/cli/utils.py:_get_q_distance", "euphonic/cli/utils.py:get_args", "euphonic/cli/utils.py:_calc_modes_kwargs"]}
{"id": "C101", "title": "euphonic-dispersion: what the words of the command line ask for is what the bands show", "statement": "For every list of words given to euphonic-dispersion: the program either refuses the line, the file, a unit, or --reorder for frequencies without eigenvectors, or draws bands with arguments that say what the options say, in whatever order the options come; it never uses a setting that is missing or of the wrong kind, and reads eigenvectors from the file just if --reorder asks for them. Force constants, without --reorder and --asr: the bands are, in --energy-unit, the frequencies of the crystal's own modes along the path for --q-spacing, at gamma those of the limit along the path; the line with the file alone means 0.025 1/angstrom, meV and no limits on the energy axis. Modes and frequencies from a file are drawn as they are, cut where a step exceeds --btol times the median step. The bands do not depend on uninitialised memory or, without --reorder and --asr reciprocal, on the eigenvectors the eigensolver picks; --asr realspace draws the bands of the corrected force constants.", "quantifier": "all lists of words, all files, all tables of units, all crystals with complete image searches (for the frequencies), all eigensolvers", "why_tests_cant": "some thirty options in any order and unit; tests run a few lines and compare with stored output, and cannot show that each setting reaches the right argument for every value or that the bands are independent of the eigensolver", "anchors": ["euphonic/cli/dispersion.py:main", "euphonic/cli/dispersion.py:get_parser", "euphonic/cli/utils.py:_bands_from_force_constants", "euphonic/cli/utils.py:_get_q_distance", "euphonic/cli/utils.py:_calc_modes_kwargs", "euphonic/qpoint_frequencies.py:get_dispersion"]}
{"id": "C102", "title": "euphonic-intensity-map: what the words of the command line ask for is what the map shows", "statement": "For every list of words given to euphonic-intensity-map: the program either refuses the line, the file, a unit, less than one energy bin, or --weighting coherent for data without eigenvectors (with --temperature, without force constants), or makes a map with arguments that say what the options say, in whatever order the options come; it never uses a setting that is missing or of the wrong kind. Force constants, with --weighting dos, no --asr and no broadening: at each point of the path for --q-spacing the map shows, for each of --ebins even bins between --e-min and --e-max in --energy-unit, the crystal's own modes in that bin over their number and the width of the bin, times 3 and --scale; the line with the file alone means 0.025 1/angstrom, 200 bins, meV and no scale. Modes and frequencies from a file are counted as they are, the map cut where a step exceeds --btol times the median step. The map does not depend on uninitialised memory or, for --weighting dos without --asr reciprocal, on the eigenvectors the eigensolver picks; --asr realspace maps the corrected force constants.", "quantifier": "all lists of words, all files, all tables of units, all crystals with complete image searches (for the modes), all eigensolvers", "why_tests_cant": "some thirty options in any order and unit; tests run a few lines and compare with stored output, and cannot show that each setting reaches the right argument for every value or that the map is independent of the eigensolver", "anchors": ["euphonic/cli/intensity_map.py:main", "euphonic/cli/intensity_map.py:get_parser", "euphonic/cli/utils.py:_bands_from_force_constants", "euphonic/cli/utils.py:_get_q_distance", "euphonic/cli/utils.py:_get_energy_bins", "euphonic/cli/utils.py:_calc_modes_kwargs"]}
