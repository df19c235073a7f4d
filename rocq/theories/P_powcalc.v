(** C99: euphonic-powder-map, from the force constants to the map. *)
From Coq Require Import String.
From Verif Require L_unique4 L_calc4 L_asr6 L_powasr.
From Verif Require Import Base Cpx Vec3 M_path M_broad S_broad M_dos M_bins M_coll M_fixed M_clidos M_sample M_sf M_sphere M_powder M_weight M_grid M_cell M_qpts M_dynmat M_dipole M_struct M_asr M_calc M_doscalc M_powcalc
  S_dos S_sample S_sf S_clidos S_powder S_sphere S_qpts S_dynmat S_dipole S_asr S_calc S_unique S_doscalc S_powcalc L_nac L_chain L_weight L_calc4 L_doscalc2 L_powcalc L_powcalc2.
Open Scope R_scope.

(** C99.  --weighting dos, without --asr, broadening and kinematics.  There is a way L of sharing
    each force constant among near images, as in C65, such that every map made with the object,
    whatever it was used for before, holds in the row of each |q| bin the histogram of the
    crystal's own frequencies: entry times bin width is (times --scale) 3/(3n) times the average,
    over the sampled q-points of the sphere through the middle of the bin, of the number of modes
    of the whole dynamical matrix in the energy bin.
    Partial: crystals for which the image search is wide enough, see C10; exact arithmetic. *)
Theorem C99_counts_partial : forall erfc reigh argsort chunk ceigh d mass born diel,
  home_first d -> search_complete d -> det3 (zrows (f_sc d)) <> 0 -> fc_symmetric d -> symmetric3 diel -> csolves ceigh ->
  exists L, shares_images d L /\
  forall junk before param solve ops dw_chunk kB fmin wmin k c src sl rnd rnd2 always coeffs hm room a w edges bins z, S_sample.solves solve -> det3 (f_cell d) <> 0 -> 0 < k ->
  0 <= q_min a -> q_min a < q_max a -> 0 < M_powder.q_spacing a -> (1 <= p_ebins a)%nat ->
  p_qb a = None -> p_eb a = None -> p_ei a = None -> p_ef a = None -> w_weighting w = "dos"%string -> w_pdos w = None ->
  powder_from_fc erfc reigh ceigh argsort chunk junk before None param solve ops dw_chunk kB fmin wmin k c src sl rnd rnd2 always coeffs hm room a w (new_fc d mass born diel) = Ok (edges, bins, z) ->
  length bins = (p_ebins a + 1)%nat /\ increasing bins /\
  forall i, (i < Z.to_nat (n_q_bins a))%nat -> exists l ps e,
    get_qpts_sphere (shell_npts a (bin_middle edges i)) (w_sampling w) (rnd (bin_middle edges i)) (rnd2 (bin_middle edges i)) (always (bin_middle edges i)) = Ok l /\
    length ps = length l /\ on_shell (reciprocal_cell (f_cell d)) (bin_middle edges i) ps /\ crystal_modes erfc d mass born diel param L ps e /\
    forall j, (j < p_ebins a)%nat -> exists v, z i j = Some v /\ v * (nth (S j) bins 0 - nth j bins 0) =
      p_factor a * (3 / INR (3 * M_dynmat.n_atoms d) * average (seq 0 (length ps)) (modes_in k (et e) (nth j bins 0) (nth (S j) bins 0))).
Proof. exact powder_counts. Qed.
Print Assumptions C99_counts_partial.

(** C99.  --weighting coherent: entry times bin width is (times --scale) the average, over the
    sampled q-points, of the intensity that the crystal's own modes scatter into the bin, damped
    with --temperature by the one Debye-Waller factor of the crystal's own modes on the grid. *)
Theorem C99_coherent_partial : forall erfc reigh argsort chunk ceigh d mass born diel,
  home_first d -> search_complete d -> det3 (zrows (f_sc d)) <> 0 -> fc_symmetric d -> symmetric3 diel -> csolves ceigh ->
  exists L, shares_images d L /\
  forall junk before param solve ops dw_chunk kB fmin wmin k c src sl rnd rnd2 always coeffs hm room a w edges bins z, S_sample.solves solve -> det3 (f_cell d) <> 0 -> 0 < k -> (0 < dw_chunk)%nat ->
  0 <= q_min a -> q_min a < q_max a -> 0 < M_powder.q_spacing a -> (1 <= p_ebins a)%nat ->
  p_qb a = None -> p_eb a = None -> p_ei a = None -> p_ef a = None -> w_weighting w = "coherent"%string ->
  powder_from_fc erfc reigh ceigh argsort chunk junk before None param solve ops dw_chunk kB fmin wmin k c src sl rnd rnd2 always coeffs hm room a w (new_fc d mass born diel) = Ok (edges, bins, z) ->
  length bins = (p_ebins a + 1)%nat /\ increasing bins /\ exists dd, (match w_temperature w with
   | None => dd = None
   | Some t => exists g mesh e d0, grid_spec (f_cell d) (w_grid w) (w_spacing w) = Some g /\ grid_points g = Some mesh /\ crystal_modes erfc d mass born diel param L mesh e /\
       calculate_debye_waller dw_chunk e (M_sf.mkX mass (fun a => nth a (f_atom_r d) vzero) (reciprocal_cell (f_cell d))) kB t fmin ops = Ok d0 /\ dd = Some d0
   end) /\
  forall i, (i < Z.to_nat (n_q_bins a))%nat -> exists l ps e,
    get_qpts_sphere (shell_npts a (bin_middle edges i)) (w_sampling w) (rnd (bin_middle edges i)) (rnd2 (bin_middle edges i)) (always (bin_middle edges i)) = Ok l /\
    length ps = length l /\ on_shell (reciprocal_cell (f_cell d)) (bin_middle edges i) ps /\ crystal_modes erfc d mass born diel param L ps e /\ ps <> [] /\
    forall j, (j < p_ebins a)%nat -> exists v, z i j = Some v /\ v * (nth (S j) bins 0 - nth j bins 0) =
      p_factor a * (c * average (seq 0 (length ps)) (scattered kB k (w_temperature w) (f_cell d) sl mass (fun a => nth a (f_atom_r d) vzero) dd ps e (nth j bins 0) (nth (S j) bins 0))).
Proof. exact powder_coherent. Qed.
Print Assumptions C99_coherent_partial.

(** C99.  --weighting by cross section, and --pdos: the sum over the atoms (or those of the
    species named) of the weighted average share of the atom in the crystal's own modes. *)
Theorem C99_pdos_partial : forall erfc reigh argsort chunk ceigh d mass born diel,
  home_first d -> search_complete d -> det3 (zrows (f_sc d)) <> 0 -> fc_symmetric d -> symmetric3 diel -> csolves ceigh ->
  exists L, shares_images d L /\
  forall junk before param solve ops dw_chunk kB fmin wmin k c src sl rnd rnd2 always coeffs hm room a w ww edges bins z, S_sample.solves solve -> det3 (f_cell d) <> 0 -> 0 < k ->
  0 <= q_min a -> q_min a < q_max a -> 0 < M_powder.q_spacing a -> (1 <= p_ebins a)%nat ->
  p_qb a = None -> p_eb a = None -> p_ei a = None -> p_ef a = None -> weighting_named (w_weighting w) ww -> ~ (w_weighting w = "dos"%string /\ w_pdos w = None) ->
  powder_from_fc erfc reigh ceigh argsort chunk junk before None param solve ops dw_chunk kB fmin wmin k c src sl rnd rnd2 always coeffs hm room a w (new_fc d mass born diel) = Ok (edges, bins, z) ->
  length bins = (p_ebins a + 1)%nat /\ increasing bins /\
  forall i, (i < Z.to_nat (n_q_bins a))%nat -> exists l ps e (f : nat -> R),
    get_qpts_sphere (shell_npts a (bin_middle edges i)) (w_sampling w) (rnd (bin_middle edges i)) (rnd2 (bin_middle edges i)) (always (bin_middle edges i)) = Ok l /\
    length ps = length l /\ on_shell (reciprocal_cell (f_cell d)) (bin_middle edges i) ps /\ crystal_modes erfc d mass born diel param L ps e /\
    (forall b, (b < M_dynmat.n_atoms d)%nat -> atom_factor ww (coherent_cs src) (incoherent_cs src) (element src) mass (M_dynmat.n_atoms d) b (f b)) /\
    forall j, (j < p_ebins a)%nat -> exists v, z i j = Some v /\ v * (nth (S j) bins 0 - nth j bins 0) =
      p_factor a * Sum (match w_pdos w with None => seq 0 (M_dynmat.n_atoms d) | Some s => atoms_of (map (symbol src) (seq 0 (M_dynmat.n_atoms d))) s end)
        (fun b => f b * average (seq 0 (length ps)) (atom_part k e (nth j bins 0) (nth (S j) bins 0) b)).
Proof. exact powder_pdos. Qed.
Print Assumptions C99_pdos_partial.

(** C99.  Without --e-max and --e-incident the energy axis ends at 1.2 times the highest
    frequency of the crystal at the one q-point (0, 0, 1/2), whatever the frequencies at other
    q-points (compare C80_energy_range_refuted). *)
Theorem C99_axis_partial : forall erfc reigh argsort chunk ceigh d mass born diel,
  home_first d -> search_complete d -> det3 (zrows (f_sc d)) <> 0 -> fc_symmetric d -> symmetric3 diel -> csolves ceigh ->
  exists L, shares_images d L /\
  forall junk before param solve ops dw_chunk kB fmin wmin k c src sl rnd rnd2 always coeffs hm room a w edges bins z, 0 < k -> (1 <= p_ebins a)%nat ->
  powder_from_fc erfc reigh ceigh argsort chunk junk before None param solve ops dw_chunk kB fmin wmin k c src sl rnd rnd2 always coeffs hm room a w (new_fc d mass born diel) = Ok (edges, bins, z) ->
  p_emax a = None -> p_ei a = None -> exists e f, crystal_modes erfc d mass born diel param L [(0, 0, 1 / 2)] e /\ largest (3 * M_dynmat.n_atoms d) (fun m => k * freq (et e) 0 m) f /\
    nth (p_ebins a) bins 0 = 12 / 10 * f.
Proof. exact powder_axis. Qed.
Print Assumptions C99_axis_partial.

(** Non-vacuity: a chain of atoms held and joined by springs makes maps of these kinds, hot
    ones with a Debye-Waller factor included. *)
Example C99_counts_meets : forall erfc reigh argsort chunk coeffs junk before wmin hm room sl param k0 k1 w, Rabs k1 < k0 -> 0 < room -> In w [of_dos; of_atoms; of_hot] ->
  home_first (chain k0 k1) /\ search_complete (chain k0 k1) /\ det3 (zrows (f_sc (chain k0 k1))) <> 0 /\ fc_symmetric (chain k0 k1) /\ symmetric3 unit_cell3 /\ csolves cdiag /\
  exists solve r, S_sample.solves solve /\ det3 (f_cell (chain k0 k1)) <> 0 /\
    powder_from_fc erfc reigh cdiag argsort chunk junk before None param solve None 1 1 0 wmin 1 1 salt sl (fun _ => None) (fun _ => None) (fun _ _ => (0, 0)) coeffs hm room L_powder.plain_args w
      (new_fc (chain k0 k1) one_mass None unit_cell3) = Ok r.
Proof.
  intros. split; [reflexivity|]. split; [apply chain_complete|]. split; [cbn; lra|]. split; [apply chain_sym|]. split; [reflexivity|].
  split; [exact cdiag_solves|]. apply chain_powder; try assumption. apply diag_good. assumption.
Qed.

(** C99.  With any options short of --asr=reciprocal (weighting, temperature, broadening,
    kinematics), the map does not depend on which eigenvectors the eigensolver chooses, on what
    the object was used for before, or on uninitialised memory. *)
Theorem C99_solvers : forall erfc reigh argsort chunk ceigh ceigh' d mass born diel junk junk' before before' asr param solve ops dw_chunk kB fmin wmin k c src sl rnd rnd2 always coeffs hm room a w r r',
  csolves ceigh -> csolves ceigh' -> csorts ceigh -> csorts ceigh' -> asr <> Some Reciprocal ->
  powder_from_fc erfc reigh ceigh argsort chunk junk before asr param solve ops dw_chunk kB fmin wmin k c src sl rnd rnd2 always coeffs hm room a w (new_fc d mass born diel) = Ok r ->
  powder_from_fc erfc reigh ceigh' argsort chunk junk' before' asr param solve ops dw_chunk kB fmin wmin k c src sl rnd rnd2 always coeffs hm room a w (new_fc d mass born diel) = Ok r' -> r = r'.
Proof. exact powder_solvers. Qed.
Print Assumptions C99_solvers.
Example C99_solvers_meets : forall erfc reigh argsort chunk coeffs junk before wmin hm room sl param w, 0 < room -> In w [of_dos; of_atoms; of_hot] ->
  csolves (L_unique4.with_vectors L_unique4.axes) /\ csolves (L_unique4.with_vectors L_unique4.turned) /\
  csorts (L_unique4.with_vectors L_unique4.axes) /\ csorts (L_unique4.with_vectors L_unique4.turned) /\
  forall v, exists solve r, S_sample.solves solve /\ det3 (f_cell (chain 1 0)) <> 0 /\
    powder_from_fc erfc reigh (L_unique4.with_vectors v) argsort chunk junk before None param solve None 1 1 0 wmin 1 1 salt sl (fun _ => None) (fun _ => None) (fun _ _ => (0, 0)) coeffs hm room L_powder.plain_args w
      (new_fc (chain 1 0) one_mass None unit_cell3) = Ok r.
Proof.
  intros. split; [apply L_unique4.with_vectors_solves, L_unique4.axes_orth|]. split; [apply L_unique4.with_vectors_solves, L_unique4.turned_orth|].
  split; [apply L_unique4.with_vectors_sorts|]. split; [apply L_unique4.with_vectors_sorts|].
  intros v. apply chain_powder; try assumption. apply vectors_good.
Qed.

(** C99.  What the object was used for before each of its calculations and uninitialised memory
    have no effect on the tool, its errors included, for any options. *)
Theorem C99_history : forall erfc reigh argsort chunk ceigh d mass born diel junk before junk' before' asr param solve ops dw_chunk kB fmin wmin k c src sl rnd rnd2 always coeffs hm room a w,
  powder_from_fc erfc reigh ceigh argsort chunk junk before asr param solve ops dw_chunk kB fmin wmin k c src sl rnd rnd2 always coeffs hm room a w (new_fc d mass born diel)
  = powder_from_fc erfc reigh ceigh argsort chunk junk' before' asr param solve ops dw_chunk kB fmin wmin k c src sl rnd rnd2 always coeffs hm room a w (new_fc d mass born diel).
Proof. exact run_history. Qed.
Print Assumptions C99_history.

(** C99 with --asr=realspace.  Whatever the other options, the tool then does exactly what it does
    without --asr for a new object holding the corrected force constants: same maps, same
    errors.  (The correction itself is C15.) *)
Theorem C99_realspace : forall erfc reigh ceigh argsort chunk d mass born diel warned fc', enforce_realspace_asr reigh argsort chunk d = Ok (warned, fc') ->
  forall junk before junk' before' param solve ops dw_chunk kB fmin wmin k c src sl rnd rnd2 always coeffs hm room a w,
  powder_from_fc erfc reigh ceigh argsort chunk junk before (Some Realspace) param solve ops dw_chunk kB fmin wmin k c src sl rnd rnd2 always coeffs hm room a w (new_fc d mass born diel)
  = powder_from_fc erfc reigh ceigh argsort chunk junk' before' None param solve ops dw_chunk kB fmin wmin k c src sl rnd rnd2 always coeffs hm room a w (new_fc (with_fc d fc') mass born diel).
Proof. exact L_powasr.powder_realspace. Qed.
Print Assumptions C99_realspace.
Example C99_realspace_meets : forall k, exists fc', enforce_realspace_asr (L_asr6.tabulated (L_asr6.spring k) (L_asr6.spring_ev k) L_asr6.even_v) L_asr6.isort 100 (L_asr6.sprung k) = Ok (true, fc').
Proof. intros. apply L_asr6.sprung_runs. Qed.
