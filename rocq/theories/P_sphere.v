(** C85: powder averages over a sphere in reciprocal space. *)
From Coq Require Import String.
From Verif Require Import Base Cpx Vec3 M_grid M_cell M_path M_broad S_broad M_dos M_sample M_sf M_sphere S_dos S_sample S_sf S_powder S_sphere L_sample4 L_sphere.
Open Scope R_scope.

(** C85.  sample_sphere_structure_factor: every sampled q-point has the length asked for, and
    entry times bin width is the plain average over the samples of the intensity that the
    modes scatter into the bin, with gain and loss at the temperature of the Debye-Waller
    factor that was used.  That is the one passed (which must then be of the temperature
    given), or the one computed on the grid of spacing dw_spacing, or none. *)
Theorem C85_structure_factor : forall calc cell M pos solve ops chunk kB fmin k c sl dw spacing temperature mod_q npts sampling rnd rnd2 always eb bins y,
  solves solve -> det3 cell <> 0 -> 0 <= mod_q -> 0 < k -> increasing bins -> (2 <= length bins)%nat ->
  sample_sphere_structure_factor calc cell (mkX M pos (reciprocal_cell cell)) solve ops chunk kB fmin k c sl dw spacing temperature mod_q npts sampling rnd rnd2 always eb = Ok (bins, y) ->
  exists l ps qs e d, get_qpts_sphere npts sampling rnd rnd2 always = Ok l /\ length ps = length l /\ on_shell (reciprocal_cell cell) mod_q ps /\
  calc ps = Some (qs, e) /\ (0 < nq (et e))%nat /\
  (match temperature, dw with
   | None, _ => d = dw
   | Some T, Some d0 => d = dw /\ same_temperature (dw_t d0) T
   | Some T, None => exists g d0, get_mp_grid_spec cell spacing = Some g /\ dw_on calc (mkX M pos (reciprocal_cell cell)) ops chunk kB fmin g T d0 /\ d = Some d0
   end) /\ length y = (length bins - 1)%nat /\
  forall i, (i < length bins - 1)%nat -> nth i y 0 * (nth (S i) bins 0 - nth i bins 0) =
    c * average (seq 0 (nq (et e))) (scattered kB k (option_map dw_t d) cell sl M pos d qs e (nth i bins 0) (nth (S i) bins 0)).
Proof. exact sf_average. Qed.
Print Assumptions C85_structure_factor.

(** C85.  With sampled points on the sphere, no zero frequency and a fitting Debye-Waller
    factor there is a result, on the bins that were given. *)
Theorem C85_runs : forall calc cell M pos solve ops chunk kB fmin k c sl dw spacing temperature mod_q npts sampling rnd rnd2 always bins l,
  solves solve -> det3 cell <> 0 -> 0 <= mod_q -> 0 < k -> increasing bins ->
  get_qpts_sphere npts sampling rnd rnd2 always = Ok l -> (forall p, In p l -> on_sphere p) ->
  (forall ps, length ps = length l -> on_shell (reciprocal_cell cell) mod_q ps -> exists qs e, calc ps = Some (qs, e) /\ (0 < nq (et e))%nat /\
     (forall q m, (q < nq (et e))%nat -> (m < nm (et e))%nat -> freq (et e) q m <> 0) /\ (forall d, dw = Some d -> dw_n d = n_atoms e)) ->
  (match temperature, dw with Some T, Some d => same_temperature (dw_t d) T | Some T, None => False | None, _ => True end) ->
  exists y, sample_sphere_structure_factor calc cell (mkX M pos (reciprocal_cell cell)) solve ops chunk kB fmin k c sl dw spacing temperature mod_q npts sampling rnd rnd2 always (Some bins)
    = Ok (bins, y).
Proof. exact sf_runs. Qed.
Print Assumptions C85_runs.

(** C85.  A Debye-Waller factor of another temperature than the one given is refused. *)
Theorem C85_temperature_clash : forall calc cell M pos solve ops chunk kB fmin k c sl d spacing T mod_q npts sampling rnd rnd2 always eb, ~ same_temperature (dw_t d) T ->
  sample_sphere_structure_factor calc cell (mkX M pos (reciprocal_cell cell)) solve ops chunk kB fmin k c sl (Some d) spacing (Some T) mod_q npts sampling rnd rnd2 always eb
  = Err TemperatureClash.
Proof. exact sf_clash. Qed.
Print Assumptions C85_temperature_clash.

(** C85.  Computing the Debye-Waller factor once and passing it for every |q|, with or without
    the temperature, changes nothing. *)
Theorem C85_reuse : forall calc cell M pos solve ops chunk kB fmin k c sl spacing T g d mod_q npts sampling rnd rnd2 always eb, (0 < chunk)%nat ->
  let f := sample_sphere_structure_factor calc cell (mkX M pos (reciprocal_cell cell)) solve ops chunk kB fmin k c sl in
  get_mp_grid_spec cell spacing = Some g -> dw_on calc (mkX M pos (reciprocal_cell cell)) ops chunk kB fmin g T d ->
  f None spacing (Some T) mod_q npts sampling rnd rnd2 always eb = f (Some d) spacing (Some T) mod_q npts sampling rnd rnd2 always eb /\
  f None spacing (Some T) mod_q npts sampling rnd rnd2 always eb = f (Some d) spacing None mod_q npts sampling rnd rnd2 always eb.
Proof. exact sf_reuse. Qed.
Print Assumptions C85_reuse.

(** C85.  Without energy_bins, if one mode is positive, there are 1000 bins from zero and
    every mode that is not negative is in one of them. *)
Theorem C85_default_bins : forall calc cell M pos solve k mod_q npts sampling rnd rnd2 always qs e b q m,
  sphere_modes calc (mkX M pos (reciprocal_cell cell)) solve k mod_q npts sampling rnd rnd2 always None = Ok (qs, e, b) ->
  (q < nq (et e))%nat -> (m < nm (et e))%nat -> 0 < k * freq (et e) q m ->
  length b = 1001%nat /\ nth 0 b 0 = 0 /\ increasing b /\
  (forall q' m', (q' < nq (et e))%nat -> (m' < nm (et e))%nat -> 0 <= k * freq (et e) q' m' ->
     exists i, (i < 1000)%nat /\ nth i b 0 <= k * freq (et e) q' m' < nth (S i) b 0).
Proof. intros calc cell M pos solve. exact (default_cover calc cell M pos solve). Qed.
Print Assumptions C85_default_bins.

(** C85.  sample_sphere_dos: entry times bin width is 3/(number of modes) times the mean
    number of modes of a sample in the bin. *)
Theorem C85_dos : forall calc cell M pos solve wmin k mod_q npts sampling rnd rnd2 always eb bins d,
  solves solve -> det3 cell <> 0 -> 0 <= mod_q -> 0 < k -> increasing bins -> (2 <= length bins)%nat ->
  sample_sphere_dos calc (mkX M pos (reciprocal_cell cell)) solve wmin k mod_q npts sampling rnd rnd2 always eb = Ok (bins, d) ->
  exists l ps qs e, get_qpts_sphere npts sampling rnd rnd2 always = Ok l /\ length ps = length l /\ on_shell (reciprocal_cell cell) mod_q ps /\
  calc ps = Some (qs, e) /\ length d = (length bins - 1)%nat /\ forall i, (i < length bins - 1)%nat ->
  nth i d 0 * (nth (S i) bins 0 - nth i bins 0) = 3 / INR (nm (et e)) * wmean (et e) (modes_in k (et e) (nth i bins 0) (nth (S i) bins 0)).
Proof. exact dos_average. Qed.
Print Assumptions C85_dos.

(** C85.  sample_sphere_pdos: one line per atom, in which every mode counts with the part of
    its eigenvector on that atom, times the atom's cross section over its relative mass if a
    weighting is given. *)
Theorem C85_pdos : forall calc cell M pos solve wmin k element w coh inc mod_q npts sampling rnd rnd2 always eb bins p,
  solves solve -> det3 cell <> 0 -> 0 <= mod_q -> 0 < k -> increasing bins -> (2 <= length bins)%nat ->
  sample_sphere_pdos calc (mkX M pos (reciprocal_cell cell)) solve wmin k element w (Dataset coh inc) mod_q npts sampling rnd rnd2 always eb = Ok (bins, p) ->
  exists l ps qs e, get_qpts_sphere npts sampling rnd rnd2 always = Ok l /\ length ps = length l /\ on_shell (reciprocal_cell cell) mod_q ps /\
  calc ps = Some (qs, e) /\ length p = n_atoms e /\ forall a, (a < n_atoms e)%nat -> exists f, atom_factor w coh inc element M (n_atoms e) a f /\
  length (nth a p []) = (length bins - 1)%nat /\ forall i, (i < length bins - 1)%nat ->
    nth i (nth a p []) 0 * (nth (S i) bins 0 - nth i bins 0) = f * wmean (et e) (atom_part k e (nth i bins 0) (nth (S i) bins 0) a).
Proof. exact pdos_average. Qed.
Print Assumptions C85_pdos.

(** C85.  Without weighting the lines of sample_sphere_pdos add up to sample_sphere_dos. *)
Theorem C85_pdos_sums_to_dos : forall calc cell M pos solve wmin k element mod_q npts sampling rnd rnd2 always eb bins d coh inc, 0 < k -> increasing bins -> (2 <= length bins)%nat ->
  (forall ps qs e, calc ps = Some (qs, e) -> normalised e /\ (0 < n_atoms e)%nat /\ nm (et e) = (3 * n_atoms e)%nat) ->
  sample_sphere_dos calc (mkX M pos (reciprocal_cell cell)) solve wmin k mod_q npts sampling rnd rnd2 always eb = Ok (bins, d) ->
  exists p, sample_sphere_pdos calc (mkX M pos (reciprocal_cell cell)) solve wmin k element None (Dataset coh inc) mod_q npts sampling rnd rnd2 always eb = Ok (bins, p) /\
  forall i, (i < length bins - 1)%nat -> Sum (seq 0 (length p)) (fun a => nth i (nth a p []) 0) = nth i d 0.
Proof. exact pdos_total. Qed.
Print Assumptions C85_pdos_sums_to_dos.

(** Non-vacuity: ten golden samples of a crystal of two atoms with modes at 1 to 6. *)
Example C85_meets : forall M pos sl wmin, exists solve y d, solves solve /\ det3 cube <> 0 /\ increasing bins6 /\
  sample_sphere_structure_factor flat_calc cube (mkX M pos (reciprocal_cell cube)) solve None 1 1 0 1 1 sl None 1 None 3 10 "golden" None None (fun _ => (0, 0)) (Some bins6) = Ok (bins6, y) /\
  sample_sphere_dos flat_calc (mkX M pos (reciprocal_cell cube)) solve wmin 1 3 10 "golden" None None (fun _ => (0, 0)) (Some bins6) = Ok (bins6, d) /\
  (forall ps qs e, flat_calc ps = Some (qs, e) -> normalised e /\ (0 < n_atoms e)%nat /\ nm (et e) = (3 * n_atoms e)%nat).
Proof.
  intros M pos sl wmin. destruct solver_exists as [solve So]. destruct (flat_average solve M pos sl So) as [y Ey]. destruct (flat_dos solve M pos wmin So) as [d Ed].
  exists solve, y, d. split; [exact So|]. split; [exact cube_det|]. split; [exact bins6_inc|]. split; [exact Ey|]. split; [exact Ed|].
  intros ps qs e E. injection E as _ <-. split; [apply flat_normal|]. split; [cbn; lia|reflexivity].
Qed.
