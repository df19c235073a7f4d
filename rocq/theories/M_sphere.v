(** Model of the powder averages of /repo/euphonic/powder.py: [sample_sphere_dos] 20-97,
    [sample_sphere_pdos] 99-201, [sample_sphere_structure_factor] 203-321; and of the
    Debye-Waller factor of the command line tools, /repo/euphonic/cli/utils.py 346-373.
    Simplifications: quantities in atomic units, except that energies on the axis are in the
    unit of the bins, in which one hartree is [k], and intensities in the unit in which one
    bohr**2 is [c].  ForceConstants enter as the function [calc] from q-points to the q-points
    and modes of the object that calculate_qpoint_phonon_modes returns (None: it raises);
    calculate_qpoint_frequencies gives the same frequencies.  Scattering lengths are those of
    the atoms of the crystal, looked up already (278-282). *)
From Coq Require Import String.
From Verif Require Import Base Cpx Vec3 M_grid M_cell M_qpts M_path M_broad M_dos M_bins M_sample M_clidos M_sf.
Open Scope R_scope.

Inductive sphere_err :=
  | TemperatureClash             (* ValueError 299-301 *)
  | NoMesh                       (* spacing zero, or a mesh that is not a mesh: raises in get_mp_grid_spec or mp_grid *)
  | Sampling (e : M_sample.serr)
  | NanSample                    (* a q-point that is nan *)
  | ModesRaised                  (* calculate_qpoint_phonon_modes raised *)
  | NoModes                      (* np.max of an empty array, ValueError 326 *)
  | DwErr (e : M_sf.serr)
  | SfErr (e : M_sf.serr)
  | SphereDosErr (e : derr).

Section Sphere.
Variable calc : list V3 -> option (list V3 * etable).
Variable cell : M3.
Variable x : xtal.
Variable solve : M3 -> V3 -> V3.
Variable ops : option (list symop).
Variables (chunk : nat) (kB fmin wmin k c : R).

(** utils.py:366-373 and powder.py:286-289: mp_grid, modes, calculate_debye_waller. *)
Definition debye_waller_on (g : option (Z * Z * Z)) (T : R) : res dwaller sphere_err :=
  match g with
  | None => Err NoMesh
  | Some (n0, n1, n2) =>
    if ((n0 <? 0) || (n1 <? 0) || (n2 <? 0))%Z%bool then Err NoMesh else
    match mp_grid (Z.to_nat n0) (Z.to_nat n1) (Z.to_nat n2) with
    | Err _ => Err NoMesh
    | Ok qs =>
      match calc qs with
      | None => Err ModesRaised
      | Some (_, e) => match calculate_debye_waller chunk e x kB T fmin ops with Ok d => Ok d | Err er => Err (DwErr er) end
      end
    end
  end.
(** powder.py:284-301 *)
Definition the_dw (dw : option dwaller) (temperature : option R) (spacing : R) : res (option dwaller) sphere_err :=
  match temperature with
  | None => Ok dw
  | Some T =>
    match dw with
    | Some d => if isclose (1 / 10 ^ 8) (dw_t d) T then Ok dw else Err TemperatureClash
    | None => match debye_waller_on (get_mp_grid_spec cell spacing) T with Ok d => Ok (Some d) | Err er => Err er end
    end
  end.

(** 86-88, 191-193, 303-309: the sampled q-points. *)
Definition sphere_points (mod_q : R) (npts : nat) (sampling : string) (rnd : option (nat -> R * R))
  (rnd2 : option (nat -> nat -> R * R)) (always : nat -> R * R) : res (list V3) sphere_err :=
  match powder_qpts solve (recip x) mod_q npts sampling rnd rnd2 always with
  | Err e => Err (Sampling e)
  | Ok qs => mapE (fun o => match o with Some p => Ok p | None => Err NanSample end) qs
  end.
(** The modes at the sampled q-points and the energy bins (86-95, 191-198, 303-315). *)
Definition sphere_modes mod_q npts sampling rnd rnd2 always (energy_bins : option (list R))
  : res (list V3 * etable * list R) sphere_err :=
  match sphere_points mod_q npts sampling rnd rnd2 always with
  | Err e => Err e
  | Ok ps =>
    match calc ps with
    | None => Err ModesRaised
    | Some (qs, e) =>
      match energy_bins with
      | Some b => Ok (qs, e, b)
      | None => match all_freqs k (et e) with [] => Err NoModes | f0 :: fs => Ok (qs, e, default_bins fs f0 1000) end
      end
    end
  end.

(** 20-97 *)
Definition sample_sphere_dos mod_q npts sampling rnd rnd2 always energy_bins : res (list R * list R) sphere_err :=
  match sphere_modes mod_q npts sampling rnd rnd2 always energy_bins with
  | Err e => Err e
  | Ok (_, e, b) => match calculate_dos k b (et e) None wmin Reference with Ok d => Ok (b, d) | Err er => Err (SphereDosErr er) end
  end.
(** 99-201; one line per atom.  [element] is the species of every atom. *)
Definition sample_sphere_pdos (element : nat -> nat) (w : option weighting) (src : cs_source)
  mod_q npts sampling rnd rnd2 always energy_bins : res (list R * list (list R)) sphere_err :=
  match sphere_modes mod_q npts sampling rnd rnd2 always energy_bins with
  | Err e => Err e
  | Ok (_, e, b) =>
    match calculate_pdos_weighted k b e element (mass x) None wmin Reference w src with
    | Ok d => Ok (b, d) | Err er => Err (SphereDosErr er) end
  end.
(** 203-321 *)
Definition sample_sphere_structure_factor (sl : nat -> R) (dw : option dwaller) (dw_spacing : R) (temperature : option R)
  mod_q npts sampling rnd rnd2 always energy_bins : res (list R * list R) sphere_err :=
  match the_dw dw temperature dw_spacing with
  | Err e => Err e
  | Ok d =>
    match sphere_modes mod_q npts sampling rnd rnd2 always energy_bins with
    | Err e => Err e
    | Ok (qs, e, b) =>
      match calculate_structure_factor e x sl d (fun i => nth i qs vzero) with
      | Err er => Err (SfErr er)
      | Ok s => match calculate_1d_average kB k c b s true None None with Ok y => Ok (b, y) | Err er => Err (SfErr er) end
      end
    end
  end.
End Sphere.
