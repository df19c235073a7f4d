(** Model of the euphonic-intensity-map command line tool,
    /repo/euphonic/cli/intensity_map.py:20-103 [main], up to plotting.
    Simplifications: [k] is the value of one hartree in --energy-unit; the x axis is in
    1/LENGTH_UNIT; what was loaded is an argument, and for force constants so is the
    band path with its modes (see M_bands for the path itself); the map of structure
    factors for --weighting coherent is a function argument; JSON output, printing and
    plotting are left out. *)
From Coq Require Import String.
From Verif Require Import Base M_cell M_qpts M_path M_broad M_dos M_bins M_fixed M_clidos.
Open Scope R_scope.

Inductive ierr :=
  | NeedsEigenvectors        (* TypeError 27-29 *)
  | NeedsForceConstants      (* TypeError 30-34 *)
  | IEnergyErr (e : bins_err)
  | IMapErr (e : derr)
  | ICoherentErr
  | IBroadenErr (e : fwerr)
  | ISplitErr (e : binerr).

(** --q-broadening has nargs=1, --energy-broadening nargs='+' (utils.py:773-775, 799-814):
    both are non-empty lists if given. *)
Record iargs := mkIA {
  ia_weighting : string;             (* "dos" or "coherent" *)
  ia_temperature : option R;
  ia_ebins : nat; ia_emin : option R; ia_emax : option R;
  ia_qb : option R; ia_eb : option (R * list R);
  ia_shape : string; ia_scale : option R; ia_btol : R }.

(** The path: its x axis, its frequencies, the labels found by get_qpoint_labels, and
    the rows of the structure factor map at a temperature (None: no Debye-Waller factor)
    for given energy bins. *)
Record pdata := mkPd {
  pd_x : list R; pd_t : ftable; pd_ticks : ticks;
  pd_coherent : option R -> list R -> option (list (list R)) }.
Inductive idata :=
  | IForce (labels : list string) (p : pdata)      (* labels: explicit_kpoints_labels *)
  | IModes (p : pdata)
  | IFreqs (p : pdata).
Definition path_of (d : idata) : pdata := match d with IForce _ p | IModes p | IFreqs p => p end.

Definition is_coherent (a : iargs) : bool := String.eqb (ia_weighting a) "coherent".

(** 23-34 *)
Definition refused (a : iargs) (d : idata) : option ierr :=
  if negb (is_coherent a) then None else
  match d with
  | IFreqs _ => Some NeedsEigenvectors
  | IModes _ => match ia_temperature a with Some _ => Some NeedsForceConstants | None => None end
  | IForce _ _ => None
  end.

(** 50-52 *)
Definition i_bins (k room : R) (a : iargs) (t : ftable) : res (list R) bins_err :=
  match all_freqs k t with
  | [] => Err EmptyRange     (* np.min of an empty array raises *)
  | f0 :: fs => get_energy_bins f0 fs (ia_ebins a + 1) (ia_emin a) (ia_emax a) (105 / 100) room
  end.

(** 56-71 *)
Definition i_map (k wmin : R) (a : iargs) (p : pdata) (bins : list R) : res (list (list R)) ierr :=
  if is_coherent a then match pd_coherent p (ia_temperature a) bins with Some z => Ok z | None => Err ICoherentErr end
  else match calculate_dos_map k bins (pd_t p) None wmin with Ok z => Ok z | Err e => Err (IMapErr e) end.

(** 73-79; the intensities may come out as nan ([None]). *)
Definition i_broaden (coeffs : R -> list R) (a : iargs) (x bins : list R) (z : list (list R)) : res (option (list (list R))) ierr :=
  match ia_qb a, ia_eb a with
  | None, None => Ok (Some z)
  | _, _ =>
    match broaden2d coeffs [mk2 x bins (Some z)] 0
            (match ia_qb a with Some w => Fixed w | None => NoWidth end)
            (match ia_eb a with Some (w, _) => Fixed w | None => NoWidth end)
            (ia_shape a) (Some "convolve"%string) None None Fwhm (1 / 100) ChebyLog with
    | Err e => Err (IBroadenErr e)
    | Ok (st, r) => Ok (sz (get st r))
    end
  end.

(** 85-86 *)
Definition i_ticks (d : idata) : ticks :=
  match d with
  | IForce labels p =>
      match cli_tick_labels labels with
      | [] => pd_ticks p
      | l => map (fun q => (Z.of_nat (fst q), snd q)) l
      end
  | IModes p | IFreqs p => pd_ticks p
  end.

(** 88-89 *)
Definition i_scaled (a : iargs) (z : option (list (list R))) : option (list (list R)) :=
  match ia_scale a with None => z | Some s => option_map (map (map (fun v => v * s))) z end.

(** One row per q-point; [None] is a row of nan. *)
Definition i_rows (n : nat) (z : option (list (list R))) : list (option (list R)) :=
  match z with Some z => map Some z | None => repeat None n end.

(** 91; 38-47 for split_args, utils.py:314-315 *)
Definition i_split (a : iargs) (d : idata) (s : xspec (option (list R))) : res (list (xspec (option (list R)))) binerr :=
  match d with
  | IForce labels _ => split s (Some (map Z.of_nat (cli_break_points labels))) None
  | _ => split s None (Some (ia_btol a))
  end.

(** 20-91: the energy bins, the whole map and its regions. *)
Definition intensity_tool (coeffs : R -> list R) (k room wmin : R) (a : iargs) (d : idata)
  : res (list R * xspec (option (list R)) * list (xspec (option (list R)))) ierr :=
  match refused a d with
  | Some e => Err e
  | None =>
    match i_bins k room a (pd_t (path_of d)) with
    | Err e => Err (IEnergyErr e)
    | Ok bins =>
      match i_map k wmin a (path_of d) bins with
      | Err e => Err e
      | Ok z =>
        match i_broaden coeffs a (pd_x (path_of d)) bins z with
        | Err e => Err e
        | Ok z1 =>
          let s := mkX (pd_x (path_of d)) (i_rows (List.length z) (i_scaled a z1)) (Some (i_ticks d)) in
          match i_split a d s with
          | Err e => Err (ISplitErr e)
          | Ok segs => Ok (bins, s, segs)
          end
        end
      end
    end
  end.
