(** Model of the program euphonic-intensity-map, from the words of its command line to the figure:
    /repo/euphonic/cli/intensity_map.py 20-103, on the command line of M_parser, the path of
    M_bands, the map of M_intmap and the end of the tool in M_style.
    - [load file frequencies_only] is load_data_from_file (the subject of M_load): force constants,
      modes or frequencies.
    - [hartree u] is one hartree in the unit u if u is a unit of energy, [room u] the room left on
      the energy axis (M_path), [pretty u] its abbreviation; [angstrom u] is one u in angstrom if u
      is a unit of length.  [kx] takes 1/bohr, [ax] 1/angstrom to the inverse unit of the cell
      vectors, that of the x axis.
    - [coherent] is the map of structure factors (calculate_structure_factor and calculate_sqw_map,
      the subject of M_sf and M_weight), with all it is made from.
    - A bare --shape gives None, which is no shape; the model writes it as the empty word.
    - --use-c and --n-threads choose how the modes are computed; they are left out (C12).
    - Less than one bin is an error here; in the program of np.linspace below -1, and for -1 and 0
      some later step, which is not followed.
    - frequencies_only makes no difference to the frequencies (M_bands). *)
From Coq Require Import String.
From Verif Require Import Base Cpx Vec3 M_grid M_cell M_qpts M_dynmat M_dipole M_struct M_asr M_calc M_path M_dos M_reorder M_bins M_bands M_intmap M_style M_dosmain M_powmain.
From Verif Require M_parser.
Open Scope R_scope.
Import M_parser (val(..), namespace).
Local Notation "'get' x := e 'in' f" := (match e with Some x => f | None => None end) (at level 200, x name, e at level 100, f at level 200).

(** The arguments of the tool; those of M_intmap for the value of 1/length-unit on the x axis and
    a number of bins.  [is_grid] is the grid of the Debye-Waller factor. *)
Record iset := mkIS { is_file : string; is_weighting : string; is_temperature : option R; is_lunit : string; is_spacing : R; is_asr : option asr_kind; is_param : R; is_eunit : string; is_ebins : Z;
                      is_grid : option (Z * Z * Z) * R; is_map : R -> nat -> iargs; is_limits : option R * option R; is_plot : M_style.pargs }.
Definition int_plot_settings (ns : namespace) : option M_style.pargs :=
  get nb := read ns as_bool "no_base_style" in
  get st := read ns (as_opt (as_list as_str)) "style" in
  get cm := read ns (as_opt as_str) "cmap" in
  get fs := read ns (as_opt as_num) "fontsize" in
  get fo := read ns (as_opt as_str) "font" in
  get fz := read ns (as_opt (as_pair as_num)) "figsize" in
  get fu := read ns as_str "figsize_unit" in
  get ti := read ns as_str "title" in
  get xl := read ns (as_opt as_str) "xlabel" in
  get yl := read ns (as_opt as_str) "ylabel" in
  get js := read ns (as_opt as_str) "save_json" in
  get sv := read ns (as_opt as_str) "save_to" in
  Some (M_style.mkA nb st cm fs fo None fz fu ti xl yl js sv false).
Definition int_settings (ns : namespace) : option iset :=
  get file := read ns as_str "filename" in
  get we := read ns as_str "weighting" in
  get te := read ns (as_opt as_num) "temperature" in
  get lu := read ns as_str "length_unit" in
  get sp := read ns as_num "q_spacing" in
  get asr := read ns (as_opt as_str) "asr" in
  get kind := asr_of asr in
  get par := read ns as_num "dipole_parameter" in
  get eu := read ns as_str "energy_unit" in
  get nb := read ns as_int "ebins" in
  get lo := read ns (as_opt as_num) "e_min" in
  get hi := read ns (as_opt as_num) "e_max" in
  get gr := read ns (as_opt (as_triple as_int)) "grid" in
  get gs := read ns as_num "grid_spacing" in
  get qb := read ns (as_opt (as_one as_num)) "q_broadening" in
  get eb := read ns (as_opt (as_list as_num)) "energy_broadening" in
  get sh := read ns (as_opt as_str) "shape" in
  get sc := read ns (as_opt as_num) "scale" in
  get bt := read ns as_num "btol" in
  get vm := read ns (as_opt as_num) "vmin" in
  get vx := read ns (as_opt as_num) "vmax" in
  get plot := int_plot_settings ns in
  Some (mkIS file we te lu sp kind par eu nb (gr, gs)
          (fun y n => mkIA we te n lo hi (option_map (fun w => w * y) qb) (match eb with Some (w :: r) => Some (w, r) | _ => None end)
                        (match sh with Some x => x | None => ""%string end) sc bt) (vm, vx) plot).

Inductive imainerr (E : Type) := ILineErr (e : M_parser.perr) | IAttributeErr | ILoadErr (e : E) | IUnitErr (u : string) | IBandErr (e : bderr) | IBinsErr | IRunErr (e : ierr).
Arguments ILineErr {E}. Arguments IAttributeErr {E}. Arguments ILoadErr {E}. Arguments IUnitErr {E}. Arguments IBandErr {E}. Arguments IBinsErr {E}. Arguments IRunErr {E}.

Section Main.
Variables (int_of : string -> option Z) (float_of : string -> option R).
Context {E : Type}. Variable load : string -> bool -> res ddata E.
Variables (hartree angstrom : string -> option R) (room : string -> R) (pretty : string -> string).
Variable seekpath : M3 -> list V3 -> list nat -> R -> bpath.
Variables (erfc : R -> R) (reigh : real_eigh) (ceigh : complex_eigh) (argsort : list R -> list nat) (chunk : nat) (junk : nat -> nat -> nat -> R).
Variables (found : list V3 -> ticks) (kx ax wmin : R) (coeffs : R -> list R).
(** Of the file, the sum rule, --dipole-parameter, the grid (its spacing in 1/angstrom), the
    q-points and their modes, --temperature and the energy bins *)
Variable coherent : ddata -> option asr_kind -> R -> option (Z * Z * Z) * R -> list V3 -> etable -> option R -> list R -> option (list (list R)).
Variables (inch : string -> option R) (sheets : string -> option sheet) (rc : string -> value).

(** 27-34 *)
Definition needs (weighting : string) (temperature : option R) (d : ddata) : option ierr :=
  if negb (String.eqb weighting "coherent") then None else
  match d with
  | DFreqs _ _ _ => Some NeedsEigenvectors
  | DModes _ _ _ => match temperature with Some _ => Some NeedsForceConstants | None => None end
  | DForce _ _ _ => None
  end.
(** 36-49: the path; [dist] and the spacing of [grid] are in 1/angstrom *)
Definition int_path (asr : option asr_kind) (param dist : R) (grid : option (Z * Z * Z) * R) (d : ddata) : res idata bderr :=
  let show cell qpts (e : etable) := mkPd (calc_abscissa (reciprocal_cell cell) kx qpts) (et e) (found qpts)
                                       (coherent d asr param grid qpts e) in
  match d with
  | DForce u types x =>
      match bands_from_force_constants seekpath erfc reigh ceigh argsort chunk junk 1 u types x dist false asr param with
      | Err e => Err e
      | Ok (qpts, e, _, _) => Ok (IForce (bp_labels (band_path seekpath u types x dist false)) (show (f_cell (o_d x)) qpts e))
      end
  | DModes cell qpts e => Ok (IModes (show cell qpts e))
  | DFreqs cell qpts t => Ok (IFreqs (show cell qpts (mkE t 0 (fun _ _ _ _ => Czero))))
  end.
(** 20-91 *)
Definition int_data (s : iset) : res (list R * xspec (option (list R)) * list (xspec (option (list R)))) (imainerr E) :=
  match load (is_file s) (negb (String.eqb (is_weighting s) "coherent")) with
  | Err e => Err (ILoadErr e)
  | Ok d =>
    match needs (is_weighting s) (is_temperature s) d with
    | Some e => Err (IRunErr e)
    | None =>
      match angstrom (is_lunit s) with
      | None => Err (IUnitErr (is_lunit s))
      | Some l =>
        match int_path (is_asr s) (is_param s) (is_spacing s / l) (fst (is_grid s), snd (is_grid s) / l) d with
        | Err e => Err (IBandErr e)
        | Ok p =>
          match hartree (is_eunit s) with
          | None => Err (IUnitErr (is_eunit s))
          | Some k =>
            if (is_ebins s <? 1)%Z then Err IBinsErr
            else
              match intensity_tool coeffs k (room (is_eunit s)) wmin (is_map s (/ l * ax) (Z.to_nat (is_ebins s))) p with
              | Err e => Err (IRunErr e)
              | Ok r => Ok r
              end
          end
        end
      end
    end
  end.
(** The energy bin edges, the map, which --save-json writes, its regions, which are drawn, the
    limits of the colours, and what is drawn and written *)
Definition int_main (line : list string)
  : res (list R * xspec (option (list R)) * list (xspec (option (list R))) * (option R * option R) * (list event * option terr)) (imainerr E) :=
  match M_parser.tool_args int_of float_of M_parser.IntensityMap line with
  | Err e => Err (ILineErr e)
  | Ok ns =>
    match int_settings ns with
    | None => Err IAttributeErr
    | Some s =>
      match int_data s with
      | Err e => Err e
      | Ok r => Ok (r, is_limits s, finish inch sheets rc IntensityMap (is_plot s) "" (pretty (is_eunit s)))
      end
    end
  end.
End Main.
