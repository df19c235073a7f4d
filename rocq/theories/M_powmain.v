(** Model of the program euphonic-powder-map, from the words of its command line to the figure:
    /repo/euphonic/cli/powder_map.py 37-279, on the command line of M_parser, the calculation of
    M_calc and the map of M_powcalc, and the end of the tool in M_style.
    - [load] is load_data_from_file (the subject of M_load): force constants with the data of the
      species and their scattering lengths, or something else.
    - [hartree u], [bohr u], [room u], [pretty u] as in M_dosmain; [hbar2 u] is hbar^2 over twice the
      mass of the neutron in the unit u times bohr squared; [pretty_q u] the abbreviation of 1/u.
    - The calculation is in bohr (M_powcalc): what the options give in 1/length-unit is converted
      before it, and the |q| axis converted back after it.  In the program the axis has the unit of
      the options throughout; tolerances on it are thus in 1/length-unit there, in 1/bohr here.
    - The units are looked up before the calculation; in the program an energy unit that does not
      exist is noticed only after the first.
    - A number of bins below zero raises; --ebins -1, which makes an empty list of bins first, too.
      A negative number of points is no points, as for range().
    - A bare --shape gives None, which is no shape; the model writes it as the empty word.
    - --use-c and --n-threads choose how the modes are computed; they are left out (C12).  With
      --use-brille the program goes on through Brille (M_brille, C86 and C93), not followed here.
    - The text boxes for the limits of the colours (266-300) are left out. *)
From Coq Require Import String.
From Verif Require Import Base Cpx Vec3 M_path M_broad M_dos M_bins M_coll M_fixed M_style M_clidos M_sample M_sf M_sphere M_powder M_weight M_grid M_cell M_qpts M_dynmat M_dipole M_struct M_asr M_calc M_doscalc M_powcalc M_dosmain.
From Verif Require M_parser.
Open Scope R_scope.
Import M_parser (val(..), namespace).

(** args.pdos of nargs=1: a list of one word *)
Definition as_one {A} (f : val -> option A) (v : val) : option A := match as_list f v with Some [x] => Some x | _ => None end.
Local Notation "'get' x := e 'in' f" := (match e with Some x => f | None => None end) (at level 200, x name, e at level 100, f at level 200).

(** 81-113: a width of c0 + c1 q + c2 q^2 + ... for |q| in 1/length-unit, for |q| in 1/bohr *)
Fixpoint q_widths (b p : R) (l : list R) : list R := match l with [] => [] | c :: r => c * p :: q_widths b (p / b) r end.

(** The arguments of the tool; those of M_powder for one bohr in the unit of length and a number
    of bins, those of M_weight for one bohr *)
Record pset := mkPS { ps_file : string; ps_asr : option asr_kind; ps_param : R; ps_eunit : string; ps_lunit : string; ps_ebins : Z; ps_jitter : bool; ps_brille : bool;
                      ps_map : R -> nat -> M_powder.pargs; ps_weight : R -> wargs; ps_limits : option R * option R; ps_plot : M_style.pargs }.
Definition map_plot_settings (ns : namespace) : option M_style.pargs :=
  get nb := read ns as_bool "no_base_style" in
  get st := read ns (as_opt (as_list as_str)) "style" in
  get cm := read ns (as_opt as_str) "cmap" in
  get fs := read ns (as_opt as_num) "fontsize" in
  get fo := read ns (as_opt as_str) "font" in
  get fz := read ns (as_opt (as_pair as_num)) "figsize" in
  get fu := read ns as_str "figsize_unit" in
  get ti := read ns as_str "title" in
  get xl := read ns (as_opt as_str) "xlabel" in
  get yl := read ns (as_opt as_str) "ylabel" in
  get js := read ns (as_opt as_str) "save_json" in
  get sv := read ns (as_opt as_str) "save_to" in
  get dw := read ns as_bool "disable_widgets" in
  Some (M_style.mkA nb st cm fs fo None fz fu ti xl yl js sv dw).
Definition powder_settings (ns : namespace) : option pset :=
  get file := read ns as_str "filename" in
  get asr := read ns (as_opt as_str) "asr" in
  get kind := asr_of asr in
  get par := read ns as_num "dipole_parameter" in
  get eu := read ns as_str "energy_unit" in
  get lu := read ns as_str "length_unit" in
  get nb := read ns as_int "ebins" in
  get ji := read ns as_bool "jitter" in
  get br := read ns as_bool "use_brille" in
  get q0 := read ns as_num "q_min" in
  get q1 := read ns as_num "q_max" in
  get qs := read ns as_num "q_spacing" in
  get np := read ns as_int "npts" in
  get nd := read ns (as_opt as_int) "npts_density" in
  get n0 := read ns as_int "npts_min" in
  get n1 := read ns as_int "npts_max" in
  get lo := read ns (as_opt as_num) "e_min" in
  get hi := read ns (as_opt as_num) "e_max" in
  get ei := read ns (as_opt as_num) "e_i" in
  get ef := read ns (as_opt as_num) "e_f" in
  get an := read ns (as_pair as_num) "angle_range" in
  get qb := read ns (as_opt (as_list as_num)) "q_broadening" in
  get eb := read ns (as_opt (as_list as_num)) "energy_broadening" in
  get sh := read ns (as_opt as_str) "shape" in
  get scale := read ns (as_opt as_num) "scale" in
  get we := read ns as_str "weighting" in
  get pd := read ns (as_opt (as_one as_str)) "pdos" in
  get te := read ns (as_opt as_num) "temperature" in
  get gr := read ns (as_opt (as_triple as_int)) "grid" in
  get sp := read ns as_num "grid_spacing" in
  get sa := read ns as_str "sampling" in
  get vm := read ns (as_opt as_num) "vmin" in
  get vx := read ns (as_opt as_num) "vmax" in
  get plot := map_plot_settings ns in
  Some (mkPS file kind par eu lu nb ji br
          (fun b n => mkPA (q0 * b) (q1 * b) (qs * b) (Z.to_nat np) (option_map (fun d => IZR d / (b * b)) nd) (Z.to_nat n0) (Z.to_nat n1) n lo hi ei ef an
                        (option_map (q_widths b b) qb) eb (match sh with Some x => x | None => ""%string end) scale)
          (fun b => mkWA we pd te gr (sp * b) sa) (vm, vx) plot).

Inductive pmainerr (E : Type) := PLineErr (e : M_parser.perr) | PAttributeErr | PLoadErr (e : E) | NotForceConstants | PUnitErr (u : string) | PBinsErr | UsesBrille | PRunErr (e : powerr).
Arguments PLineErr {E}. Arguments PAttributeErr {E}. Arguments PLoadErr {E}. Arguments NotForceConstants {E}. Arguments PUnitErr {E}. Arguments PBinsErr {E}. Arguments UsesBrille {E}. Arguments PRunErr {E}.

Section Main.
Variables (int_of : string -> option Z) (float_of : string -> option R).
Context {E : Type}. Variable load : string -> res (option (fcobj * sources * (nat -> R))) E.
Variables (hartree bohr : string -> option R) (room hbar2 : string -> R) (pretty pretty_q : string -> string).
Variables (erfc : R -> R) (reigh : real_eigh) (ceigh : complex_eigh) (argsort : list R -> list nat) (chunk : nat).
Variables (junk : list V3 -> nat -> nat -> nat -> R) (before : list V3 -> list ((nat -> nat -> nat -> R) * options)).
Variables (solve : M3 -> V3 -> V3) (ops : fcobj -> option (list symop)) (dw_chunk : nat) (kB fmin wmin c : R) (coeffs : R -> list R).
(** Random numbers for the sphere of each radius: for --jitter, on a grid, and for random points *)
Variables (jit : R -> nat -> R * R) (jit2 : R -> nat -> nat -> R * R) (always : R -> nat -> R * R).
Variables (inch : string -> option R) (sheets : string -> option sheet) (rc : string -> value).

Definition powder_data (s : pset) : res (list R * list R * (nat -> nat -> option R)) (pmainerr E) :=
  match load (ps_file s) with
  | Err e => Err (PLoadErr e)
  | Ok None => Err NotForceConstants
  | Ok (Some (x, src, sl)) =>
    if pdos_clash (ps_weight s 1) then Err (PRunErr (PowTool PdosNeedsDos))
    else if ps_brille s then Err UsesBrille
    else
      match bohr (ps_lunit s), hartree (ps_eunit s) with
      | None, _ => Err (PUnitErr (ps_lunit s))
      | _, None => Err (PUnitErr (ps_eunit s))
      | Some b, Some k =>
        if (ps_ebins s <? 0)%Z then Err PBinsErr
        else
          match powder_from_fc erfc reigh ceigh argsort chunk junk before (ps_asr s) (ps_param s) solve (ops x) dw_chunk kB fmin wmin k c src sl
                  (fun q => if ps_jitter s then Some (jit q) else None) (fun q => if ps_jitter s then Some (jit2 q) else None) always coeffs
                  (hbar2 (ps_eunit s)) (room (ps_eunit s)) (ps_map s b (Z.to_nat (ps_ebins s))) (ps_weight s b) x with
          | Err e => Err (PRunErr e)
          | Ok (edges, bins, z) => Ok (map (fun q => q / b) edges, bins, z)
          end
      end
  end.
(** The |q| bin edges, the energy bin edges, the map, the limits of the colours, and what is
    drawn and written *)
Definition powder_main (line : list string)
  : res (list R * list R * (nat -> nat -> option R) * (option R * option R) * (list event * option terr)) (pmainerr E) :=
  match M_parser.tool_args int_of float_of M_parser.PowderMap line with
  | Err e => Err (PLineErr e)
  | Ok ns =>
    match powder_settings ns with
    | None => Err PAttributeErr
    | Some s =>
      match powder_data s with
      | Err e => Err e
      | Ok r => Ok (r, ps_limits s, finish inch sheets rc PowderMap (ps_plot s) (pretty_q (ps_lunit s)) (pretty (ps_eunit s)))
      end
    end
  end.
End Main.
