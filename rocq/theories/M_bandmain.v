(** Model of the program euphonic-dispersion, from the words of its command line to the figure:
    /repo/euphonic/cli/dispersion.py 15-63, on the command line of M_parser, the bands of M_bands
    and the end of the tool in M_style.
    - [load file frequencies_only] is load_data_from_file (the subject of M_load): force constants,
      modes or frequencies.
    - [hartree u] is one hartree in the unit u if u is a unit of energy, [pretty u] its
      abbreviation; [angstrom u] is one u in angstrom if u is a unit of length.  The energy unit is
      looked up before the calculation; in the program one that does not exist is noticed only
      after it.
    - --use-c and --n-threads choose how the modes are computed; they are left out (C12). *)
From Coq Require Import String.
From Verif Require Import Base Cpx Vec3 M_grid M_cell M_qpts M_dynmat M_dipole M_struct M_asr M_calc M_path M_dos M_reorder M_bins M_bands M_style M_dosmain.
From Verif Require M_parser.
Open Scope R_scope.
Import M_parser (val(..), namespace).
Local Notation "'get' x := e 'in' f" := (match e with Some x => f | None => None end) (at level 200, x name, e at level 100, f at level 200).

(** The arguments of the tool; the limits are those of the energy axis of the figure
    (dispersion.py 59-60) *)
Record bset := mkBS { bs_file : string; bs_args : M_bands.dargs; bs_eunit : string; bs_limits : option R * option R; bs_plot : pargs }.
Definition band_settings (ns : namespace) : option bset :=
  get file := read ns as_str "filename" in
  get re := read ns as_bool "reorder" in
  get lu := read ns as_str "length_unit" in
  get sp := read ns as_num "q_spacing" in
  get asr := read ns (as_opt as_str) "asr" in
  get kind := asr_of asr in
  get par := read ns as_num "dipole_parameter" in
  get bt := read ns as_num "btol" in
  get eu := read ns as_str "energy_unit" in
  get lo := read ns (as_opt as_num) "e_min" in
  get hi := read ns (as_opt as_num) "e_max" in
  get plot := plot_settings ns in
  Some (mkBS file (mkDA re lu sp kind par bt) eu (lo, hi) plot).

Inductive bmainerr (E : Type) := BLineErr (e : M_parser.perr) | BAttributeErr | BLoadErr (e : E) | BUnitErr (u : string) | BRunErr (e : bderr).
Arguments BLineErr {E}. Arguments BAttributeErr {E}. Arguments BLoadErr {E}. Arguments BUnitErr {E}. Arguments BRunErr {E}.

Section Main.
Variables (int_of : string -> option Z) (float_of : string -> option R).
Context {E : Type}. Variable load : string -> bool -> res ddata E.
Variables (hartree angstrom : string -> option R) (pretty : string -> string).
Variable seekpath : M3 -> list V3 -> list nat -> R -> bpath.
Variables (erfc : R -> R) (reigh : real_eigh) (ceigh : complex_eigh) (argsort : list R -> list nat) (chunk : nat) (junk : nat -> nat -> nat -> R).
Variables (found : list V3 -> ticks) (tol kx : R).
Variables (inch : string -> option R) (sheets : string -> option sheet) (rc : string -> value).
(** dispersion.py 18-52 *)
Definition band_data (s : bset) : res (xspec (list R) * list (xspec (list R))) (bmainerr E) :=
  match load (bs_file s) (negb (da_reorder (bs_args s))) with
  | Err e => Err (BLoadErr e)
  | Ok d =>
    match hartree (bs_eunit s) with
    | None => Err (BUnitErr (bs_eunit s))
    | Some k =>
      match dispersion_tool seekpath erfc reigh ceigh argsort chunk junk angstrom found tol k kx (bs_args s) d with
      | Err e => Err (BRunErr e)
      | Ok r => Ok r
      end
    end
  end.
(** The bands, which --save-json writes, their parts, which are drawn, the limits of the energy
    axis, and what is drawn and written *)
Definition band_main (line : list string)
  : res (xspec (list R) * list (xspec (list R)) * (option R * option R) * (list event * option terr)) (bmainerr E) :=
  match M_parser.tool_args int_of float_of M_parser.Dispersion line with
  | Err e => Err (BLineErr e)
  | Ok ns =>
    match band_settings ns with
    | None => Err BAttributeErr
    | Some s =>
      match band_data s with
      | Err e => Err e
      | Ok r => Ok (r, bs_limits s, finish inch sheets rc Dispersion (bs_plot s) "" (pretty (bs_eunit s)))
      end
    end
  end.
End Main.
