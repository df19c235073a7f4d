(** Model of the program euphonic-dos, from the words of its command line to the figure:
    /repo/euphonic/cli/dos.py 19-136, on the command line of M_parser, the calculation of M_calc
    (M_doscalc), the curves of M_clidos and the end of the tool in M_style.
    - [load] is load_data_from_file (the subject of M_load): force constants, or frequencies or
      modes read from a file, with the data of the species.
    - [hartree u] is one hartree in the unit u if u is a unit of energy, [room u] 1e-5 meV in it,
      [bohr u] one bohr in the unit u if u is a unit of length, [pretty u] its abbreviation.
      Both units are looked up before the calculation; in the program an energy unit that
      does not exist is noticed only after it.
    - --use-c and --n-threads choose how the modes are computed; they are left out (C12).
    - A number of bins below zero raises; --ebins -1, which makes an empty list of bins first, too.
    - A bare --shape gives None, which is no shape; the model writes it as the empty word. *)
From Coq Require Import String.
From Verif Require Import Base Cpx Vec3 M_path M_broad M_dos M_bins M_coll M_fixed M_style M_clidos M_grid M_cell M_qpts M_dynmat M_dipole M_struct M_asr M_calc M_doscalc.
From Verif Require M_parser.
Open Scope R_scope.
Import M_parser (val(..), namespace).

(** What a setting holds *)
Definition as_str (v : val) : option string := match v with M_parser.VStr s => Some s | _ => None end.
Definition as_num (v : val) : option R := match v with M_parser.VFloat x => Some x | _ => None end.
Definition as_int (v : val) : option Z := match v with M_parser.VInt z => Some z | _ => None end.
Definition as_bool (v : val) : option bool := match v with M_parser.VBool b => Some b | _ => None end.
Definition as_opt {A} (f : val -> option A) (v : val) : option (option A) := match v with M_parser.VNone => Some None | _ => option_map Some (f v) end.
Fixpoint all_some {A B} (f : A -> option B) (l : list A) : option (list B) :=
  match l with [] => Some [] | x :: t => match f x, all_some f t with Some y, Some r => Some (y :: r) | _, _ => None end end.
Definition as_list {A} (f : val -> option A) (v : val) : option (list A) := match v with M_parser.VList l => all_some f l | _ => None end.
Definition as_pair {A} (f : val -> option A) (v : val) : option (A * A) := match as_list f v with Some [a; b] => Some (a, b) | _ => None end.
Definition as_triple {A} (f : val -> option A) (v : val) : option (A * A * A) := match as_list f v with Some [a; b; c] => Some (a, b, c) | _ => None end.
Definition read {A} (ns : namespace) (f : val -> option A) (d : string) : option A := match ns d with Some v => f v | None => None end.

(** args.asr and args.adaptive_fit; the choices of the parser *)
Definition asr_of (o : option string) : option (option asr_kind) :=
  match o with
  | None => Some None
  | Some s => if String.eqb s "reciprocal" then Some (Some Reciprocal) else if String.eqb s "realspace" then Some (Some Realspace) else None
  end.
Definition fit_of (s : string) : option kfit := if String.eqb s "cubic" then Some Cubic else if String.eqb s "cheby-log" then Some ChebyLog else None.
Definition method_of (coeffs : R -> list R) (m : string) (error : R) (fit : kfit) : option method :=
  if String.eqb m "reference" then Some Reference else if String.eqb m "fast" then Some (Fast coeffs error fit) else None.

(** The arguments of the tool; those of M_clidos for a given --grid-spacing in the unit of the
    calculation, and a number of bins *)
Record dset := mkDS { d_file : string; d_asr : option asr_kind; d_param : R; d_eunit : string; d_lunit : string; d_spacing : R; d_ebins : Z;
                      d_args : R -> nat -> dargs; d_plot : pargs }.
Local Notation "'get' x := e 'in' f" := (match e with Some x => f | None => None end) (at level 200, x name, e at level 100, f at level 200).
Definition plot_settings (ns : namespace) : option pargs :=
  get nb := read ns as_bool "no_base_style" in
  get st := read ns (as_opt (as_list as_str)) "style" in
  get fs := read ns (as_opt as_num) "fontsize" in
  get fo := read ns (as_opt as_str) "font" in
  get lw := read ns (as_opt as_num) "linewidth" in
  get fz := read ns (as_opt (as_pair as_num)) "figsize" in
  get fu := read ns as_str "figsize_unit" in
  get ti := read ns as_str "title" in
  get xl := read ns (as_opt as_str) "xlabel" in
  get yl := read ns (as_opt as_str) "ylabel" in
  get js := read ns (as_opt as_str) "save_json" in
  get sv := read ns (as_opt as_str) "save_to" in
  Some (M_style.mkA nb st None fs fo lw fz fu ti xl yl js sv false).
Definition dos_settings (coeffs : R -> list R) (ns : namespace) : option dset :=
  get file := read ns as_str "filename" in
  get w := read ns as_str "weighting" in
  get pd := read ns (as_opt (as_list as_str)) "pdos" in
  get g := read ns (as_opt (as_triple as_int)) "grid" in
  get sp := read ns as_num "grid_spacing" in
  get ad := read ns as_bool "adaptive" in
  get me := read ns as_str "adaptive_method" in
  get er := read ns as_num "adaptive_error" in
  get fi := read ns as_str "adaptive_fit" in
  get fit := fit_of fi in
  get meth := method_of coeffs me er fit in
  get sc := read ns (as_opt as_num) "adaptive_scale" in
  get inst := read ns (as_opt (as_list as_num)) "inst_broadening" in
  get eb := read ns (as_opt (as_list as_num)) "energy_broadening" in
  get sh := read ns (as_opt as_str) "shape" in
  get nb := read ns as_int "ebins" in
  get lo := read ns (as_opt as_num) "e_min" in
  get hi := read ns (as_opt as_num) "e_max" in
  get scale := read ns (as_opt as_num) "scale" in
  get asr := read ns (as_opt as_str) "asr" in
  get kind := asr_of asr in
  get par := read ns as_num "dipole_parameter" in
  get eu := read ns as_str "energy_unit" in
  get lu := read ns as_str "length_unit" in
  get plot := plot_settings ns in
  Some (mkDS file kind par eu lu sp nb
          (fun s n => mkArgs w pd g s ad meth er sc inst eb (match sh with Some x => x | None => ""%string end) n lo hi scale) plot).

Inductive source := ForceFile (x : fcobj) | ModesFile (d : loaded).
Inductive mainerr (E : Type) := LineErr (e : M_parser.perr) | AttributeErr | LoadErr (e : E) | UnitErr (u : string) | BinsErr | RunErr (e : runerr).
Arguments LineErr {E}. Arguments AttributeErr {E}. Arguments LoadErr {E}. Arguments UnitErr {E}. Arguments BinsErr {E}. Arguments RunErr {E}.

Section Main.
Variables (int_of : string -> option Z) (float_of : string -> option R).
Context {E : Type}. Variable load : string -> bool -> res (source * sources) E.
Variables (hartree bohr : string -> option R) (room : string -> R) (pretty : string -> string).
Variables (erfc : R -> R) (reigh : real_eigh) (ceigh : complex_eigh) (argsort : list R -> list nat) (chunk : nat) (coeffs : R -> list R) (junk : nat -> nat -> nat -> R) (wmin : R).
Variables (inch : string -> option R) (sheets : string -> option sheet) (rc : string -> value).
(** The bins and curves *)
Definition dos_data (s : dset) : res (list R * list (option (list R))) (mainerr E) :=
  let frequencies_only := (String.eqb (a_weighting (d_args s 0 0%nat)) "dos" && match a_pdos (d_args s 0 0%nat) with None => true | _ => false end)%bool in
  match load (d_file s) frequencies_only with
  | Err e => Err (LoadErr e)
  | Ok (data, src) =>
    match hartree (d_eunit s) with
    | None => Err (UnitErr (d_eunit s))
    | Some k =>
      if (d_ebins s <? 0)%Z then Err BinsErr else
      let nb := Z.to_nat (d_ebins s) in
      match data with
      | ForceFile x =>
        match bohr (d_lunit s) with
        | None => Err (UnitErr (d_lunit s))
        | Some b =>
          match dos_from_fc erfc reigh ceigh argsort chunk coeffs junk k wmin (room (d_eunit s)) src (d_args s (d_spacing s * b) nb) (d_asr s) (d_param s) x with
          | Err e => Err (RunErr e)
          | Ok r => Ok r
          end
        end
      | ModesFile d => match dos_tool coeffs k wmin (room (d_eunit s)) src (d_args s 0 nb) d with Err e => Err (RunErr (ToolErr e)) | Ok r => Ok r end
      end
    end
  end.
Definition dos_main (line : list string) : res (list R * list (option (list R)) * (list event * option terr)) (mainerr E) :=
  match M_parser.tool_args int_of float_of M_parser.Dos line with
  | Err e => Err (LineErr e)
  | Ok ns =>
    match dos_settings coeffs ns with
    | None => Err AttributeErr
    | Some s => match dos_data s with Err e => Err e | Ok r => Ok (r, finish inch sheets rc Dos (d_plot s) (pretty (d_eunit s)) "") end
    end
  end.
End Main.
