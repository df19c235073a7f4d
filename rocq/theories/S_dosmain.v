(** Words for the program euphonic-dos (C98). *)
From Coq Require Import String.
From Verif Require Import Base Vec3 M_broad M_dos M_cell M_calc.
From Verif Require M_parser S_parser M_clidos M_style.
Import M_parser (val(..)).
Open Scope R_scope.
Open Scope string_scope.

(** The options that choose what is drawn besides the histogram of the frequencies *)
Definition not_plain : list string := ["--weighting"; "-w"; "--pdos"; "--adaptive"; "--instrument-broadening"; "--energy-broadening"; "--eb"; "--asr"].
(** The grid asked for: the three numbers of --grid, or else the coarsest with the spacing of
    --grid-spacing, in 1/length-unit; b is one bohr in that unit. *)
Definition asked_grid (ns : string -> option val) (cell : M3) (b : R) (g : Z * Z * Z) : Prop :=
  let '(g0, g1, g2) := g in
  ns "grid" = Some (VList [VInt g0; VInt g1; VInt g2]) \/
  (ns "grid" = Some VNone /\ exists s, ns "grid_spacing" = Some (VFloat s) /\ get_mp_grid_spec cell (s * b) = Some g).
Definition asked_scale (ns : string -> option val) (f : R) : Prop := ns "scale" = Some VNone /\ f = 1 \/ ns "scale" = Some (VFloat f).
(** The options about the looks of the figure and where it and the data go *)
Definition looks : list string := ["--title"; "--x-label"; "--xlabel"; "--y-label"; "--ylabel"; "--style"; "--no-base-style"; "--font"; "--font-size"; "--fontsize";
  "--fig-size"; "--figsize"; "--fig-size-unit"; "--figsize-unit"; "--line-width"; "--linewidth"; "--save-to"; "-s"; "--save-json"].
(** A line without them *)
Definition without_looks (us : list S_parser.use) : list S_parser.use := filter (fun u => negb (existsb (String.eqb (S_parser.u_name u)) looks)) us.

(** ** Where every setting goes *)
Definition maybe {A} (f : A -> val) (o : option A) : val := match o with None => VNone | Some x => f x end.
Definition numbers (l : list R) : val := VList (map VFloat l).
Definition words (l : list string) : val := VList (map VStr l).
(** The arguments of the curves: b is one bohr in the unit of --length-unit. *)
Definition says (coeffs : R -> list R) (ns : string -> option val) (b : R) (a : M_clidos.dargs) : Prop :=
  ns "weighting" = Some (VStr (M_clidos.a_weighting a)) /\ ns "pdos" = Some (maybe words (M_clidos.a_pdos a)) /\
  ns "grid" = Some (maybe (fun '(x, y, z) => VList [VInt x; VInt y; VInt z]) (M_clidos.a_grid a)) /\
  (exists s, ns "grid_spacing" = Some (VFloat s) /\ M_clidos.a_spacing a = s * b) /\
  ns "adaptive" = Some (VBool (M_clidos.a_adaptive a)) /\ ns "adaptive_error" = Some (VFloat (M_clidos.a_error a)) /\
  (ns "adaptive_method" = Some (VStr "reference") /\ M_clidos.a_method a = Reference \/
   ns "adaptive_method" = Some (VStr "fast") /\ exists fit, M_clidos.a_method a = Fast coeffs (M_clidos.a_error a) fit /\
     (ns "adaptive_fit" = Some (VStr "cubic") /\ fit = Cubic \/ ns "adaptive_fit" = Some (VStr "cheby-log") /\ fit = ChebyLog)) /\
  ns "adaptive_scale" = Some (maybe VFloat (M_clidos.a_ascale a)) /\ ns "inst_broadening" = Some (maybe numbers (M_clidos.a_inst a)) /\
  ns "energy_broadening" = Some (maybe numbers (M_clidos.a_eb a)) /\
  (ns "shape" = Some (VStr (M_clidos.a_shape a)) \/ ns "shape" = Some VNone /\ M_clidos.a_shape a = "") /\
  ns "ebins" = Some (VInt (Z.of_nat (M_clidos.a_ebins a))) /\ ns "e_min" = Some (maybe VFloat (M_clidos.a_emin a)) /\ ns "e_max" = Some (maybe VFloat (M_clidos.a_emax a)) /\
  ns "scale" = Some (maybe VFloat (M_clidos.a_scale a)).
(** The sum rule *)
Definition says_asr (ns : string -> option val) (k : option asr_kind) : Prop :=
  ns "asr" = Some VNone /\ k = None \/ ns "asr" = Some (VStr "reciprocal") /\ k = Some Reciprocal \/ ns "asr" = Some (VStr "realspace") /\ k = Some Realspace.
(** The arguments of the figure *)
Definition says_plot (ns : string -> option val) (p : M_style.pargs) : Prop :=
  ns "no_base_style" = Some (VBool (M_style.a_no_base p)) /\ ns "style" = Some (maybe words (M_style.a_style p)) /\ M_style.a_cmap p = None /\
  ns "fontsize" = Some (maybe VFloat (M_style.a_fontsize p)) /\ ns "font" = Some (maybe VStr (M_style.a_font p)) /\ ns "linewidth" = Some (maybe VFloat (M_style.a_linewidth p)) /\
  ns "figsize" = Some (maybe (fun '(x, y) => VList [VFloat x; VFloat y]) (M_style.a_figsize p)) /\ ns "figsize_unit" = Some (VStr (M_style.a_unit p)) /\
  ns "title" = Some (VStr (M_style.a_title p)) /\ ns "xlabel" = Some (maybe VStr (M_style.a_xlabel p)) /\ ns "ylabel" = Some (maybe VStr (M_style.a_ylabel p)) /\
  ns "save_json" = Some (maybe VStr (M_style.a_save_json p)) /\ ns "save_to" = Some (maybe VStr (M_style.a_save_to p)) /\ M_style.a_no_widgets p = false.
