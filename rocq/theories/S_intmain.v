(** Words for the program euphonic-intensity-map (C102). *)
From Coq Require Import String.
From Verif Require Import Base M_calc S_dosmain.
From Verif Require M_parser M_intmap M_style.
Import M_parser (val(..)).
Open Scope R_scope.
Open Scope string_scope.

(** The arguments of the map; y is what 1/length-unit is on the x axis. *)
Definition says_intensity (ns : string -> option val) (y : R) (a : M_intmap.iargs) : Prop :=
  ns "weighting" = Some (VStr (M_intmap.ia_weighting a)) /\ ns "temperature" = Some (maybe VFloat (M_intmap.ia_temperature a)) /\
  ns "ebins" = Some (VInt (Z.of_nat (M_intmap.ia_ebins a))) /\ ns "e_min" = Some (maybe VFloat (M_intmap.ia_emin a)) /\ ns "e_max" = Some (maybe VFloat (M_intmap.ia_emax a)) /\
  match M_intmap.ia_qb a with
  | None => ns "q_broadening" = Some VNone
  | Some w => exists v, ns "q_broadening" = Some (VList [VFloat v]) /\ w = v * y
  end /\
  match M_intmap.ia_eb a with
  | None => ns "energy_broadening" = Some VNone
  | Some (w, r) => ns "energy_broadening" = Some (numbers (w :: r))
  end /\
  (ns "shape" = Some (VStr (M_intmap.ia_shape a)) \/ ns "shape" = Some VNone /\ M_intmap.ia_shape a = "") /\
  ns "scale" = Some (maybe VFloat (M_intmap.ia_scale a)) /\ ns "btol" = Some (VFloat (M_intmap.ia_btol a)).
(** The grid of the Debye-Waller factor, with its spacing in 1/angstrom; l is one length-unit in
    angstrom. *)
Definition says_dw_grid (ns : string -> option val) (l : R) (g : option (Z * Z * Z) * R) : Prop :=
  ns "grid" = Some (maybe (fun '(x, y, z) => VList [VInt x; VInt y; VInt z]) (fst g)) /\ exists s, ns "grid_spacing" = Some (VFloat s) /\ snd g = s / l.
(** The arguments of the figure *)
Definition says_int_plot (ns : string -> option val) (p : M_style.pargs) : Prop :=
  ns "no_base_style" = Some (VBool (M_style.a_no_base p)) /\ ns "style" = Some (maybe words (M_style.a_style p)) /\ ns "cmap" = Some (maybe VStr (M_style.a_cmap p)) /\
  ns "fontsize" = Some (maybe VFloat (M_style.a_fontsize p)) /\ ns "font" = Some (maybe VStr (M_style.a_font p)) /\ M_style.a_linewidth p = None /\
  ns "figsize" = Some (maybe (fun '(x, y) => VList [VFloat x; VFloat y]) (M_style.a_figsize p)) /\ ns "figsize_unit" = Some (VStr (M_style.a_unit p)) /\
  ns "title" = Some (VStr (M_style.a_title p)) /\ ns "xlabel" = Some (maybe VStr (M_style.a_xlabel p)) /\ ns "ylabel" = Some (maybe VStr (M_style.a_ylabel p)) /\
  ns "save_json" = Some (maybe VStr (M_style.a_save_json p)) /\ ns "save_to" = Some (maybe VStr (M_style.a_save_to p)) /\ M_style.a_no_widgets p = false.
(** The options other than those that choose what a map of numbers of modes shows *)
Definition not_plain_int : list string := ["--weighting"; "-w"; "--asr"; "--q-broadening"; "--qb"; "--energy-broadening"; "--eb"].
