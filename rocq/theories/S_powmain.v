(** Words for the program euphonic-powder-map (C100). *)
From Coq Require Import String.
From Verif Require Import Base Vec3 M_calc S_dosmain.
From Verif Require M_parser M_powder M_weight M_style.
Import M_parser (val(..)).
Open Scope R_scope.
Open Scope string_scope.

(** c0 + c1 x + c2 x^2 + ... *)
Definition poly_at (l : list R) (x : R) : R := sumn (length l) (fun i => nth i l 0 * x ^ i).
(** The arguments of the map; b is one bohr in the unit of --length-unit, in the inverse of which
    the options give |q|: so many times b are the arguments, in 1/bohr. *)
Definition says_map (ns : string -> option val) (b : R) (a : M_powder.pargs) : Prop :=
  (exists x, ns "q_min" = Some (VFloat x) /\ M_powder.q_min a = x * b) /\ (exists x, ns "q_max" = Some (VFloat x) /\ M_powder.q_max a = x * b) /\
  (exists x, ns "q_spacing" = Some (VFloat x) /\ M_powder.q_spacing a = x * b) /\
  (exists z, ns "npts" = Some (VInt z) /\ M_powder.p_npts a = Z.to_nat z) /\
  match M_powder.npts_density a with
  | None => ns "npts_density" = Some VNone
  | Some d => exists z, ns "npts_density" = Some (VInt z) /\ forall q, d * (q * b) ^ 2 = IZR z * q ^ 2   (* points per square of |q| in 1/length-unit *)
  end /\
  (exists z, ns "npts_min" = Some (VInt z) /\ M_powder.npts_min a = Z.to_nat z) /\ (exists z, ns "npts_max" = Some (VInt z) /\ M_powder.npts_max a = Z.to_nat z) /\
  ns "ebins" = Some (VInt (Z.of_nat (M_powder.p_ebins a))) /\
  ns "e_min" = Some (maybe VFloat (M_powder.p_emin a)) /\ ns "e_max" = Some (maybe VFloat (M_powder.p_emax a)) /\
  ns "e_i" = Some (maybe VFloat (M_powder.p_ei a)) /\ ns "e_f" = Some (maybe VFloat (M_powder.p_ef a)) /\
  ns "angle_range" = Some (VList [VFloat (fst (M_powder.p_angles a)); VFloat (snd (M_powder.p_angles a))]) /\
  match M_powder.p_qb a with
  | None => ns "q_broadening" = Some VNone
  | Some l => exists l0, ns "q_broadening" = Some (numbers l0) /\ length l = length l0 /\ forall q, poly_at l (q * b) = poly_at l0 q * b   (* the width at |q| *)
  end /\
  ns "energy_broadening" = Some (maybe numbers (M_powder.p_eb a)) /\
  (ns "shape" = Some (VStr (M_powder.p_shape a)) \/ ns "shape" = Some VNone /\ M_powder.p_shape a = "") /\
  ns "scale" = Some (maybe VFloat (M_powder.p_scale a)).
Definition says_weight (ns : string -> option val) (b : R) (w : M_weight.wargs) : Prop :=
  ns "weighting" = Some (VStr (M_weight.w_weighting w)) /\ ns "pdos" = Some (maybe (fun s => VList [VStr s]) (M_weight.w_pdos w)) /\
  ns "temperature" = Some (maybe VFloat (M_weight.w_temperature w)) /\
  ns "grid" = Some (maybe (fun '(x, y, z) => VList [VInt x; VInt y; VInt z]) (M_weight.w_grid w)) /\
  (exists s, ns "grid_spacing" = Some (VFloat s) /\ M_weight.w_spacing w = s * b) /\
  ns "sampling" = Some (VStr (M_weight.w_sampling w)).
(** The random numbers, if --jitter is given *)
Definition says_jitter {A} (ns : string -> option val) (r : R -> A) (o : R -> option A) : Prop :=
  ns "jitter" = Some (VBool true) /\ (forall q, o q = Some (r q)) \/ ns "jitter" = Some (VBool false) /\ (forall q, o q = None).
(** The arguments of the figure *)
Definition says_map_plot (ns : string -> option val) (p : M_style.pargs) : Prop :=
  ns "no_base_style" = Some (VBool (M_style.a_no_base p)) /\ ns "style" = Some (maybe words (M_style.a_style p)) /\ ns "cmap" = Some (maybe VStr (M_style.a_cmap p)) /\
  ns "fontsize" = Some (maybe VFloat (M_style.a_fontsize p)) /\ ns "font" = Some (maybe VStr (M_style.a_font p)) /\ M_style.a_linewidth p = None /\
  ns "figsize" = Some (maybe (fun '(x, y) => VList [VFloat x; VFloat y]) (M_style.a_figsize p)) /\ ns "figsize_unit" = Some (VStr (M_style.a_unit p)) /\
  ns "title" = Some (VStr (M_style.a_title p)) /\ ns "xlabel" = Some (maybe VStr (M_style.a_xlabel p)) /\ ns "ylabel" = Some (maybe VStr (M_style.a_ylabel p)) /\
  ns "save_json" = Some (maybe VStr (M_style.a_save_json p)) /\ ns "save_to" = Some (maybe VStr (M_style.a_save_to p)) /\ ns "disable_widgets" = Some (VBool (M_style.a_no_widgets p)).
(** The limits of the colours *)
Definition says_limits (ns : string -> option val) (l : option R * option R) : Prop := ns "vmin" = Some (maybe VFloat (fst l)) /\ ns "vmax" = Some (maybe VFloat (snd l)).
(** The options other than those that choose what a map of numbers of modes shows *)
Definition not_plain_map : list string :=
  ["--weighting"; "-w"; "--pdos"; "--asr"; "--energy-broadening"; "--eb"; "--q-broadening"; "--qb"; "--e-incident"; "--e-i"; "--e-final"; "--e-f"; "--use-brille"].
(** The number of points on the sphere of |q| in 1/length-unit *)
Definition asked_points (ns : string -> option val) (q : R) (n : nat) : Prop :=
  ns "npts_density" = Some VNone /\ (exists z, ns "npts" = Some (VInt z) /\ n = Z.to_nat z) \/
  exists d lo hi w, ns "npts_density" = Some (VInt d) /\ ns "npts_min" = Some (VInt lo) /\ ns "npts_max" = Some (VInt hi) /\
    IZR d * q ^ 2 <= IZR w < IZR d * q ^ 2 + 1 /\ n = Z.to_nat (Z.max lo (Z.min hi w)).
