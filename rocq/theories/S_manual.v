(** The manual of the tools (C97): for each setting the names of its options, what it can be, and
    what it is if none of the options is given. *)
From Coq Require Import String.
From Verif Require Import Base M_parser.
Open Scope string_scope.

Inductive kind := Text | Whole | Number | YesNo | OneOf (l : list string) | Optional (k : kind) | Exactly (n : nat) (k : kind) | OneOrMore (k : kind) | AnyNumber (k : kind).
Fixpoint is_of (v : val) (k : kind) : Prop :=
  match k with
  | Text => exists s, v = VStr s
  | Whole => exists z, v = VInt z
  | Number => exists x, v = VFloat x
  | YesNo => exists b, v = VBool b
  | OneOf l => exists s, v = VStr s /\ In s l
  | Optional k => v = VNone \/ is_of v k
  | Exactly n k => exists l, v = VList l /\ length l = n /\ Forall (fun x => is_of x k) l
  | OneOrMore k => exists l, v = VList l /\ l <> [] /\ Forall (fun x => is_of x k) l
  | AnyNumber k => exists l, v = VList l /\ Forall (fun x => is_of x k) l
  end.
Record row := mkRow { r_names : list string; r_setting : string; r_kind : kind; r_default : val }.

Local Open Scope R_scope.
Definition m_interpolation : list row :=
  [mkRow ["--asr"] "asr" (Optional (OneOf ["reciprocal"; "realspace"])) VNone; mkRow ["--use-c"; "--disable-c"] "use_c" (Optional YesNo) VNone;
   mkRow ["--n-threads"] "n_threads" (Optional Whole) VNone].
Definition m_dipole : list row := [mkRow ["--dipole-parameter"] "dipole_parameter" Number (VFloat 1)].
Definition m_grid : list row := [mkRow ["--grid"] "grid" (Optional (Exactly 3 Whole)) VNone; mkRow ["--grid-spacing"] "grid_spacing" Number (VFloat (1 / 10))].
Definition m_scale : list row := [mkRow ["--scale"] "scale" (Optional Number) VNone].
Definition m_plotting : list row :=
  [mkRow ["--save-json"] "save_json" (Optional Text) VNone; mkRow ["-s"; "--save-to"] "save_to" (Optional Text) VNone; mkRow ["--title"] "title" Text (VStr "");
   mkRow ["--x-label"; "--xlabel"] "xlabel" (Optional Text) VNone; mkRow ["--y-label"; "--ylabel"] "ylabel" (Optional Text) VNone;
   mkRow ["--style"] "style" (Optional (OneOrMore Text)) VNone; mkRow ["--no-base-style"] "no_base_style" YesNo (VBool false); mkRow ["--font"] "font" (Optional Text) VNone;
   mkRow ["--font-size"; "--fontsize"] "fontsize" (Optional Number) VNone; mkRow ["--fig-size"; "--figsize"] "figsize" (Optional (Exactly 2 Number)) VNone;
   mkRow ["--fig-size-unit"; "--figsize-unit"] "figsize_unit" Text (VStr "cm")].
Definition m_lines : list row := [mkRow ["--line-width"; "--linewidth"] "linewidth" (Optional Number) VNone].
Definition m_energy : list row :=
  [mkRow ["--e-min"] "e_min" (Optional Number) VNone; mkRow ["--e-max"] "e_max" (Optional Number) VNone; mkRow ["--energy-unit"; "-u"] "energy_unit" Text (VStr "meV")].
Definition m_bins : list row :=
  [mkRow ["--ebins"] "ebins" Whole (VInt 200); mkRow ["--energy-broadening"; "--eb"] "energy_broadening" (Optional (OneOrMore Number)) VNone;
   mkRow ["--shape"] "shape" (Optional (OneOf ["gauss"; "lorentz"])) (VStr "gauss")].
Definition m_length : list row := [mkRow ["--length-unit"] "length_unit" Text (VStr "angstrom")].
Definition m_spacing : list row := [mkRow ["--q-spacing"] "q_spacing" Number (VFloat (25 / 1000))].
Definition m_map : list row :=
  [mkRow ["--v-min"; "--vmin"] "vmin" (Optional Number) VNone; mkRow ["--v-max"; "--vmax"] "vmax" (Optional Number) VNone; mkRow ["--c-map"; "--cmap"] "cmap" (Optional Text) VNone].
Definition m_btol : list row := [mkRow ["--btol"] "btol" Number (VFloat 10)].
Definition grid_type_row : row := mkRow ["--brille-grid-type"] "brille_grid_type" (OneOf ["trellis"; "mesh"; "nest"]) (VStr "trellis").
Definition manual (t : tool) : list row :=
  (match t with
   | Dispersion => m_interpolation ++ m_dipole ++ m_plotting ++ m_lines ++ m_energy ++ m_length ++ m_spacing ++ m_btol ++ [mkRow ["--reorder"] "reorder" YesNo (VBool false)]
   | Dos => m_interpolation ++ m_dipole ++ m_plotting ++ m_lines ++ m_energy ++ m_bins ++ m_length ++ m_grid ++ m_scale ++
       [mkRow ["--pdos"] "pdos" (Optional (AnyNumber Text)) VNone;
        mkRow ["--weighting"; "-w"] "weighting" (OneOf ["dos"; "coherent-dos"; "incoherent-dos"; "coherent-plus-incoherent-dos"]) (VStr "dos");
        mkRow ["--adaptive"] "adaptive" YesNo (VBool false); mkRow ["--adaptive-method"] "adaptive_method" (OneOf ["reference"; "fast"]) (VStr "reference");
        mkRow ["--adaptive-error"] "adaptive_error" Number (VFloat (1 / 100)); mkRow ["--adaptive-scale"] "adaptive_scale" (Optional Number) VNone;
        mkRow ["--adaptive-fit"] "adaptive_fit" (OneOf ["cubic"; "cheby-log"]) (VStr "cubic");
        mkRow ["--instrument-broadening"] "inst_broadening" (Optional (OneOrMore Number)) VNone]
   | IntensityMap => m_interpolation ++ m_dipole ++ m_plotting ++ m_energy ++ m_bins ++ m_length ++ m_spacing ++ m_map ++ m_btol ++ m_grid ++ m_scale ++
       [mkRow ["--weighting"; "-w"] "weighting" (OneOf ["dos"; "coherent"]) (VStr "dos"); mkRow ["--temperature"] "temperature" (Optional Number) VNone;
        mkRow ["--q-broadening"; "--qb"] "q_broadening" (Optional (Exactly 1 Number)) VNone]
   | PowderMap => m_interpolation ++ m_dipole ++ m_plotting ++ m_energy ++ m_bins ++ m_length ++ m_spacing ++ m_map ++ m_grid ++ m_scale ++
       [mkRow ["--pdos"] "pdos" (Optional (Exactly 1 Text)) VNone;
        mkRow ["--weighting"; "-w"] "weighting" (OneOf ["dos"; "coherent-dos"; "incoherent-dos"; "coherent-plus-incoherent-dos"; "coherent"]) (VStr "dos");
        mkRow ["--temperature"] "temperature" (Optional Number) VNone; mkRow ["--q-broadening"; "--qb"] "q_broadening" (Optional (OneOrMore Number)) VNone;
        mkRow ["--npts"; "-n"] "npts" Whole (VInt 1000); mkRow ["--npts-density"] "npts_density" (Optional Whole) VNone;
        mkRow ["--npts-min"] "npts_min" Whole (VInt 100); mkRow ["--npts-max"] "npts_max" Whole (VInt 10000);
        mkRow ["--sampling"] "sampling" (OneOf ["golden"; "sphere-projected-grid"; "spherical-polar-grid"; "spherical-polar-improved"; "random-sphere"]) (VStr "golden");
        mkRow ["--jitter"] "jitter" YesNo (VBool false); grid_type_row; mkRow ["--use-brille"] "use_brille" YesNo (VBool false);
        mkRow ["--brille-npts"] "brille_npts" Whole (VInt 5000); mkRow ["--brille-npts-density"] "brille_npts_density" (Optional Whole) VNone;
        mkRow ["--q-min"] "q_min" Number (VFloat 0); mkRow ["--q-max"] "q_max" Number (VFloat 3); mkRow ["--no-widgets"] "disable_widgets" YesNo (VBool false);
        mkRow ["--e-incident"; "--e-i"] "e_i" (Optional Number) VNone; mkRow ["--e-final"; "--e-f"] "e_f" (Optional Number) VNone;
        mkRow ["--angle-range"] "angle_range" (Exactly 2 Number) (VList [VFloat 0; VFloat 180])]
   | OptimiseDipole => m_interpolation ++
       [mkRow ["-n"] "n" Whole (VInt 500); mkRow ["--dipole-parameter-min"; "--min"] "dipole_parameter_min" Number (VFloat (1 / 4));
        mkRow ["--dipole-parameter-max"; "--max"] "dipole_parameter_max" Number (VFloat (3 / 2)); mkRow ["--dipole-parameter-step"; "--step"] "dipole_parameter_step" Number (VFloat (1 / 4))]
   | CheckBrille => m_interpolation ++ m_dipole ++ m_energy ++ m_bins ++
       [grid_type_row; mkRow ["--use-brille"] "use_brille" (Optional Text) VNone; mkRow ["--npts"] "npts" Whole (VInt 1000);
        mkRow ["--brille-npts"] "brille_npts" (OneOrMore Whole) (VList [VInt 5000]); mkRow ["--brille-npts-density"] "brille_npts_density" (Optional (OneOrMore Whole)) VNone;
        mkRow ["-n"] "n" Whole (VInt 0)]
   end)%list.
(** Options that exclude each other *)
Definition exclusions : list (string * string) :=
  (("--use-c", "--disable-c") :: ("--grid", "--grid-spacing") :: ("--npts", "--npts-density") :: ("-n", "--npts-density") ::
   list_prod ["--e-incident"; "--e-i"] ["--e-final"; "--e-f"])%list.
