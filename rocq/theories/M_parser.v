(** Model of the command line of the tools: /repo/euphonic/cli/utils.py _get_cli_parser 451-886
    and get_args 142-165, with the get_parser functions of dispersion.py 65-80, dos.py 139-151,
    intensity_map.py 107-122, powder_map.py 37-79, optimise_dipole_parameter.py 133-142
    and brille_convergence.py 207-234.
    - argparse is modelled from its documentation: every option takes as many of the words after
      it as it can, a remaining word is the file name if there is none yet, anything else is an
      error at the end.  Options of a mutually exclusive group exclude each other.
    - Left out (the model refuses them): abbreviated options, --option=value, -xVALUE and --.
      Help texts, sections and warnings are left out; the action for deprecated options (481-494)
      is not used by any tool.  The two positions of show_sampling.py are left out.
    - [int_of] and [float_of] are Python's int and float of a string. *)
From Coq Require Import String Ascii.
From Verif Require Import Base.
Open Scope string_scope.

Inductive typ := TStr | TInt | TFloat.
Inductive val := VNone | VBool (b : bool) | VStr (s : string) | VInt (z : Z) | VFloat (x : R) | VList (l : list val).
(** How many words: nargs=None, N, '?', '*', '+', and no word for store_true, store_false, help *)
Inductive count := One | Fixed (n : nat) | Maybe (const : val) | Any | AtLeastOne | Flag (b : bool) | Help.
Record opt := mkOpt { o_names : list string; o_dest : string; o_count : count; o_typ : typ; o_default : val;
                      o_choices : option (list string); o_group : option nat }.
Inductive perr := BandDataOnly | Conflict (name : string) | Expected (name : string) | BadValue (word : string) | NotAllowed (name : string) | NoFile | Unrecognized | HelpShown.

Definition mem (s : string) (l : list string) : bool := existsb (String.eqb s) l.
(** add_argument with conflict_handler 'error' or 'resolve' *)
Definition without (names : list string) (l : list opt) : list opt :=
  filter (fun o => match o_names o with [] => false | _ => true end)
    (map (fun o => mkOpt (filter (fun s => negb (mem s names)) (o_names o)) (o_dest o) (o_count o) (o_typ o) (o_default o) (o_choices o) (o_group o)) l).
Definition add_argument (resolve : bool) (l : list opt) (o : opt) : res (list opt) perr :=
  match find (fun s => mem s (flat_map o_names l)) (o_names o) with
  | None => Ok (l ++ [o])%list
  | Some s => if resolve then Ok (without (o_names o) l ++ [o])%list else Err (Conflict s)
  end.
Fixpoint add_all (resolve : bool) (l : list opt) (new : list opt) : res (list opt) perr :=
  match new with
  | [] => Ok l
  | o :: t => match add_argument resolve l o with Ok l' => add_all resolve l' t | Err e => Err e end
  end.

(** Kinds of options *)
Definition plain (names : list string) (dest : string) (t : typ) (default : val) : opt := mkOpt names dest One t default None None.
Definition several (names : list string) (dest : string) (c : count) (t : typ) (default : val) : opt := mkOpt names dest c t default None None.
Definition switch (names : list string) (dest : string) : opt := mkOpt names dest (Flag true) TStr (VBool false) None None.
Definition choice (names : list string) (dest default : string) (l : list string) : opt := mkOpt names dest One TStr (VStr default) (Some l) None.
Definition exclusive (g : nat) (o : opt) : opt := mkOpt (o_names o) (o_dest o) (o_count o) (o_typ o) (o_default o) (o_choices o) (Some g).

Section Features.
Variable fs : list string.
Let h (f : string) : bool := mem f fs.
Let on (b : bool) (l : list opt) : bool * list opt := (b, l).
Open Scope R_scope.
(** 505-886: blocks of options with their conditions, in the order in which they are added *)
Definition feature_blocks : list (bool * list opt) :=
  ([on true [mkOpt ["-h"; "--help"] "help" Help TStr VNone None None];
   on (h "read-fc") [mkOpt ["--asr"] "asr" (Maybe (VStr "reciprocal")) TStr VNone (Some ["reciprocal"; "realspace"]) None];
   on (h "read-fc" && negb (h "dipole-parameter-optimisation")) [plain ["--dipole-parameter"] "dipole_parameter" TFloat (VFloat 1)];
   on (h "read-fc") [mkOpt ["--use-c"] "use_c" (Flag true) TStr VNone None (Some 0%nat); mkOpt ["--disable-c"] "use_c" (Flag false) TStr VNone None (Some 0%nat);
                     plain ["--n-threads"] "n_threads" TInt VNone];
   on (h "pdos-weighting") [several ["--pdos"] "pdos" (if h "q-e" then Fixed 1 else Any) TStr VNone];
   on (h "pdos-weighting" || h "ins-weighting")
      [choice ["--weighting"; "-w"] "weighting" "dos"
         ("dos" :: (if h "pdos-weighting" then ["coherent-dos"; "incoherent-dos"; "coherent-plus-incoherent-dos"] else []) ++ (if h "ins-weighting" then ["coherent"] else []))];
   on (h "ins-weighting") [plain ["--temperature"] "temperature" TFloat VNone];
   on (h "ins-weighting" || h "mp-grid")
      [exclusive 1 (several ["--grid"] "grid" (Fixed 3) TInt VNone); exclusive 1 (plain ["--grid-spacing"] "grid_spacing" TFloat (VFloat (1 / 10)))];
   on (h "scaling") [plain ["--scale"] "scale" TFloat VNone];
   on (h "powder")
      [exclusive 2 (plain ["--npts"; "-n"] "npts" TInt (VInt 1000)); exclusive 2 (plain ["--npts-density"] "npts_density" TInt VNone);
       plain ["--npts-min"] "npts_min" TInt (VInt 100); plain ["--npts-max"] "npts_max" TInt (VInt 10000);
       choice ["--sampling"] "sampling" "golden" ["golden"; "sphere-projected-grid"; "spherical-polar-grid"; "spherical-polar-improved"; "random-sphere"];
       switch ["--jitter"] "jitter"];
   on (h "plotting")
      [plain ["--save-json"] "save_json" TStr VNone; plain ["-s"; "--save-to"] "save_to" TStr VNone; plain ["--title"] "title" TStr (VStr "");
       plain ["--x-label"; "--xlabel"] "xlabel" TStr VNone; plain ["--y-label"; "--ylabel"] "ylabel" TStr VNone;
       several ["--style"] "style" AtLeastOne TStr VNone; switch ["--no-base-style"] "no_base_style"; plain ["--font"] "font" TStr VNone;
       plain ["--font-size"; "--fontsize"] "fontsize" TFloat VNone; several ["--fig-size"; "--figsize"] "figsize" (Fixed 2) TFloat VNone;
       plain ["--fig-size-unit"; "--figsize-unit"] "figsize_unit" TStr (VStr "cm")];
   on (h "plotting" && negb (h "map")) [plain ["--line-width"; "--linewidth"] "linewidth" TFloat VNone];
   on (h "ebins" || h "q-e")
      [plain ["--e-min"] "e_min" TFloat VNone; plain ["--e-max"] "e_max" TFloat VNone; plain ["--energy-unit"; "-u"] "energy_unit" TStr (VStr "meV")];
   (* 758-824: 'adaptive-broadening' without 'ebins' makes a ValueError (822) but does not raise it *)
   on (h "ebins") [plain ["--ebins"] "ebins" TInt (VInt 200)];
   on (h "ebins" && h "adaptive-broadening")
      [switch ["--adaptive"] "adaptive"; choice ["--adaptive-method"] "adaptive_method" "reference" ["reference"; "fast"];
       plain ["--adaptive-error"] "adaptive_error" TFloat (VFloat (1 / 100)); plain ["--adaptive-scale"] "adaptive_scale" TFloat VNone;
       choice ["--adaptive-fit"] "adaptive_fit" "cubic" ["cubic"; "cheby-log"]; several ["--instrument-broadening"] "inst_broadening" AtLeastOne TFloat VNone];
   on (h "ebins")
      [several ["--energy-broadening"; "--eb"] "energy_broadening" AtLeastOne TFloat VNone;
       mkOpt ["--shape"] "shape" (Maybe VNone) TStr (VStr "gauss") (Some ["gauss"; "lorentz"]) None];
   on (h "q-e" || h "mp-grid") [plain ["--length-unit"] "length_unit" TStr (VStr "angstrom")];
   on (h "q-e") [plain ["--q-spacing"] "q_spacing" TFloat (VFloat (25 / 1000))];
   on (h "q-e" && h "map") [several ["--q-broadening"; "--qb"] "q_broadening" (if h "powder" then AtLeastOne else Fixed 1) TFloat VNone];
   on (h "map") [plain ["--v-min"; "--vmin"] "vmin" TFloat VNone; plain ["--v-max"; "--vmax"] "vmax" TFloat VNone; plain ["--c-map"; "--cmap"] "cmap" TStr VNone];
   on (h "btol") [plain ["--btol"] "btol" TFloat (VFloat 10)];
   on (h "brille")
      [switch ["--use-brille"] "use_brille"; choice ["--brille-grid-type"] "brille_grid_type" "trellis" ["trellis"; "mesh"; "nest"];
       plain ["--brille-npts"] "brille_npts" TInt (VInt 5000); plain ["--brille-npts-density"] "brille_npts_density" TInt VNone];
   on (h "dipole-parameter-optimisation")
      [plain ["-n"] "n" TInt (VInt 500); plain ["--dipole-parameter-min"; "--min"] "dipole_parameter_min" TFloat (VFloat (1 / 4));
       plain ["--dipole-parameter-max"; "--max"] "dipole_parameter_max" TFloat (VFloat (3 / 2));
       plain ["--dipole-parameter-step"; "--step"] "dipole_parameter_step" TFloat (VFloat (1 / 4))]])%list%bool.
Definition feature_options : list opt := flat_map (fun b : bool * list opt => if fst b then snd b else []) feature_blocks.
(** The parser: its options, and whether it has the filename (517-535) *)
Definition cli_parser (resolve : bool) : res (bool * list opt) perr :=
  if (h "read-modes" && negb (h "read-fc"))%bool then Err BandDataOnly
  else match add_all resolve [] feature_options with Ok l => Ok ((h "read-fc" || h "read-modes")%bool, l) | Err e => Err e end.
End Features.

(** The tools *)
Inductive tool := Dispersion | Dos | IntensityMap | PowderMap | OptimiseDipole | CheckBrille.
Definition features (t : tool) : list string :=
  match t with
  | Dispersion => ["read-fc"; "read-modes"; "plotting"; "q-e"; "btol"]
  | Dos => ["read-fc"; "read-modes"; "mp-grid"; "plotting"; "ebins"; "adaptive-broadening"; "pdos-weighting"; "scaling"]
  | IntensityMap => ["read-fc"; "read-modes"; "q-e"; "map"; "btol"; "ebins"; "ins-weighting"; "plotting"; "scaling"]
  | PowderMap => ["read-fc"; "pdos-weighting"; "ins-weighting"; "powder"; "plotting"; "ebins"; "q-e"; "map"; "brille"; "kinematic"; "scaling"]
  | OptimiseDipole => ["read-fc"; "dipole-parameter-optimisation"]
  | CheckBrille => ["read-fc"; "brille"; "ebins"]
  end.
Definition own_options (t : tool) : list opt :=
  match t with
  | Dispersion => [switch ["--reorder"] "reorder"]
  | PowderMap =>
      [plain ["--q-min"] "q_min" TFloat (VFloat 0); plain ["--q-max"] "q_max" TFloat (VFloat 3); switch ["--no-widgets"] "disable_widgets";
       exclusive 3 (plain ["--e-incident"; "--e-i"] "e_i" TFloat VNone); exclusive 3 (plain ["--e-final"; "--e-f"] "e_f" TFloat VNone);
       several ["--angle-range"] "angle_range" (Fixed 2) TFloat (VList [VFloat 0; VFloat 180])]
  | CheckBrille =>
      [plain ["--npts"] "npts" TInt (VInt 1000); plain ["--use-brille"] "use_brille" TStr VNone;
       several ["--brille-npts"] "brille_npts" AtLeastOne TInt (VList [VInt 5000]);
       several ["--brille-npts-density"] "brille_npts_density" AtLeastOne TInt VNone; plain ["-n"] "n" TInt (VInt 0)]
  | _ => []
  end.
Definition resolves (t : tool) : bool := match t with CheckBrille => true | _ => false end.
Definition get_parser (t : tool) : res (bool * list opt) perr :=
  match cli_parser (features t) (resolves t) with
  | Err e => Err e
  | Ok (file, l) => match add_all (resolves t) l (own_options t) with Ok l' => Ok (file, l') | Err e => Err e end
  end.

(** ** parse_args *)
Definition is_digit (c : ascii) : bool := (Nat.leb 48 (nat_of_ascii c) && Nat.leb (nat_of_ascii c) 57)%bool.
Fixpoint all_digits (s : string) : bool := match s with "" => true | String c t => (is_digit c && all_digits t)%bool end.
(** argparse's test for negative numbers, after the minus: \d+ or \d*\.\d+ *)
Fixpoint after_point (s : string) : bool :=
  match s with "" => false | String c t => if Ascii.eqb c "." then (all_digits t && negb (String.eqb t ""))%bool else (is_digit c && after_point t)%bool end.
Definition number_like (s : string) : bool := ((all_digits s && negb (String.eqb s "")) || after_point s)%bool.
Fixpoint has_blank (s : string) : bool := match s with "" => false | String c t => (Ascii.eqb c " " || has_blank t)%bool end.
(** Looks like an option, if it is none of the parser's *)
Definition option_like (s : string) : bool :=
  match s with
  | String c t => (Ascii.eqb c "-" && negb (String.eqb t "") && negb (number_like t) && negb (has_blank s))%bool
  | "" => false
  end.
Inductive token := IsOption (name : string) (o : opt) | IsUnknown | IsWord (s : string).
Definition classify (l : list opt) (s : string) : token :=
  match find (fun o => mem s (o_names o)) l with
  | Some o => IsOption s o
  | None => if option_like s then IsUnknown else IsWord s
  end.
(** The words before the first option, and each option (None if unknown) with the words after it *)
Fixpoint segments (l : list opt) (line : list string) : list string * list (option (string * opt) * list string) :=
  match line with
  | [] => ([], [])
  | s :: t => let r := segments l t in
      match classify l s with
      | IsWord w => (w :: fst r, snd r)
      | IsUnknown => ([], (None, fst r) :: snd r)
      | IsOption n o => ([], (Some (n, o), fst r) :: snd r)
      end
  end.

Section Values.
Variables (int_of : string -> option Z) (float_of : string -> option R).
Definition convert (t : typ) (s : string) : option val :=
  match t with TStr => Some (VStr s) | TInt => option_map VInt (int_of s) | TFloat => option_map VFloat (float_of s) end.
(** _get_value and _check_value (choices are strings, of type str, everywhere here) *)
Definition value (o : opt) (s : string) : res val perr :=
  match convert (o_typ o) s with
  | None => Err (BadValue s)
  | Some v => match o_choices o with Some c => if mem s c then Ok v else Err (BadValue s) | None => Ok v end
  end.
Fixpoint values (o : opt) (l : list string) : res (list val) perr :=
  match l with
  | [] => Ok []
  | s :: t => match value o s with Err e => Err e | Ok v => match values o t with Err e => Err e | Ok vs => Ok (v :: vs) end end
  end.
(** The value of an option with these words after it, and the words left *)
Definition take (n : string) (o : opt) (ws : list string) : res (val * list string) perr :=
  let listed k := match values o (firstn k ws) with Ok vs => Ok (VList vs, skipn k ws) | Err e => Err e end in
  match o_count o with
  | Help => Err HelpShown
  | Flag b => Ok (VBool b, ws)
  | One => match ws with [] => Err (Expected n) | w :: r => match value o w with Ok v => Ok (v, r) | Err e => Err e end end
  | Fixed k => if Nat.ltb (length ws) k then Err (Expected n) else listed k
  | Maybe c => match ws with
               | [] => match c with VStr s => match value o s with Ok v => Ok (v, []) | Err e => Err e end | _ => Ok (c, []) end
               | w :: r => match value o w with Ok v => Ok (v, r) | Err e => Err e end
               end
  | Any => listed (length ws)
  | AtLeastOne => match ws with [] => Err (Expected n) | _ => listed (length ws) end
  end.

Definition namespace := string -> option val.
Definition set (ns : namespace) (d : string) (v : val) : namespace := fun p => if String.eqb d p then Some v else ns p.
(** The state: the namespace, the file name if found, the options seen, words nobody wants *)
Record state := mkState { st_ns : namespace; st_file : option string; st_seen : list opt; st_extra : bool }.
Definition give_words (file : bool) (ws : list string) (st : state) : state :=
  match ws, st_file st, file with
  | [], _, _ => st
  | w :: r, None, true => mkState (set (st_ns st) "filename" (VStr w)) (Some w) (st_seen st) (st_extra st || match r with [] => false | _ => true end)%bool
  | _, _, _ => mkState (st_ns st) (st_file st) (st_seen st) true
  end.
Definition same_group (o o' : opt) : bool := match o_group o, o_group o' with Some g, Some g' => Nat.eqb g g' | _, _ => false end.
Definition other_option (o o' : opt) : bool := negb (existsb (fun s => mem s (o_names o')) (o_names o)).
Fixpoint run (file : bool) (st : state) (segs : list (option (string * opt) * list string)) : res state perr :=
  match segs with
  | [] => Ok st
  | (None, ws) :: t => run file (give_words file ws (mkState (st_ns st) (st_file st) (st_seen st) true)) t
  | (Some (n, o), ws) :: t =>
      match take n o ws with
      | Err e => Err e
      | Ok (v, r) =>
          if existsb (fun o' => same_group o o' && other_option o o')%bool (st_seen st) then Err (NotAllowed n)
          else run file (give_words file r (mkState (set (st_ns st) (o_dest o) v) (st_file st) (o :: st_seen st) (st_extra st))) t
      end
  end.
Definition defaults (l : list opt) : namespace := fun p => option_map o_default (find (fun o => match o_count o with Help => false | _ => String.eqb (o_dest o) p end) l).
Definition parse_args (p : bool * list opt) (line : list string) : res namespace perr :=
  let '(file, l) := p in
  let segs := segments l line in
  match run file (give_words file (fst segs) (mkState (defaults l) None [] false)) (snd segs) with
  | Err e => Err e
  | Ok st =>
      if (file && match st_file st with None => true | Some _ => false end)%bool then Err NoFile
      else if st_extra st then Err Unrecognized else Ok (st_ns st)
  end.
(** get_args(get_parser(), params) *)
Definition tool_args (t : tool) (line : list string) : res namespace perr :=
  match get_parser t with Err e => Err e | Ok p => parse_args p line end.
End Values.
