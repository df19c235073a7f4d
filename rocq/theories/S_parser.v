(** Words for command lines (C97). *)
From Coq Require Import Ascii String.
From Verif Require Import Base M_parser.
Open Scope string_scope.

(** One use of an option: its name as written, and the words written after it. *)
Record use := mkU { u_name : string; u_words : list string }.
Definition written (us : list use) : list string := flat_map (fun u => u_name u :: u_words u) us.
(** Digits, and the numbers without sign or exponent: 12, 0.5, .5 *)
Definition digits (s : string) : Prop := Forall (fun c => exists k, (k <= 9)%nat /\ c = ascii_of_nat (48 + k)) (list_ascii_of_string s).
Definition number (s : string) : Prop := digits s /\ s <> "" \/ exists a b, s = a ++ "." ++ b /\ digits a /\ digits b /\ b <> "".
(** No option by its looks: it does not begin with a minus, or is a lone minus or a negative
    number or has a blank in it. *)
Definition ordinary (s : string) : Prop :=
  (forall t, s <> String "-" t) \/ s = "-" \/ (exists t, s = String "-" t /\ number t) \/ In " "%char (list_ascii_of_string s).
(** A word, not an option: no name of an option, and it does not look like one. *)
Definition word (l : list opt) (s : string) : Prop := ~ In s (flat_map o_names l) /\ ordinary s.

Section Meaning.
Variables (int_of : string -> option Z) (float_of : string -> option R).
(** What one word stands for *)
Inductive reads (o : opt) : string -> val -> Prop :=
| r_str s : o_typ o = TStr -> reads o s (VStr s)
| r_int s z : o_typ o = TInt -> int_of s = Some z -> reads o s (VInt z)
| r_float s x : o_typ o = TFloat -> float_of s = Some x -> reads o s (VFloat x).
Definition reads_as (o : opt) (s : string) (v : val) : Prop := reads o s v /\ match o_choices o with Some c => In s c | None => True end.
(** What an option with these words stands for *)
Inductive means (o : opt) : list string -> val -> Prop :=
| m_flag b : o_count o = Flag b -> means o [] (VBool b)
| m_one w v : o_count o = One -> reads_as o w v -> means o [w] v
| m_fixed ws vs : o_count o = Fixed (length ws) -> Forall2 (reads_as o) ws vs -> means o ws (VList vs)
| m_maybe c w v : o_count o = Maybe c -> reads_as o w v -> means o [w] v
| m_bare_str s v : o_count o = Maybe (VStr s) -> reads_as o s v -> means o [] v
| m_bare c : o_count o = Maybe c -> (forall s, c <> VStr s) -> means o [] c
| m_any ws vs : o_count o = Any -> Forall2 (reads_as o) ws vs -> means o ws (VList vs)
| m_some ws vs : o_count o = AtLeastOne -> ws <> [] -> Forall2 (reads_as o) ws vs -> means o ws (VList vs).
(** The uses stand for these options and values *)
Definition stands_for (l : list opt) (u : use) (ov : opt * val) : Prop :=
  In (fst ov) l /\ In (u_name u) (o_names (fst ov)) /\ Forall (word l) (u_words u) /\ means (fst ov) (u_words u) (snd ov).
End Meaning.
(** The option wants no more words *)
Definition has_enough (o : opt) (ws : list string) : Prop :=
  match o_count o with One | Fixed _ | Flag _ => True | Maybe _ => ws <> [] | _ => False end.
(** Options of one group exclude each other *)
Definition compatible (ovs : list (opt * val)) : Prop :=
  forall o v o' v' g, In (o, v) ovs -> In (o', v') ovs -> o_group o = Some g -> o_group o' = Some g -> o = o'.
(** The settings: each option given has its (last) value, every other its default, and there is
    nothing else. *)
Definition settings (l : list opt) (file : string) (ovs : list (opt * val)) (ns : string -> option val) : Prop :=
  ns "filename" = Some (VStr file) /\
  (forall pre o v post, ovs = (pre ++ (o, v) :: post)%list -> (forall ov, In ov post -> o_dest (fst ov) <> o_dest o) -> ns (o_dest o) = Some v) /\
  (forall o, In o l -> o_count o <> Help -> (forall ov, In ov ovs -> o_dest (fst ov) <> o_dest o) -> ns (o_dest o) = Some (o_default o)) /\
  (forall d, d <> "filename" -> (forall o, In o l -> o_count o <> Help -> o_dest o <> d) -> ns d = None).
(** What the tools take from the settings: the names they read, and for the two tools that pass
    all settings on as keyword arguments exactly these. *)
Definition interpolation : list string := ["asr"; "dipole_parameter"; "use_c"; "n_threads"].
Definition plotting : list string := ["title"; "xlabel"; "ylabel"; "style"; "no_base_style"; "font"; "fontsize"; "figsize"; "figsize_unit"; "save_to"; "save_json"].
Definition needed (t : tool) : list string :=
  (match t with
   | Dispersion => interpolation ++ plotting ++ ["linewidth"; "filename"; "reorder"; "length_unit"; "q_spacing"; "btol"; "energy_unit"; "e_min"; "e_max"]
   | Dos => interpolation ++ plotting ++ ["linewidth"; "filename"; "weighting"; "pdos"; "adaptive"; "energy_broadening"; "adaptive_scale"; "inst_broadening"; "length_unit"; "grid";
              "grid_spacing"; "shape"; "energy_unit"; "ebins"; "e_min"; "e_max"; "adaptive_method"; "adaptive_error"; "adaptive_fit"; "scale"]
   | IntensityMap => interpolation ++ plotting ++ ["cmap"; "filename"; "weighting"; "temperature"; "length_unit"; "q_spacing"; "btol"; "energy_unit"; "ebins"; "e_min"; "e_max"; "grid";
              "grid_spacing"; "q_broadening"; "energy_broadening"; "shape"; "scale"; "vmin"; "vmax"]
   | PowderMap => interpolation ++ plotting ++ ["cmap"; "filename"; "weighting"; "pdos"; "temperature"; "length_unit"; "q_spacing"; "q_min"; "q_max"; "energy_unit"; "ebins"; "e_min"; "e_max";
              "grid"; "grid_spacing"; "q_broadening"; "energy_broadening"; "shape"; "scale"; "vmin"; "vmax"; "use_brille"; "brille_grid_type"; "brille_npts"; "brille_npts_density";
              "npts"; "npts_density"; "npts_min"; "npts_max"; "sampling"; "jitter"; "e_i"; "e_f"; "angle_range"; "disable_widgets"]
   | OptimiseDipole => ["filename"; "dipole_parameter_min"; "dipole_parameter_max"; "dipole_parameter_step"; "n"; "asr"; "use_c"; "n_threads"]
   | CheckBrille => interpolation ++ ["filename"; "npts"; "use_brille"; "brille_grid_type"; "brille_npts"; "brille_npts_density"; "n"; "energy_broadening"; "ebins"; "e_min"; "e_max"; "energy_unit"; "shape"]
   end)%list.
