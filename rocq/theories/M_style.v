(** Model of how the four plotting tools style, label and output a figure:
    /repo/euphonic/cli/utils.py _compose_style 892-936, _plot_label_kwargs 413-424 and
    matplotlib_save_or_show 168-183, and the ends of the main functions in
    /repo/euphonic/cli/dispersion.py 44-62, dos.py 125-136, intensity_map.py 82-104 and
    powder_map.py 245-297.
    - [sheets] is Matplotlib's table of style sheets (names and files); [inch] is what pint makes
      of a length unit: its size in inches or an error.  matplotlib.style.context applies a list
      of styles from left to right to a copy of the settings in force.
    - Which settings Matplotlib knows and which values it accepts, the plotting calls themselves
      (M_plot) and the text boxes of powder_map.py 262-295 are left out. *)
From Coq Require Import String.
From Verif Require Import Base.
Open Scope R_scope.

Inductive value := VStr (s : string) | VNum (x : R) | VNums (l : list R).
Definition sheet := list (string * value).
(** MplStyle, 889 *)
Inductive style := Named (name : string) | Dict (s : sheet).
Inductive terr := BadUnit | UnknownStyle (name : string).

(** The parsed options, 667-712 and 830-840; the tools that do not have --cmap or --linewidth
    leave None here, as getattr(..., None) does *)
Record pargs := mkA {
  a_no_base : bool; a_style : option (list string); a_cmap : option string; a_fontsize : option R; a_font : option string;
  a_linewidth : option R; a_figsize : option (R * R); a_unit : string;
  a_title : string; a_xlabel : option string; a_ylabel : option string;
  a_save_json : option string; a_save_to : option string; a_no_widgets : bool }.

(** Truth of an option: None, '' and 0 are false, 919 *)
Definition str_opt (o : option string) : option value := match o with None => None | Some s => if String.eqb s "" then None else Some (VStr s) end.
Definition num_opt (o : option R) : option value := match o with None => None | Some x => if Reqb x 0 then None else Some (VNum x) end.
Definition put (p : string) (o : option value) (d : sheet) : sheet := match o with None => d | Some v => d ++ [(p, v)] end.

Section Style.
Variable inch : string -> option R.
(** 911-933 *)
Definition explicit_args (a : pargs) : res sheet terr :=
  let d := put "lines.linewidth" (num_opt (a_linewidth a))
             (put "font.sans-serif" (str_opt (a_font a))
               (put "font.size" (num_opt (a_fontsize a)) (put "image.cmap" (str_opt (a_cmap a)) []))) in
  let d := match str_opt (a_font a) with None => d | Some _ => d ++ [("font.family"%string, VStr "sans-serif")] end in
  match a_figsize a with
  | None => Ok d
  | Some (w, h) => match inch (a_unit a) with None => Err BadUnit | Some k => Ok (d ++ [("figure.figsize"%string, VNums [w * k; h * k])]) end
  end.
(** 904-936: the list of styles, and the list [base] as the call leaves it *)
Definition compose_style (a : pargs) (base : option (list style)) : option (list style) * res (list style) terr :=
  let own := (a_no_base a || match base with None => true | Some _ => false end)%bool in
  let l := if own then [] else match base with Some b => b | None => [] end in
  let l := match a_style a with None => l | Some u => l ++ map Named u end in
  let left x := if own then base else Some x in
  match explicit_args a with
  | Err e => (left l, Err e)
  | Ok d => (left (l ++ [Dict d]), Ok (l ++ [Dict d]))
  end.
End Style.

(** with matplotlib.style.context(style) *)
Definition assoc (p : string) (d : sheet) : option value :=
  match find (fun e => String.eqb (fst e) p) d with Some (_, v) => Some v | None => None end.
Definition update (rc : string -> value) (d : sheet) (p : string) : value := match assoc p d with Some v => v | None => rc p end.
Fixpoint context (sheets : string -> option sheet) (rc : string -> value) (l : list style) : res (string -> value) terr :=
  match l with
  | [] => Ok rc
  | Dict d :: t => context sheets (update rc d) t
  | Named n :: t => match sheets n with None => Err (UnknownStyle n) | Some d => context sheets (update rc d) t end
  end.

(** utils.py:413-424; the title, the label of the x axis and that of the y axis *)
Definition label (default : string) (o : option string) : string := match o with None => default | Some s => s end.
Definition plot_labels (a : pargs) (xlabel ylabel : string) : string * string * string :=
  (a_title a, label xlabel (a_xlabel a), label ylabel (a_ylabel a)).

(** What a tool does at its end; [Drawn] carries the settings and labels in force *)
Inductive event := Json (file : string) | Drawn (rc : string -> value) (labels : string * string * string) | Saved (file : string) | Shown.
Inductive tool := Dispersion | Dos | IntensityMap | PowderMap.
(** styles/__init__.py 4-5 and powder_map.py 251-254 *)
Definition base_styles (t : tool) (a : pargs) : list style :=
  match t with
  | PowderMap => if a_no_widgets a then [Named "base.mplstyle"] else [Named "base.mplstyle"; Named "intensity_widget.mplstyle"]
  | _ => [Named "base.mplstyle"]
  end.
(** dispersion.py 44-45, dos.py 125-126, intensity_map.py 82-83, powder_map.py 245-247: defaults
    from the units of the axes *)
Definition default_labels (t : tool) (xunit yunit : string) : string * string :=
  match t with
  | Dos => ("Energy / " ++ xunit, "")%string
  | PowderMap => ("|q| / " ++ xunit, "Energy / " ++ yunit)%string
  | _ => (""%string, ("Energy / " ++ yunit)%string)
  end.
(** 55-56 and so on *)
Definition save_json (a : pargs) : list event :=
  match a_save_json a with None => [] | Some f => if String.eqb f "" then [] else [Json f] end.
(** utils.py:178-183 *)
Definition save_or_show (o : option string) : event := match o with None => Shown | Some f => Saved f end.
(** The events, and the error that ended the tool if any.  dispersion.py composes the styles
    before it saves the data, the others after. *)
Definition finish (inch : string -> option R) (sheets : string -> option sheet) (rc : string -> value) (t : tool) (a : pargs) (xunit yunit : string) : list event * option terr :=
  let s := snd (compose_style inch a (Some (base_styles t a))) in
  let d := default_labels t xunit yunit in
  let labels := plot_labels a (fst d) (snd d) in
  match s with
  | Err e => (match t with Dispersion => [] | _ => save_json a end, Some e)
  | Ok l =>
      match context sheets rc l with
      | Err e => (save_json a, Some e)
      | Ok rc' => (save_json a ++ [Drawn rc' labels; save_or_show (a_save_to a)], None)
      end
  end.
