(** Words for property C95. *)
From Coq Require Import String.
From Verif Require Import Base M_style.
Open Scope R_scope.

(** The setting of Matplotlib each option is about, and the value asked for; --font also asks for
    the sans-serif family, and figure sizes are in inches *)
Inductive asked (inch : string -> option R) (a : pargs) : string -> value -> Prop :=
  | ask_cmap : forall s, a_cmap a = Some s -> s <> ""%string -> asked inch a "image.cmap" (VStr s)
  | ask_fontsize : forall x, a_fontsize a = Some x -> x <> 0 -> asked inch a "font.size" (VNum x)
  | ask_font : forall s, a_font a = Some s -> s <> ""%string -> asked inch a "font.sans-serif" (VStr s)
  | ask_family : forall s, a_font a = Some s -> s <> ""%string -> asked inch a "font.family" (VStr "sans-serif")
  | ask_linewidth : forall x, a_linewidth a = Some x -> x <> 0 -> asked inch a "lines.linewidth" (VNum x)
  | ask_figsize : forall w h k, a_figsize a = Some (w, h) -> inch (a_unit a) = Some k -> asked inch a "figure.figsize" (VNums [w * k; h * k]).

(** A list of style sheets decides a setting: the last sheet that mentions it does *)
Definition mentions (d : sheet) (p : string) : Prop := exists v, In (p, v) d.
Definition decides (l : list sheet) (p : string) (v : value) : Prop :=
  exists l1 d l2, l = l1 ++ d :: l2 /\ In (p, v) d /\ forall d', In d' l2 -> ~ mentions d' p.
Definition silent (l : list sheet) (p : string) : Prop := forall d, In d l -> ~ mentions d p.
(** Sheets set each setting once *)
Definition tables (sheets : string -> option sheet) : Prop := forall n d, sheets n = Some d -> NoDup (map fst d).
(** The sheets that go by these names *)
Definition known (sheets : string -> option sheet) (names : list string) (l : list sheet) : Prop := Forall2 (fun n d => sheets n = Some d) names l.

(** The sheets of a tool and of the user, in order of precedence *)
Definition tool_sheets (t : tool) (a : pargs) : list string :=
  (if a_no_base a then [] else
    "base.mplstyle"%string :: match t with PowderMap => if a_no_widgets a then [] else ["intensity_widget.mplstyle"%string] | _ => [] end)
  ++ match a_style a with Some u => u | None => [] end.

(** Title and labels of a figure *)
Definition figure_labels (t : tool) (a : pargs) (xunit yunit : string) : string * string * string :=
  (a_title a,
   match a_xlabel a, t with Some s, _ => s | None, Dos => "Energy / " ++ xunit | None, PowderMap => "|q| / " ++ xunit | None, _ => "" end,
   match a_ylabel a, t with Some s, _ => s | None, Dos => "" | None, _ => "Energy / " ++ yunit end)%string.
