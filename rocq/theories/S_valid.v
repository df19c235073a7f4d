(** Words for the constructors (C19, C52).  Only the type [obj] of Python values, the classes
    and [check] of the model are used. *)
From Verif Require Import Base M_valid.
Open Scope Z_scope.

(** A shape pattern; -1 stands for any extent. *)
Definition matches (pattern s : list Z) : Prop := Forall2 (fun p d => p = -1 \/ p = d) pattern s.
Definition has_class {U} (o : obj U) (k : cls) : Prop :=
  match o with Arr _ => k = KArray | Qty _ _ => k = KQuantity | Cry _ => k = KCrystal | Lst _ => k = KList | Dct _ => k = KDict | Non => k = KNone | Oth => False end.
Definition shaped {U} (o : obj U) (s : list Z) : Prop := match o with Arr t | Qty (Some t) _ => t = s | _ => False end.
(** What one entry of the table asks for. *)
Definition right_class {U} (c : @check U) : Prop := exists k, In k (c_types c) /\ has_class (c_obj c) k.
Definition right_shape {U} (c : @check U) : Prop :=
  forall s, shaped (c_obj c) s -> c_shapes c <> [] -> exists p, In p (c_shapes c) /\ matches p s.

(** Extents and numbers of atoms are not negative. *)
Definition real {U} (o : obj U) : Prop :=
  match o with Arr s | Qty (Some s) _ => Forall (fun d => 0 <= d) s | Cry n | Lst n => 0 <= n | _ => True end.

Section Doc.
Context {U : Type}.
Variable conv : U -> U -> bool.
(** A Quantity with an array of shape s, in a unit convertible to t; or, for [quantity'], a
    number with such a unit. *)
Definition quantity (s : list Z) (t : U) (o : obj U) : Prop := exists u, o = Qty (Some s) u /\ conv u t = true.
Definition quantity' (s : list Z) (t : U) (o : obj U) : Prop := exists u, (o = Qty (Some s) u \/ o = Qty None u) /\ conv u t = true.
Definition none_or (P : obj U -> Prop) (o : obj U) : Prop := o = Non \/ P o.
Definition any_quantity (t : U) (o : obj U) : Prop := exists s u, o = Qty s u /\ conv u t = true.
Definition axis (n : Z) (o : obj U) : Prop := exists u, o = Qty (Some [n]) u \/ o = Qty (Some [n + 1]) u.
Definition axis' (n : Z) (o : obj U) : Prop := exists u, o = Qty (Some [n]) u \/ o = Qty (Some [n + 1]) u \/ o = Qty None u.
Definition labels (o : obj U) : Prop := o = Non \/ exists n, o = Lst n.
Definition meta (o : obj U) : Prop := o = Non \/ exists k, o = Dct k.
(** Metadata whose line_data, if any, has k entries. *)
Definition meta_for (k : Z) (o : obj U) : Prop := o = Non \/ o = Dct None \/ o = Dct (Some k).
End Doc.
(** An error that names the argument, or pint's own error about its unit. *)
Definition tells (e : verr) : Prop := (exists n, e = BadType n \/ e = BadShape n) \/ e = Dimension.
