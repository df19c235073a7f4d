(** Words for units (C17, C33, C59). *)
From Coq Require Import String.
From Verif Require Import Base M_units.
Open Scope R_scope.

(** Dimensions proportional to the photon energy, inversely proportional, or unrelated. *)
Inductive side := Direct | Inverse | Unrelated (n : nat).
Definition side_of (k : kind) : side :=
  match k with Energy | Freq | Wavenum => Direct | Length | Time | InvEnergy => Inverse | Other n => Unrelated n end.
Definition same_side (u v : unit_) : Prop := side_of (ukind u) = side_of (ukind v).
Definition spectroscopic (k : kind) : Prop := match k with Other _ => False | _ => True end.

(** Units between which the package's contexts can convert. *)
Definition compatible (u v : unit_) : Prop := ukind u = ukind v \/ spectroscopic (ukind u) /\ spectroscopic (ukind v).

(** Units between which a plain conversion, without the reciprocal context, exists. *)
Definition plain_kind (k : kind) : Prop := match k with Energy | Freq | Wavenum | Length => True | _ => False end.
Definition plain_compatible (u v : unit_) : Prop := ukind u = ukind v \/ plain_kind (ukind u) /\ plain_kind (ukind v).

Definition proper (u : unit_) : Prop := 0 < ufac u.

Section Value.
Variables h c : R.
(** Energy of the photon a spectroscopic quantity stands for; the plain value otherwise. *)
Definition photon (u : unit_) (x : R) : R :=
  let v := x * ufac u in
  match ukind u with
  | Energy => v                 (* E *)
  | Freq => h * v               (* E = h f *)
  | Wavenum => h * (c * v)      (* f = c k *)
  | Length => h * (c / v)       (* f = c / lambda *)
  | Time => h * (1 / v)         (* f = 1 / T *)
  | InvEnergy => 1 / v
  | Other _ => v
  end.
(** x in unit u and y in unit v are the same physical quantity. *)
Definition same_value (u : unit_) (x : R) (v : unit_) (y : R) : Prop := compatible u v /\ photon u x = photon v y.

(** The shown array [q] is the stored array, element by element. *)
Definition shows (a : attr) (q : quantity) : Prop :=
  qunit q = shown a /\ length (qmag q) = length (raw a) /\
  forall i, (i < length (raw a))%nat -> same_value (stored a) (nth i (raw a) 0) (qunit q) (nth i (qmag q) 0).

(** A usable attribute: proper units, and no zero that would have to be inverted. *)
Definition usable (a : attr) : Prop :=
  proper (stored a) /\ proper (shown a) /\ compatible (stored a) (shown a) /\
  (same_side (stored a) (shown a) \/ forall x, In x (raw a) -> x <> 0).
End Value.

(** Assigning one unit after another; refused ones are ignored. *)
Definition assign_units (h c : R) (a : attr) (us : list unit_) : attr :=
  fold_left (fun a u => fst (set_unit h c a u)) us a.

(** Intensity array of a spectrum. *)
Definition intensity (s : spectrum) : attr := match scls s with One | OneColl => sy s | Two | TwoColl => sz s end.
(** The axes of [t] are those of [s], as shown. *)
Definition same_axes_shown (h c : R) (s t : spectrum) : Prop :=
  get_spectral h c (sx t) = get_spectral h c (sx s) /\
  match scls s with One | OneColl => True | Two | TwoColl => get_spectral h c (sy t) = get_spectral h c (sy s) end.

(** One array per spectrum: what that spectrum shows. *)
Definition shown_lines (h c : R) (ys : list attr) (u : unit_) (ls : list (list R)) : Prop :=
  length ls = length ys /\ forall i d, (i < length ys)%nat -> get_spectral h c (nth i ys d) = Ok (mkQ (nth i ls []) u).
