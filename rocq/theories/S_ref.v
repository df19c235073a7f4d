(** Words for C66: what a reference data file says. *)
From Coq Require Import String.
From Verif Require Import Base Cpx M_ref.
Open Scope R_scope.

(** A number written with or without a decimal point *)
Definition real_number (v : jval) (x : R) : Prop :=
  match v with JFloat y => x = y | JInt z => x = IZR z | JBool b => x = if b then 1 else 0 | _ => False end.
(** {"__complex__": ..., "real": a, "imag": b} *)
Definition complex_number (v : jval) (z : C) : Prop :=
  match v with
  | JObj l => (exists w, In ("__complex__"%string, w) l) /\
              exists a b, In ("real"%string, a) l /\ In ("imag"%string, b) l /\ real_number a (re z) /\ real_number b (im z)
  | _ => False
  end.
(** Written with a decimal point or exponent, or complex *)
Definition decimal_or_complex (v : jval) (z : C) : Prop :=
  match v with JFloat x => z = RtoC x | _ => complex_number v z end.
(** Any number: the property's claim *)
Definition number (v : jval) (z : C) : Prop :=
  match v with JFloat x => z = RtoC x | JInt n => z = RtoC (IZR n) | _ => complex_number v z end.

(** The keys of every object are distinct, and objects marked as complex have a real and an
    imaginary part. *)
Fixpoint well_formed (v : jval) : Prop :=
  match v with
  | JObj l =>
      NoDup (map fst l) /\
      ((exists w, In ("__complex__"%string, w) l) -> exists z, complex_number v z) /\
      (fix all (l : list (string * jval)) : Prop := match l with [] => True | p :: r => well_formed (snd p) /\ all r end) l
  | _ => True
  end.
(** An object that stands for a table *)
Definition table (l : list (string * jval)) : Prop := ~ exists w, In ("__complex__"%string, w) l.
(** [data] is the table of the property in the file *)
Definition property_table (file : jval) (property : string) (data : list (string * jval)) : Prop :=
  exists top props, file = JObj top /\ table top /\ In ("physical_property"%string, JObj props) top /\ table props /\
    In (property, JObj data) props /\ table data.
