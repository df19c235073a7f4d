(** Words for the command line tools' DOS lines and options (C78, C79). *)
From Coq Require Import String.
From Verif Require Import Base M_coll S_coll.
Open Scope R_scope.

(** The different species of a crystal in the order in which their first atoms are listed. *)
Definition species_order (types sp : list string) : Prop :=
  NoDup sp /\ (forall x, In x sp <-> In x types) /\
  forall a b j, (a < b)%nat -> (b < length sp)%nat -> nth_error types j = Some (nth b sp ""%string) ->
    exists i, (i < j)%nat /\ nth_error types i = Some (nth a sp ""%string).
(** The atoms of one species, counted from 0. *)
Definition atoms_of (types : list string) (x : string) : list nat :=
  filter (fun i => String.eqb (nth i types ""%string) x) (seq 0 (length types)).
(** [d] is the sum of the lines numbered [is]. *)
Definition line_sum (lines : list (list R)) (is : list nat) (d : list R) : Prop :=
  (forall l, In l lines -> length d = length l) /\ forall j, nth j d 0 = Sum is (fun i => nth j (nth i lines []) 0).
(** Line k of a collection: its numbers, the axis, and the text in the plot's legend. *)
Definition drawn (c : coll) (k : nat) (axis d : list R) (label : string) : Prop :=
  exists s, at_pos c k s /\ s_axes s = [axis] /\ s_data s = d /\ In ("label"%string, VStr label) (s_meta s).
(** The names that some atom has, in the order in which they were asked for. *)
Definition present (types names : list string) : list string := filter (fun n => existsb (String.eqb n) types) names.

(** ** Options of euphonic-dos *)
From Verif Require Import M_broad M_dos M_clidos.

(** The same command line with one option changed. *)
Definition set_eb (a : dargs) (v : option (list R)) : dargs :=
  mkArgs (a_weighting a) (a_pdos a) (a_grid a) (a_spacing a) (a_adaptive a) (a_method a) (a_error a) (a_ascale a) (a_inst a) v
    (a_shape a) (a_ebins a) (a_emin a) (a_emax a) (a_scale a).
Definition set_inst (a : dargs) (v : option (list R)) : dargs :=
  mkArgs (a_weighting a) (a_pdos a) (a_grid a) (a_spacing a) (a_adaptive a) (a_method a) (a_error a) (a_ascale a) v (a_eb a)
    (a_shape a) (a_ebins a) (a_emin a) (a_emax a) (a_scale a).
Definition set_ascale (a : dargs) (v : option R) : dargs :=
  mkArgs (a_weighting a) (a_pdos a) (a_grid a) (a_spacing a) (a_adaptive a) (a_method a) (a_error a) v (a_inst a) (a_eb a)
    (a_shape a) (a_ebins a) (a_emin a) (a_emax a) (a_scale a).

(** c0 + c1 x + c2 x^2 + ... *)
Definition poly (c : list R) (x : R) : R := sumn (length c) (fun i => nth i c 0 * x ^ i).
(** The Gaussian of area one with standard deviation [s]. *)
Definition gaussian (s x : R) : R := exp (- x ^ 2 / (2 * s ^ 2)) / (s * sqrt (2 * PI)).
(** Standard deviation, in the energy unit of the plot, with which a mode of energy [f]
    is drawn by --adaptive: its own width [w] times the scale, in quadrature with the
    instrument's polynomial, and never below [wmin]. *)
Definition drawn_sd (scale : R) (inst : option (list R)) (wmin w f : R) : R :=
  Rmax (match inst with None => scale * w | Some c => sqrt ((scale * w) ^ 2 + poly c f ^ 2) end) wmin.
(** The factor of --scale. *)
Definition factor (s : option R) : R := match s with Some x => x | None => 1 end.
(** Middle of bin i. *)
Definition middle (bins : list R) (i : nat) : R := (nth i bins 0 + nth (S i) bins 0) / 2.
