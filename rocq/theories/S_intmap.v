(** Words for the intensity map tool (C83). *)
From Coq Require Import String Sorted.
From Verif Require Import Base M_bins M_intmap.
Open Scope R_scope.

(** A spectrum shows the value v at x position i and energy bin j. *)
Definition shows (s : xspec (option (list R))) (i j : nat) (v : R) : Prop :=
  exists row, nth_error (ys s) i = Some (Some row) /\ nth_error row j = Some v.

(** [segs] are the parts of s between the positions [idx]: part m starts at the (m-1)-th
    of them and ends before the m-th, the first at the beginning and the last at the end;
    each label is in the part it belongs to, counted from its start. *)
Definition start_of (idx : list nat) (m : nat) : nat := nth m (0%nat :: idx) 0%nat.
Definition end_of (idx : list nat) (n m : nat) : nat := nth m (idx ++ [n]) 0%nat.
Definition cut_at {A} (s : xspec A) (idx : list nat) (segs : list (xspec A)) : Prop :=
  length segs = S (length idx) /\
  forall m g, nth_error segs m = Some g ->
    let lo := start_of idx m in let hi := end_of idx (length (ys s)) m in
    (lo <= hi <= length (ys s))%nat /\ length (xs g) = (hi - lo)%nat /\ length (ys g) = (hi - lo)%nat /\
    (forall i, (i < hi - lo)%nat -> nth_error (xs g) i = nth_error (xs s) (lo + i) /\ nth_error (ys g) i = nth_error (ys s) (lo + i)) /\
    (xticks s = None <-> xticks g = None) /\
    forall ts tg z l, xticks s = Some ts -> xticks g = Some tg -> (In (z, l) tg <-> In ((z + Z.of_nat lo)%Z, l) ts /\ (0 <= z)%Z /\ ((m < length idx)%nat -> (z + Z.of_nat lo < Z.of_nat hi)%Z)).

(** The ends of the regions of a labelled path: a position whose label and preceding label
    are both present and different starts a new region. *)
Definition starts_region (labels : list string) (b : nat) : Prop :=
  (0 < b)%nat /\ (b < length labels)%nat /\ nth (b - 1) labels ""%string <> ""%string /\ nth b labels ""%string <> ""%string /\
  nth (b - 1) labels ""%string <> nth b labels ""%string.
Definition region_starts (labels : list string) (idx : list nat) : Prop :=
  StronglySorted lt idx /\ forall b, In b idx <-> starts_region labels b.

(** The command line with other broadening and scaling options. *)
Definition with_options (a : iargs) (qb : option R) (eb : option (R * list R)) (scale : option R) : iargs :=
  mkIA (ia_weighting a) (ia_temperature a) (ia_ebins a) (ia_emin a) (ia_emax a) qb eb (ia_shape a) scale (ia_btol a).
Definition factor (a : iargs) : R := match ia_scale a with Some x => x | None => 1 end.

(** The average distance between neighbours. *)
Definition mean_step (x : list R) : R := (nth (length x - 1) x 0 - nth 0 x 0) / INR (length x - 1).

(** The data of a path: one x value, one row of frequencies and, for structure factors, one row
    of the map per q-point. *)
Definition path_data (p : pdata) : Prop :=
  length (pd_x p) = M_dos.nq (pd_t p) /\ (forall q, (q < M_dos.nq (pd_t p))%nat -> M_dos.wt (pd_t p) q <> 0) /\
  forall T b z, pd_coherent p T b = Some z -> length z = length (pd_x p) /\ forall r, In r z -> length r = (length b - 1)%nat.

(** The x axis never goes back; repeated values are allowed. *)
Definition climbs (x : list R) : Prop := forall i, (S i < length x)%nat -> nth i x 0 <= nth (S i) x 0.
(** A step g is a break, if the median step is m: it is more than btol times m.  (If more than
    half of the steps are zero, every step forward is one.) *)
Definition big_gap (btol m g : R) : Prop := (0 < m /\ btol * m < g) \/ (m = 0 /\ 0 < g).
(** The labels of an axis are those of a path: at each labelled position its label, with GAMMA
    written as the Greek letter. *)
Definition labels_of_path (labels : list string) (ts : ticks) : Prop :=
  forall z name, In (z, name) ts <-> exists i, (i < length labels)%nat /\ nth i labels ""%string <> ""%string /\ z = Z.of_nat i /\
    name = (if String.eqb (nth i labels ""%string) "GAMMA" then "$\Gamma$" else nth i labels "")%string.
