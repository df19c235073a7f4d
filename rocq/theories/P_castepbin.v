(** Reading CASTEP binary files (C63, C52). *)
From Coq Require Import String.
From Verif Require Import Base M_fortran S_fortran M_castepbin S_castepbin L_castepbin2 L_castepbin3.
Open Scope Z_scope.

(** C63: what CASTEP wrote is what is read, each number at its place, in whatever order the
    items come and whatever else is between them or after END. *)
Theorem C63_round_trip : forall dec version c u l f junk name,
  sized c -> cells_match c -> (forall s, (s < species c)%nat -> padded (name s) (symbol c s)) ->
  writes c false l f -> good_main l -> (forall p, In (Params p) l -> version p = Some false) ->
  exists d, read_interpolation_data dec version u (f ++ junk) = Ok d /\ i_natoms d = ions c /\ length (atoms c) = ions c /\
    (forall i j, (i < 3)%nat -> (j < 3)%nat -> i_cell d i j = (dec (lattice c i j) * u_len u)%R) /\
    length (i_r d) = (3 * ions c)%nat /\
    (forall a x s k, (a < ions c)%nat -> (x < 3)%nat -> nth a (atoms c) (0, 0)%nat = (s, k) -> in_cell (dec (position c x k s)) (nth (3 * a + x) (i_r d) 0%R)) /\
    i_mass d = map (fun a => (dec (mass c (fst a)) * u_mass u)%R) (atoms c) /\
    i_type d = map (fun a => name (fst a)) (atoms c) /\
    i_ncells d = cells c /\
    (forall a i j, (a < cells c)%nat -> (i < 3 * ions c)%nat -> (j < 3 * ions c)%nat -> i_fc d a i j = (dec (fcs c i j a) * u_fc u)%R) /\
    (forall i j, (i < 3)%nat -> (j < 3)%nat -> i_sc d i j = scm c i j) /\
    (forall a x, (a < cells c)%nat -> (x < 3)%nat -> i_origins d a x = origin c x a) /\
    (In Born l -> exists b, i_born d = Some b /\ forall a i j, (a < ions c)%nat -> (i < 3)%nat -> (j < 3)%nat -> b a i j = (dec (born c j i a) * u_born u)%R) /\
    (~ In Born l -> i_born d = None) /\
    (In Born l -> In Dielectric l -> exists e, i_diel d = Some e /\ forall i j, (i < 3)%nat -> (j < 3)%nat -> e i j = (dec (dielectric c i j) * u_diel u)%R) /\
    (~ (In Born l /\ In Dielectric l) -> i_diel d = None).
Proof. exact round_trip. Qed.
Print Assumptions C63_round_trip.

(** C63: a file cut anywhere before the end of its END record is refused. *)
Theorem C63_truncated : forall dec version c u l f k, sized c -> cells_match c -> writes c false l f -> good_main l -> (k < length f)%nat ->
  exists e, read_interpolation_data dec version u (firstn k f) = Err e.
Proof. intros dec version c u l f k S D W G K. exact (read_cut dec version c S (det_match c D) u l f k W G K). Qed.
Print Assumptions C63_truncated.
(** The hypotheses are met by a file of two species, three atoms and two cells, with or
    without Born charges and dielectric tensor. *)
Example C63_case : forall b e, sized ex /\ cells_match ex /\ (forall s, (s < species ex)%nat -> padded [78; 97] (symbol ex s)) /\
  (exists f, writes ex false (ex_items b e) f) /\ good_main (ex_items b e) /\ ions ex = 3%nat.
Proof. intros b e. split; [exact ex_sized|]. split; [exact ex_match|]. split; [intros s _; exact (ex_padded s)|]. split; [exact (ex_writes b e)|]. split; [exact (ex_good b e)|reflexivity]. Qed.
