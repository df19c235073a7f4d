(** Words used to state the structure factor, Debye-Waller and S(q,w) properties. *)
From Verif Require Import Base Cpx Vec3 M_cell M_dos S_dos M_sf.
Open Scope R_scope.

(** The textbook one-phonon structure factor per atom, written with Cartesian
    momentum transfer Q and atom positions r (e enters conjugated):
    | sum_a b_a/sqrt(M_a) exp(-W_a(Q)) (Q . conj e_a) exp(i Q . r_a) |^2 / (2 N |w|). *)
Definition dw_exponent (dw : option dwaller) (Q : V3) (a : nat) : R :=
  match dw with
  | None => 0
  | Some d => Sum (seq 0 3) (fun k => Sum (seq 0 3) (fun l => comp Q k * dw_w d a k l * comp Q l))
  end.
Definition one_phonon (cell : M3) (b M : nat -> R) (pos : nat -> V3) (N : nat) (dw : option dwaller)
  (ev : nat -> nat -> C) (q : V3) (w : R) : R :=
  let Q := vmul q (reciprocal_cell cell) in
  let F := Csum (seq 0 N) (fun a =>
    Cscal (b a / sqrt (M a) * exp (- dw_exponent dw Q a))
      (Cmul (Csum (seq 0 3) (fun l => Cscal (comp Q l) (Cconj (ev a l)))) (cis (dot Q (vmul (pos a) cell))))) in
  Cnorm2 F / (2 * INR N * Rabs w).

(** Real 3x3 matrices. *)
Definition symmetric3 (w : nat -> nat -> R) : Prop := forall i j, (i < 3)%nat -> (j < 3)%nat -> w i j = w j i.
Definition psd3 (w : nat -> nat -> R) : Prop :=
  forall v : nat -> R, 0 <= Sum (seq 0 3) (fun i => Sum (seq 0 3) (fun j => v i * w i j * v j)).

(** The Debye-Waller exponent of atom a: coth factor (1 at zero temperature), modes
    below freq_min left out. *)
Definition coth_factor (kB T f : R) : R := if Rltb 0 T then / tanh (f / (2 * kB * T)) else 1.
Definition dw_formula (e : etable) (M : nat -> R) (kB T freq_min : R) (a l l' : nat) : R :=
  / (4 * M a * Sum (seq 0 (nq (et e))) (wt (et e))) *
  Sum (seq 0 (nq (et e))) (fun q => wt (et e) q *
    Sum (filter (fun m => Rleb freq_min (freq (et e) q m)) (seq 0 (nm (et e)))) (fun m =>
      re (Cmul (evec e q m a l) (Cconj (evec e q m a l'))) / freq (et e) q m * coth_factor kB T (freq (et e) q m))).

(** The list of operations is closed under composition with each of its members:
    multiplying by operation g permutes the list. *)
Definition closed_ops (n : nat) (ops : list symop) : Prop :=
  forall g, In g ops -> exists sigma : nat -> nat,
    Permutation (map sigma (seq 0 (length ops))) (seq 0 (length ops)) /\
    forall s d, (s < length ops)%nat ->
      (forall i j, (i < 3)%nat -> (j < 3)%nat ->
         rotc (nth (sigma s) ops d) i j = Sum (seq 0 3) (fun k => rotc g i k * rotc (nth s ops d) k j)) /\
      (forall k, (k < n)%nat -> image (nth (sigma s) ops d) k = image g (image (nth s ops d) k)).
Definition permutes_atoms (n : nat) (ops : list symop) : Prop :=
  forall o, In o ops -> Permutation (map (image o) (seq 0 n)) (seq 0 n).

(** Planck occupation. *)
Definition planck (kT w : R) : R := / (exp (w / kT) - 1).

(** Temperature used for the Bose factor: the stored one, else the one given; none
    when the correction is switched off. *)
Definition temp_of (s : sfactor) (calc_bose : bool) (given : option R) : option R :=
  if calc_bose then match sf_temp s with Some t => Some t | None => given end else None.
(** Occupation of a mode of energy |w|: zero at or below zero temperature. *)
Definition occupation (kB t w : R) : R := if Rltb 0 t then planck (kB * t) (Rabs w) else 0.
(** Intensities a mode contributes at +w and at -w. *)
Definition at_plus (kB : R) (T : option R) (S w : R) : R :=
  match T with Some t => S * (1 + occupation kB t w) | None => S end.
Definition at_minus (kB : R) (T : option R) (S w : R) : R :=
  match T with Some t => S * occupation kB t w | None => S end.
(** Intensity of mode m found between lo and hi (in the unit of the bins, in which one
    hartree is k). *)
Definition mode_area (kB k : R) (s : sfactor) (T : option R) (q : nat) (lo hi : R) (m : nat) : R :=
  let w := freq (sft s) q m in
  (if inside lo hi (k * w) then at_plus kB T (sf_val s q m) w else 0)
  + (if inside lo hi (- (k * w)) then at_minus kB T (sf_val s q m) w else 0).
(** Neither the energy of mode m nor its negative lies in the bin. *)
Definition outside (k : R) (s : sfactor) (q m : nat) (lo hi : R) : Prop :=
  inside lo hi (k * freq (sft s) q m) = false /\ inside lo hi (- (k * freq (sft s) q m)) = false.

(** A finite group of space-group operations given, as spglib does, by matrices acting
    on fractional coordinates and the atom each atom is sent to: multiplying the list by
    any member permutes it. *)
Definition group_table (n : nat) (l : list ((nat -> nat -> R) * (nat -> nat))) : Prop :=
  forall g, In g l -> exists sigma : nat -> nat,
    Permutation (map sigma (seq 0 (length l))) (seq 0 (length l)) /\
    forall s d, (s < length l)%nat ->
      (forall i j, (i < 3)%nat -> (j < 3)%nat ->
         fst (nth (sigma s) l d) i j = Sum (seq 0 3) (fun k => fst g i k * fst (nth s l d) k j)) /\
      (forall k, (k < n)%nat -> snd (nth (sigma s) l d) k = snd g (snd (nth s l d) k)).
Definition cart_ops (cell : M3) (l : list ((nat -> nat -> R) * (nat -> nat))) : list symop :=
  map (fun p => mkOp (rot_cart (fst p) cell (reciprocal_cell cell)) (snd p)) l.
