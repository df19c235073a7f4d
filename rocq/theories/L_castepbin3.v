(** The round trip in the words of the specification, and an example file (C63). *)
From Coq Require Import String Ascii.
From Verif Require Import Base M_fortran S_fortran L_fortran M_castepbin S_castepbin L_castepbin L_castepbin2.
Open Scope Z_scope.

Lemma det_match c : cells_match c -> Z.of_nat (cells c) = Z.abs (detZ (scm c)).
Proof. unfold cells_match, detZ. cbv zeta. intros ->. f_equal. ring. Qed.
Lemma nonspace_word n : n <> [] -> (forall x, In x n -> ~ space x) -> word n.
Proof.
  intros N H. assert (G : forall l, l <> [] -> (forall x, In x l -> ~ space x) -> lstrip l = l).
  { intros [|x l] Nl Hl; [congruence|]. cbn [lstrip]. destruct (is_space x) eqn:E; [|reflexivity]. apply is_space_spec in E. exfalso. exact (Hl x (or_introl eq_refl) E). }
  split; [apply G; assumption|]. split; [|exact N]. apply G; [intros E; apply N; rewrite <- (rev_involutive n), E; reflexivity|]. intros x I. apply H. apply in_rev. exact I.
Qed.
Lemma strip_padded n p : padded n p -> strip p = n.
Proof. intros ((b & Hb & ->) & N & H). exact (strip_word [] n b (nonspace_word n N H) Hb). Qed.
Lemma frac_in_cell x : in_cell x (frac x).
Proof.
  unfold in_cell, frac. destruct (base_Int_part x) as [A B]. split; [lra|]. exists (Int_part x). ring.
Qed.
Lemma nth_triples (g : nat * nat -> nat -> R) l a x : (a < length l)%nat -> (x < 3)%nat ->
  nth (3 * a + x) (flat_map (fun p => [g p 0%nat; g p 1%nat; g p 2%nat]) l) 0%R = g (nth a l (0, 0)%nat) x.
Proof.
  revert a. induction l as [|p l IH]; intros a Ha Hx; [cbn in Ha; lia|]. destruct a as [|a].
  - destruct x as [|[|[|x]]]; [reflexivity|reflexivity|reflexivity|lia].
  - cbn [flat_map length] in *. replace (3 * S a + x)%nat with (3 + (3 * a + x))%nat by lia. cbn [app nth plus]. apply IH; lia.
Qed.

Theorem round_trip dec version c u l f junk name : sized c -> cells_match c -> (forall s, (s < species c)%nat -> padded (name s) (symbol c s)) ->
  writes c false l f -> good_main l -> (forall p, In (Params p) l -> version p = Some false) ->
  exists d, read_interpolation_data dec version u (f ++ junk) = Ok d /\ i_natoms d = ions c /\ length (atoms c) = ions c /\
    (forall i j, (i < 3)%nat -> (j < 3)%nat -> i_cell d i j = (dec (lattice c i j) * u_len u)%R) /\
    length (i_r d) = (3 * ions c)%nat /\
    (forall a x s k, (a < ions c)%nat -> (x < 3)%nat -> nth a (atoms c) (0, 0)%nat = (s, k) -> in_cell (dec (position c x k s)) (nth (3 * a + x) (i_r d) 0%R)) /\
    i_mass d = map (fun a => (dec (mass c (fst a)) * u_mass u)%R) (atoms c) /\
    i_type d = map (fun a => name (fst a)) (atoms c) /\
    i_ncells d = cells c /\
    (forall a i j, (a < cells c)%nat -> (i < 3 * ions c)%nat -> (j < 3 * ions c)%nat -> i_fc d a i j = (dec (fcs c i j a) * u_fc u)%R) /\
    (forall i j, (i < 3)%nat -> (j < 3)%nat -> i_sc d i j = scm c i j) /\
    (forall a x, (a < cells c)%nat -> (x < 3)%nat -> i_origins d a x = origin c x a) /\
    (In Born l -> exists b, i_born d = Some b /\ forall a i j, (a < ions c)%nat -> (i < 3)%nat -> (j < 3)%nat -> b a i j = (dec (born c j i a) * u_born u)%R) /\
    (~ In Born l -> i_born d = None) /\
    (In Born l -> In Dielectric l -> exists e, i_diel d = Some e /\ forall i j, (i < 3)%nat -> (j < 3)%nat -> e i j = (dec (dielectric c i j) * u_diel u)%R) /\
    (~ (In Born l /\ In Dielectric l) -> i_diel d = None).
Proof.
  intros SZ DM NM W G V. destruct (read_ok dec version c SZ (det_match c DM) u l f junk W G V) as (d & E & A1 & A2 & A3 & A4 & A5 & A).
  pose proof (length_atoms c) as LA.
  exists d. split; [exact E|]. split; [exact A1|]. split; [exact LA|]. split; [exact A2|].
  split. { rewrite A3, (length_flat_map_const _ _ 3) by reflexivity. lia. }
  split. { intros a x s k Ha Hx Q. rewrite A3. rewrite (nth_triples (fun a x => frac (dec (position c x (snd a) (fst a))))) by (rewrite ?LA; assumption). rewrite Q. cbn [fst snd]. apply frac_in_cell. }
  split; [exact A4|]. split; [|exact A]. rewrite A5. apply map_ext_in. intros [s k] I. cbn [fst]. apply strip_padded, NM. unfold atoms in I. apply in_flat_map in I. destruct I as (s' & I & J). apply in_seq in I. apply in_map_iff in J. destruct J as (k' & J & _). assert (s = s') by congruence. lia.
Qed.

(** An example: two species, three atoms, a supercell of two cells. *)
Definition ex : contents :=
  {| species := 2; per_species := fun s => S s; lattice := fun i j => [Z.of_nat i; Z.of_nat j; 0; 0; 0; 0; 0; 0];
     position := fun x k s => [Z.of_nat x; Z.of_nat k; Z.of_nat s; 0; 0; 0; 0; 0]; mass := fun s => [Z.of_nat s; 1; 0; 0; 0; 0; 0; 0];
     symbol := fun s => [78; 97; 32; 32; 32; 32; 32; 32]; scm := fun i j => if Nat.eqb i j then (if Nat.eqb i 0 then -2 else 1) else 0; cells := 2;
     fcs := fun i j a => [Z.of_nat i; Z.of_nat j; Z.of_nat a; 0; 0; 0; 0; 0]; origin := fun x a => if (Nat.eqb x 0 && Nat.eqb a 1)%bool then 1 else 0; fc_row := [1];
     born := fun j i a => [Z.of_nat j; Z.of_nat i; Z.of_nat a; 0; 0; 0; 0; 0]; dielectric := fun i j => [Z.of_nat i; Z.of_nat j; 0; 0; 0; 0; 0; 0] |}.
Definition ex_cell : list cell_item := [Lattice; NumIons; NumSpecies; Skip [65]; NumInSpecies; Positions; Symbols; Masses].
Definition ex_items (b e : bool) : list main_item := [Other [66; 67]; Params [49]; Cell ex_cell] ++ (if b then [Born] else []) ++ [ForceCon] ++ (if e then [Dielectric] else []).
Lemma titled_self s : fits (ascii_codes s) -> titled s (ascii_codes s).
Proof. intros F. split; [exact F|]. exists [], []. split; [intros x []|]. cbn. symmetry. apply app_nil_r. Qed.
Lemma ex_sized : sized ex.
Proof.
  unfold sized. repeat match goal with |- _ /\ _ => split end; try (intros; reflexivity); try (cbn; lia).
  - intros i j. unfold int32. cbn. destruct (Nat.eqb i j), (Nat.eqb i 0); lia.
  - intros x a. unfold int32. cbn. destruct (Nat.eqb x 0 && Nat.eqb a 1)%bool; lia.
  - discriminate.
  - intros z [<-|[]]. unfold int32. lia.
Qed.
Lemma ex_match : cells_match ex. Proof. reflexivity. Qed.
Lemma ex_padded s : padded [78; 97] (symbol ex s).
Proof.
  split; [exists (repeat 32 6); split; [intros x I; apply repeat_spec in I; left; exact I|reflexivity]|]. split; [discriminate|].
  intros x I H. cbn in I. unfold space in H. lia.
Qed.
Lemma ex_writes_cell : exists g, writes_cell ex ex_cell g.
Proof.
  unfold ex_cell. eexists.
  repeat first [apply cell_end; apply titled_self; reflexivity
    | apply cell_skip; [reflexivity| |]
    | apply cell_more; [intros q; discriminate|cbn [cell_title]; apply titled_self; reflexivity|] ].
  intros s I (_ & a & b & _ & E). apply (f_equal (@length Z)) in E. rewrite !app_length in E. cbn in I. repeat (destruct I as [<-|I]; [cbn in E; lia|]). contradiction.
Qed.
Lemma ex_writes b e : exists f, writes ex false (ex_items b e) f.
Proof.
  destruct ex_writes_cell as (g & G). unfold ex_items. cbn [app].
  assert (T : forall s, fits (ascii_codes s) -> titled s (ascii_codes s)) by exact titled_self.
  assert (End : writes ex true [] (record (ascii_codes "END"))) by (apply w_end, T; reflexivity).
  assert (D : exists f, writes ex true (if e then [Dielectric] else []) f) by (destruct e; [eexists; apply w_diel; [apply T; reflexivity|exact End]|eexists; exact End]).
  destruct D as (f1 & D). assert (Fc : writes ex true (ForceCon :: if e then [Dielectric] else []) (record (ascii_codes "FORCE_CON") ++ fc_body ex ++ f1)) by (apply w_fc; [apply T; reflexivity|exact D]).
  assert (B : exists f, writes ex true ((if b then [Born] else []) ++ ForceCon :: if e then [Dielectric] else []) f) by (destruct b; [eexists; apply w_born; [apply T; reflexivity|exact Fc]|eexists; exact Fc]).
  destruct B as (f2 & B). eexists. apply w_other; [reflexivity| |apply w_params; [apply T; reflexivity|reflexivity|apply (w_cell ex (ascii_codes "BEGIN_UNIT_CELL") ex_cell g); [apply T; reflexivity|exact G|exact B]]].
  intros s I _ (_ & x & y & _ & E). cbn in I. repeat (destruct I as [<-|I]; [apply (f_equal (@length Z)) in E; rewrite !app_length in E; cbn in E; lia|]). contradiction.
Qed.
Lemma before_split {A} (a : A) P l1 l2 : In a l1 -> (forall x, In x l1 -> ~ P x) -> before a P (l1 ++ l2).
Proof.
  intros I H m b n E Pb. revert m E. induction l1 as [|x l1 IH]; intros m E; [contradiction|]. destruct m as [|y m]; cbn in E.
  - exfalso. apply (H x); [left; reflexivity|]. congruence.
  - destruct I as [->|I]; [left; congruence|]. right. apply IH; [exact I|intros z J; apply H; right; exact J|congruence].
Qed.
Lemma ex_good b e : good_main (ex_items b e).
Proof.
  split; [|split].
  - exists ex_cell. split; [cbn; tauto|]. unfold good_cell, ex_cell. repeat match goal with |- _ /\ _ => split end; try (cbn; tauto).
    + apply (before_split NumSpecies _ [Lattice; NumIons; NumSpecies; Skip [65]]); [cbn; tauto|]. intros x I. cbn in I. repeat (destruct I as [<-|I]; [intros [Q|[Q|Q]]; discriminate|]). contradiction.
    + apply (before_split NumInSpecies _ [Lattice; NumIons; NumSpecies; Skip [65]; NumInSpecies]); [cbn; tauto|]. intros x I. cbn in I. repeat (destruct I as [<-|I]; [discriminate|]). contradiction.
  - unfold ex_items. destruct b; cbn; tauto.
  - assert (H : before (Cell ex_cell) (fun b => b = ForceCon \/ b = Born) (ex_items b e)).
    { apply (before_split (Cell ex_cell) _ [Other [66; 67]; Params [49]; Cell ex_cell]); [cbn; tauto|]. intros y I. cbn in I. repeat (destruct I as [<-|I]; [intros [Q|Q]; discriminate|]). contradiction. }
    intros l1 x l2 E P. exists ex_cell. exact (H l1 x l2 E P).
Qed.
