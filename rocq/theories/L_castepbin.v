(** Lemmas for the CASTEP binary reader (C63, C52). *)
From Coq Require Import String Ascii.
From Verif Require Import Base M_fortran S_fortran L_fortran M_castepbin S_castepbin.
Open Scope Z_scope.

(** ** Headers *)
Lemma beq_spec a b : beq a b = true <-> a = b.
Proof.
  revert b. induction a as [|x a IH]; intros [|y b]; cbn; split; try discriminate; try reflexivity.
  - intros H. apply andb_true_iff in H. destruct H as [H1 H2]. apply Z.eqb_eq in H1. apply IH in H2. congruence.
  - intros H. injection H as -> ->. rewrite Z.eqb_refl. apply (IH b). reflexivity.
Qed.
Lemma is_space_spec b : is_space b = true <-> space b.
Proof. unfold is_space, space. rewrite orb_true_iff, andb_true_iff, Z.eqb_eq, !Z.leb_le. tauto. Qed.
Lemma lstrip_spaces a l : (forall x, In x a -> space x) -> lstrip (a ++ l) = lstrip l.
Proof. induction a as [|x a IH]; intros H; [reflexivity|]. cbn. rewrite (proj2 (is_space_spec x)) by (apply H; left; reflexivity). apply IH. intros y I. apply H. right. exact I. Qed.
Lemma lstrip_decomp l : exists a, (forall x, In x a -> space x) /\ l = a ++ lstrip l.
Proof.
  induction l as [|x l (a & H & E)]; [exists []; split; [intros x []|reflexivity]|]. cbn [lstrip]. destruct (is_space x) eqn:S.
  - exists (x :: a). split; [intros y [<-|I]; [apply is_space_spec; exact S|apply H; exact I]|]. cbn. f_equal. exact E.
  - exists []. split; [intros y []|reflexivity].
Qed.
(** A word: its first and last bytes are no white space. *)
Definition word (w : bytes) : Prop := lstrip w = w /\ lstrip (rev w) = rev w /\ w <> [].
Lemma lstrip_word w b : word w -> lstrip (w ++ b) = w ++ b.
Proof. intros (H & _ & N). destruct w as [|x w]; [congruence|]. cbn in *. destruct (is_space x); [|reflexivity]. exfalso. pose proof (lstrip_decomp w) as (a & _ & E). apply (f_equal (@length Z)) in E. rewrite app_length, H in E. cbn in E. lia. Qed.
Lemma strip_word a w b : word w -> (forall x, In x (a ++ b) -> space x) -> strip (a ++ w ++ b) = w.
Proof.
  intros W H. unfold strip. rewrite lstrip_spaces by (intros x I; apply H, in_or_app; left; exact I). rewrite lstrip_word by exact W. rewrite rev_app_distr.
  rewrite lstrip_spaces by (intros x I; apply H, in_or_app; right; apply in_rev; exact I). destruct W as (_ & W & _). rewrite W. apply rev_involutive.
Qed.
Lemma strip_inv p w : strip p = w -> exists a b, (forall x, In x (a ++ b) -> space x) /\ p = a ++ w ++ b.
Proof.
  intros E. unfold strip in E. destruct (lstrip_decomp p) as (a & Ha & Ea). set (l1 := lstrip p) in *. destruct (lstrip_decomp (rev l1)) as (b & Hb & Eb).
  exists a, (rev b). split; [intros x I; apply in_app_or in I; destruct I as [I|I]; [apply Ha; exact I|apply Hb; apply in_rev; exact I]|].
  rewrite Ea. f_equal. rewrite <- (rev_involutive l1), Eb, rev_app_distr. rewrite E. reflexivity.
Qed.
Lemma codes_ascii s : codes s = ascii_codes s.
Proof. induction s as [|a s IH]; [reflexivity|]. cbn [codes ascii_codes]. rewrite IH. reflexivity. Qed.
Lemma header_iff s p : word (ascii_codes s) -> fits p -> is_header p s = true <-> titled s p.
Proof.
  intros W F. unfold is_header. rewrite beq_spec, codes_ascii. split.
  - intros E. split; [exact F|]. apply strip_inv. exact E.
  - intros (_ & a & b & H & ->). apply strip_word; assumption.
Qed.
Lemma header_no s p : word (ascii_codes s) -> fits p -> ~ titled s p -> is_header p s = false.
Proof. intros W F N. destruct (is_header p s) eqn:E; [|reflexivity]. exfalso. apply N. apply header_iff; assumption. Qed.
Lemma titled_other s t p : word (ascii_codes s) -> word (ascii_codes t) -> ascii_codes s <> ascii_codes t -> titled s p -> is_header p t = false.
Proof.
  intros Ws Wt N H. pose proof (proj1 H) as F. apply header_iff in H; [|exact Ws|exact F]. destruct (is_header p t) eqn:E; [|reflexivity]. exfalso. apply N.
  unfold is_header in H, E. apply beq_spec in H, E. rewrite codes_ascii in H, E. congruence.
Qed.
Lemma cell_words s : In s cell_titles -> word (ascii_codes s).
Proof. intros I. unfold cell_titles in I. cbn [In] in I. repeat (destruct I as [<-|I]; [split; [reflexivity|split; [reflexivity|discriminate]]|]). contradiction. Qed.
Lemma main_words s : In s main_titles -> word (ascii_codes s).
Proof. intros I. unfold main_titles in I. cbn [In] in I. repeat (destruct I as [<-|I]; [split; [reflexivity|split; [reflexivity|discriminate]]|]). contradiction. Qed.

(** ** Entries *)
Lemma raw_ok p r : fits p -> entry_raw (record p ++ r) = Ok (p, r).
Proof. intros F. unfold entry_raw. rewrite (entry_ok Raw p r (DBytes p) F (fun r => data_raw p r)). reflexivity. Qed.
Lemma intn_ok l r : l <> [] -> (forall z, In z l -> int32 z) -> fits (concat (map big_endian l)) -> entry_intn (ints l ++ r) = Ok (l, r).
Proof.
  intros N H F. unfold entry_intn, ints. destruct l as [|a [|b l]]; [congruence| |].
  - cbn [map concat] in *. rewrite app_nil_r. rewrite entry_int by (apply H; left; reflexivity). reflexivity.
  - rewrite entry_ints; [reflexivity|exact H|cbn; lia|exact F].
Qed.
Lemma int1_ok z r : int32 z -> entry_int1 (ints [z] ++ r) = Ok (z, r).
Proof. intros H. unfold entry_int1, ints. cbn [map concat]. rewrite app_nil_r, entry_int by exact H. reflexivity. Qed.
Lemma floats_ok dec l r : l <> [] -> (forall x, In x l -> length x = 8%nat) -> fits (concat l) -> entry_floats dec (floats l ++ r) = Ok (map dec l, r).
Proof.
  intros N H F. unfold entry_floats, floats. rewrite entry_items; [|discriminate|exact N|exact H|exact F]. destruct l as [|a [|b l]]; [congruence| |]; reflexivity.
Qed.
Lemma strs_ok l r : l <> [] -> (forall x, In x l -> length x = 8%nat) -> fits (concat l) -> entry_strs (Z.of_nat (length l) =? 1) (floats l ++ r) = Ok (map strip l, r).
Proof.
  intros N H F. unfold entry_strs, floats. rewrite entry_items; [|discriminate|exact N|exact H|exact F]. destruct l as [|a [|b l]]; [congruence| |].
  - reflexivity.
  - rewrite (proj2 (Z.eqb_neq _ _)) by (cbn [length]; lia). reflexivity.
Qed.

(** ** Column-major arrays *)
Lemma nth_flat_map_const {A} w (g : nat -> list A) n k r d : (forall x, length (g x) = w) -> (k < n)%nat -> (r < w)%nat -> nth (w * k + r) (flat_map g (seq 0 n)) d = nth r (g k) d.
Proof.
  intros L Hk Hr. assert (G : forall s, nth (w * k + r) (flat_map g (seq s n)) d = nth r (g (s + k)%nat) d); [|apply (G 0%nat)].
  revert k Hk. induction n as [|n IH]; intros k Hk s; [lia|]. cbn [seq flat_map]. destruct k as [|k].
  - rewrite Nat.mul_0_r, Nat.add_0_r. cbn [plus]. apply app_nth1. rewrite L. exact Hr.
  - rewrite app_nth2 by (rewrite L; nia). rewrite L. replace (w * S k + r - w)%nat with (w * k + r)%nat by nia. rewrite IH by lia. f_equal. f_equal. lia.
Qed.
Lemma length_array2 {A} n m (a : nat -> nat -> A) : length (array2 n m a) = (n * m)%nat.
Proof. unfold array2. rewrite (length_flat_map_const _ _ n); [rewrite seq_length; lia|]. intros j _. rewrite map_length, seq_length. reflexivity. Qed.
Lemma nth_array2 {A} n m (a : nat -> nat -> A) i j d : (i < n)%nat -> (j < m)%nat -> nth (n * j + i) (array2 n m a) d = a i j.
Proof.
  intros Hi Hj. unfold array2. rewrite (nth_flat_map_const n); [|intros x; rewrite map_length, seq_length; reflexivity|exact Hj|exact Hi].
  rewrite (map_nth_indep _ _ _ 0%nat d) by (rewrite seq_length; exact Hi). rewrite seq_nth by exact Hi. reflexivity.
Qed.
Lemma length_array3 {A} n m k (a : nat -> nat -> nat -> A) : length (array3 n m k a) = (n * m * k)%nat.
Proof. unfold array3. rewrite (length_flat_map_const _ _ (n * m)); [rewrite seq_length; lia|]. intros j _. apply length_array2. Qed.
Lemma nth_array3 {A} n m k (a : nat -> nat -> nat -> A) i j c d : (i < n)%nat -> (j < m)%nat -> (c < k)%nat -> nth (n * m * c + (n * j + i)) (array3 n m k a) d = a i j c.
Proof. intros Hi Hj Hc. unfold array3. rewrite (nth_flat_map_const (n * m)); [|intros x; apply length_array2|exact Hc|nia]. apply (nth_array2 n m (fun i j => a i j c)); assumption. Qed.
Lemma array2_map {A B} (f : A -> B) n m a : map f (array2 n m a) = array2 n m (fun i j => f (a i j)).
Proof. unfold array2. rewrite !flat_map_concat_map, concat_map, map_map. f_equal. apply map_ext. intros j. apply map_map. Qed.
Lemma array3_map {A B} (f : A -> B) n m k a : map f (array3 n m k a) = array3 n m k (fun i j c => f (a i j c)).
Proof. unfold array3. rewrite !flat_map_concat_map, concat_map, map_map. f_equal. apply map_ext. intros c. apply (array2_map f n m (fun i j => a i j c)). Qed.
Lemma in_array2 {A} n m (a : nat -> nat -> A) x : In x (array2 n m a) -> exists i j, x = a i j.
Proof. unfold array2. rewrite in_flat_map. intros (j & _ & I). apply in_map_iff in I. destruct I as (i & <- & _). exists i, j. reflexivity. Qed.
Lemma in_array3 {A} n m k (a : nat -> nat -> nat -> A) x : In x (array3 n m k a) -> exists i j c, x = a i j c.
Proof. unfold array3. rewrite in_flat_map. intros (c & _ & I). apply in_array2 in I. destruct I as (i & j & ->). exists i, j, c. reflexivity. Qed.
Lemma fits_items w (l : list (list Z)) : (forall x, In x l -> length x = w) -> Z.of_nat (w * length l) < 2147483648 -> fits (concat l).
Proof. intros H L. unfold fits. rewrite (length_concat_w w l H). exact L. Qed.
Lemma fits_ints l : Z.of_nat (4 * length l) < 2147483648 -> fits (concat (map big_endian l)).
Proof. intros L. apply (fits_items 4); [intros x I; apply in_map_iff in I; destruct I as (z & <- & _); reflexivity|]. rewrite map_length. exact L. Qed.

(** ** The unit cell block *)
Section CellBlock.
Variable dec : bytes -> R.
Variable c : contents.
Hypothesis SZ : sized c.

Definition T_nin := map (fun s => Z.of_nat (per_species c s)) (seq 0 (species c)).
Definition T_cell := map dec (array2 3 3 (lattice c)).
Definition T_pos := map dec (array3 3 (most c) (species c) (position c)).
Definition T_mass := map dec (map (mass c) (seq 0 (species c))).
Definition T_sym := map strip (map (symbol c) (seq 0 (species c))).
(** Each variable is unassigned or holds the true value. *)
Definition opt_is {A} (o : option A) (x : A) := o = None \/ o = Some x.
Definition good (v : cell_vars) : Prop :=
  opt_is (v_natoms v) (Z.of_nat (ions c)) /\ opt_is (v_cell v) T_cell /\ opt_is (v_nspecies v) (Z.of_nat (species c)) /\ opt_is (v_nin v) T_nin /\
  opt_is (v_pos v) T_pos /\ opt_is (v_mass v) T_mass /\ opt_is (v_sym v) T_sym.
Definition assigned (i : cell_item) (v : cell_vars) : Prop := match i with
  | Skip _ => True | NumIons => v_natoms v <> None | Lattice => v_cell v <> None | NumSpecies => v_nspecies v <> None | NumInSpecies => v_nin v <> None
  | Positions => v_pos v <> None | Masses => v_mass v <> None | Symbols => v_sym v <> None end.

Lemma ions_bound s : (s < species c)%nat -> (per_species c s <= ions c)%nat /\ (per_species c s <= most c)%nat.
Proof.
  intros H. assert (I : In (per_species c s) (map (per_species c) (seq 0 (species c)))) by (apply in_map, in_seq; lia). unfold ions, most. split.
  - revert I. generalize (map (per_species c) (seq 0 (species c))). induction l as [|a l IH]; intros []; change (list_sum (a :: l)) with (a + list_sum l)%nat; [lia|]. specialize (IH H0). lia.
  - pose proof (proj1 (list_max_le _ _) (Nat.le_refl (list_max (map (per_species c) (seq 0 (species c)))))) as F. rewrite Forall_forall in F. apply F. exact I.
Qed.
Lemma species_le : (species c <= ions c)%nat.
Proof.
  destruct SZ as (S0 & S1 & _). unfold ions. assert (G : forall l, (forall s, In s l -> (s < species c)%nat) -> (length l <= list_sum (map (per_species c) l))%nat).
  { induction l as [|s l IH]; intros H; [cbn; lia|]. change (list_sum (map (per_species c) (s :: l))) with (per_species c s + list_sum (map (per_species c) l))%nat. cbn [length]. specialize (S1 s (H s (or_introl eq_refl))). specialize (IH (fun t I => H t (or_intror I))). lia. }
  specialize (G (seq 0 (species c))). rewrite seq_length in G. apply G. intros s I. apply in_seq in I. lia.
Qed.
Lemma ions_small : Z.of_nat (72 * ions c) < 2147483648.
Proof.
  destruct SZ as (S0 & _ & C0 & _ & _ & _ & _ & _ & _ & _ & _ & _ & _ & _ & _ & B & _). pose proof species_le. assert (1 <= ions c)%nat by lia. assert (72 * ions c <= 72 * ions c * ions c * cells c)%nat by nia. lia.
Qed.
Lemma max_nin : fold_right Z.max 0 T_nin = Z.of_nat (most c).
Proof.
  unfold T_nin, most. generalize (seq 0 (species c)). induction l as [|s l IH]; [reflexivity|]. cbn [map fold_right]. unfold list_max in *. cbn [fold_right]. rewrite IH. lia.
Qed.

Lemma before_head {A} (a : A) P b l : before a P (b :: l) -> ~ P b.
Proof. intros H Pb. exact (H [] b l eq_refl Pb). Qed.
Lemma before_tail {A} (a : A) P b l : before a P (b :: l) -> b <> a -> before a P l.
Proof. intros H N l1 x l2 E Px. destruct (H (b :: l1) x l2) as [Q|Q]; [cbn; congruence|exact Px|congruence|exact Q]. Qed.

Definition order (v : cell_vars) (l : list cell_item) : Prop :=
  (v_nspecies v = None -> before NumSpecies (fun i => i = NumInSpecies \/ i = Masses \/ i = Symbols) l) /\
  (v_nin v = None -> before NumInSpecies (fun i => i = Positions) l) /\ (v_nin v <> None -> v_nspecies v <> None).

Lemma some_of {A} (o : option A) x : opt_is o x -> o <> None -> o = Some x.
Proof. intros [E|E] N; [contradiction|exact E]. Qed.

Lemma step_ok i p l f v fuel rest : (forall q, i <> Skip q) -> titled (cell_title i) p -> good v -> order v (i :: l) ->
  exists v', read_cell_loop dec (S fuel) v (record p ++ cell_body c i ++ f ++ rest) = read_cell_loop dec fuel v' (f ++ rest) /\
  good v' /\ order v' l /\ assigned i v' /\ forall j, assigned j v -> assigned j v'.
Proof.
  intros NS T G O. destruct SZ as (S0 & S1 & C0 & L1 & L2 & L3 & L4 & L5 & L6 & L7 & I1 & I2 & F1 & F2 & F3 & B1 & B2 & B3).
  pose proof ions_small as IS. pose proof species_le as SL. destruct G as (G1 & G2 & G3 & G4 & G5 & G6 & G7). destruct O as (O1 & O2 & O3).
  cbn [read_cell_loop]. rewrite raw_ok by exact (proj1 T).
  assert (Hs : seq 0 (species c) <> []) by (destruct (species c); [lia|discriminate]).
  assert (W : forall s, In s cell_titles -> word (ascii_codes s)) by exact cell_words.
  assert (Yes : is_header p (cell_title i) = true) by (apply header_iff; [apply W; destruct i; cbn; try tauto; exfalso; exact (NS _ eq_refl)|exact (proj1 T)|exact T]).
  assert (No : forall s, In s cell_titles -> ascii_codes (cell_title i) <> ascii_codes s -> is_header p s = false).
  { intros s I N. apply (titled_other (cell_title i) s p); [apply W; destruct i; cbn; try tauto; exfalso; exact (NS _ eq_refl)|apply W; exact I|exact N|exact T]. }
  destruct i; [exfalso; exact (NS _ eq_refl)| | | | | | |]; cbn [cell_title cell_body] in *;
    repeat match goal with |- context [is_header p ?s] => first [rewrite Yes|rewrite (No s) by (first [cbn; tauto|discriminate])] end.
  - rewrite int1_ok by (unfold int32; lia). eexists. split; [reflexivity|]. unfold good, order, assigned, opt_is. cbn.
    split; [tauto|]. split; [|split; [discriminate|intros j; destruct j; try tauto; discriminate]].
    split; [intros N; apply (before_tail _ _ _ _ (O1 N)); discriminate|]. split; [intros N; apply (before_tail _ _ _ _ (O2 N)); discriminate|exact O3].
  - rewrite floats_ok; [|discriminate|intros x I; apply in_array2 in I; destruct I as (a & b & ->); apply L1|apply (fits_items 8); [intros x I; apply in_array2 in I; destruct I as (a & b & ->); apply L1|rewrite length_array2; lia]].
    rewrite map_length, length_array2. cbn [Nat.mul Nat.add Nat.eqb]. eexists. split; [reflexivity|]. unfold good, order, assigned, opt_is. cbn.
    split; [tauto|]. split; [|split; [discriminate|intros j; destruct j; try tauto; discriminate]].
    split; [intros N; apply (before_tail _ _ _ _ (O1 N)); discriminate|]. split; [intros N; apply (before_tail _ _ _ _ (O2 N)); discriminate|exact O3].
  - rewrite int1_ok by (unfold int32; lia). eexists. split; [reflexivity|]. unfold good, order, assigned, opt_is. cbn.
    split; [tauto|]. split; [|split; [discriminate|intros j; destruct j; try tauto; discriminate]].
    split; [discriminate|]. split; [intros N; apply (before_tail _ _ _ _ (O2 N)); discriminate|discriminate].
  - assert (NN : v_nspecies v <> None) by (intros N; apply (before_head _ _ _ _ (O1 N)); tauto).
    rewrite intn_ok; [|destruct (seq 0 (species c)); [congruence|discriminate]|intros z I; apply in_map_iff in I; destruct I as (s & <- & I); apply in_seq in I; destruct (ions_bound s); [lia|]; unfold int32; lia|apply fits_ints; rewrite map_length, seq_length; lia].
    rewrite (some_of _ _ G3 NN). eexists. split; [reflexivity|]. unfold good, order, assigned, opt_is. cbn.
    split; [tauto|]. split; [|split; [discriminate|intros j; destruct j; try tauto; discriminate]].
    split; [discriminate|]. split; discriminate.
  - assert (NN : v_nin v <> None) by (intros N; apply (before_head _ _ _ _ (O2 N)); reflexivity). pose proof (O3 NN) as NN2.
    rewrite (some_of _ _ G4 NN), (some_of _ _ G3 NN2). assert (M0 : (0 < most c)%nat) by (destruct (ions_bound 0 S0) as [_ Q]; specialize (S1 0%nat S0); lia).
    rewrite floats_ok; [| |intros x I; apply in_array3 in I; destruct I as (a & b & d & ->); apply L2|apply (fits_items 8); [intros x I; apply in_array3 in I; destruct I as (a & b & d & ->); apply L2|rewrite length_array3; lia]].
    2:{ intros E. apply (f_equal (@length _)) in E. rewrite length_array3 in E. cbn in E. nia. }
    rewrite max_nin, map_length, length_array3. rewrite (proj2 (Z.eqb_eq _ _)) by lia. eexists. split; [reflexivity|]. unfold good, order, assigned, opt_is. cbn.
    split; [tauto|]. split; [|split; [discriminate|intros j; destruct j; try tauto; discriminate]].
    split; [discriminate|]. split; discriminate.
  - assert (NN : v_nspecies v <> None) by (intros N; apply (before_head _ _ _ _ (O1 N)); tauto).
    rewrite floats_ok; [|destruct (seq 0 (species c)); [congruence|discriminate]|intros x I; apply in_map_iff in I; destruct I as (s & <- & I); apply L3|apply (fits_items 8); [intros x I; apply in_map_iff in I; destruct I as (s & <- & I); apply L3|rewrite map_length, seq_length; lia]].
    rewrite (some_of _ _ G3 NN). eexists. split; [reflexivity|]. unfold good, order, assigned, opt_is. cbn.
    split; [tauto|]. split; [|split; [discriminate|intros j; destruct j; try tauto; discriminate]].
    split; [discriminate|]. split; [intros N; apply (before_tail _ _ _ _ (O2 N)); discriminate|discriminate].
  - assert (NN : v_nspecies v <> None) by (intros N; apply (before_head _ _ _ _ (O1 N)); tauto). rewrite (some_of _ _ G3 NN).
    pose proof (strs_ok (map (symbol c) (seq 0 (species c))) (f ++ rest)) as Q. rewrite map_length, seq_length in Q. rewrite Q; clear Q; [|destruct (seq 0 (species c)); [congruence|discriminate]|intros x I; apply in_map_iff in I; destruct I as (s & <- & I); apply L4|apply (fits_items 8); [intros x I; apply in_map_iff in I; destruct I as (s & <- & I); apply L4|rewrite map_length, seq_length; lia]].
    eexists. split; [reflexivity|]. unfold good, order, assigned, opt_is. cbn.
    split; [tauto|]. split; [|split; [discriminate|intros j; destruct j; try tauto; discriminate]].
    split; [discriminate|]. split; [intros N; apply (before_tail _ _ _ _ (O2 N)); discriminate|discriminate].
Qed.

Lemma loop_ok its g : writes_cell c its g -> forall v fuel rest, (length its < fuel)%nat -> good v -> order v its ->
  exists v', read_cell_loop dec fuel v (g ++ rest) = Ok (v', rest) /\ good v' /\ (forall i, In i its -> assigned i v') /\ forall j, assigned j v -> assigned j v'.
Proof.
  intros W. induction W as [p T|p l f F N W IH|i p l f NS T W IH]; intros v fuel rest Hf G O; (destruct fuel as [|fuel]; [lia|]).
  - exists v. cbn [read_cell_loop]. rewrite raw_ok by exact (proj1 T). assert (E : is_header p "END_UNIT_CELL" = true) by (apply header_iff; [apply cell_words; cbn; tauto|exact (proj1 T)|exact T]). rewrite E. split; [reflexivity|]. split; [exact G|]. split; [intros i []|tauto].
  - cbn [length] in Hf. destruct (IH v fuel rest) as (v' & E & G' & A & M); [lia|exact G| |].
    { destruct O as (O1 & O2 & O3). split; [intros Q; apply (before_tail _ _ _ _ (O1 Q)); discriminate|]. split; [intros Q; apply (before_tail _ _ _ _ (O2 Q)); discriminate|exact O3]. }
    exists v'. split; [|split; [exact G'|split; [|exact M]]].
    + cbn [read_cell_loop]. rewrite <- app_assoc, raw_ok by exact F.
      assert (No : forall s, In s cell_titles -> is_header p s = false) by (intros s I; apply header_no; [apply cell_words; exact I|exact F|apply N; exact I]).
      repeat match goal with |- context [is_header p ?s] => rewrite (No s) by (cbn; tauto) end. exact E.
    + intros i [<-|I]; [exact Logic.I|apply A; exact I].
  - cbn [length] in Hf. destruct (step_ok i p l f v fuel rest NS T G O) as (v1 & E1 & G1 & O1 & A1 & M1). destruct (IH v1 fuel rest) as (v' & E & G' & A & M); [lia|exact G1|exact O1|].
    exists v'. split; [rewrite <- !app_assoc, E1; exact E|]. split; [exact G'|]. split; [|intros j Hj; apply M, M1; exact Hj].
    intros j [<-|I]; [apply M; exact A1|apply A; exact I].
Qed.
Lemma record_long p : (8 <= length (record p))%nat.
Proof. unfold record. rewrite !app_length, !length_be. lia. Qed.
Lemma cell_length its g : writes_cell c its g -> (length its < length g)%nat.
Proof. induction 1 as [p T|p l f F N W IH|i p l f NS T W IH]; cbn [length]; rewrite ?app_length; pose proof (record_long p); lia. Qed.

Lemma length_atoms : length (atoms c) = ions c.
Proof. unfold atoms, ions. generalize (seq 0 (species c)). induction l as [|s l IH]; [reflexivity|]. cbn [flat_map map list_sum fold_right]. rewrite app_length, map_length, seq_length, IH. reflexivity. Qed.
Lemma repeated_atoms {A} d (vals : nat -> A) : repeated d (map vals (seq 0 (species c))) T_nin (species c) = map (fun a => vals (fst a)) (atoms c).
Proof.
  unfold repeated, atoms, T_nin. rewrite !flat_map_concat_map, concat_map, map_map. f_equal. apply map_ext_in. intros s I. apply in_seq in I.
  rewrite (map_nth_indep _ _ _ 0%nat d) by (rewrite seq_length; lia). rewrite (map_nth_indep _ _ _ 0%nat 0) by (rewrite seq_length; lia). rewrite seq_nth by lia. rewrite Nat2Z.id, map_map. cbn [fst].
  transitivity (map (fun _ : nat => vals (0 + s)%nat) (seq 0 (per_species c (0 + s)%nat))); [|reflexivity].
  generalize (per_species c (0 + s)%nat) as n. cbn [plus]. intros n. generalize 0%nat at 1. induction n as [|n IH]; intros b; [reflexivity|]. cbn. f_equal. apply IH.
Qed.
Lemma skipn_flat_map {A} w (g : nat -> list A) n k : (forall x, length (g x) = w) -> (k < n)%nat -> exists t, skipn (w * k) (flat_map g (seq 0 n)) = g k ++ t.
Proof.
  intros L. assert (G : forall n s k, (k < n)%nat -> exists t, skipn (w * k) (flat_map g (seq s n)) = g (s + k)%nat ++ t); [|apply (G n 0%nat k)].
  clear n k. induction n as [|n IH]; intros s k Hk; [lia|]. cbn [seq flat_map]. destruct k as [|k].
  - rewrite Nat.mul_0_r, Nat.add_0_r. cbn [skipn]. eexists. reflexivity.
  - rewrite skipn_app, L. rewrite skipn_all2 by (rewrite L; nia). replace (w * S k - w)%nat with (w * k)%nat by nia. cbn [app]. destruct (IH (S s) k ltac:(lia)) as (t & E). exists t. rewrite E. do 2 f_equal. lia.
Qed.
Lemma array2_prefix {A} n m k (a : nat -> nat -> A) : (k <= m)%nat -> firstn (n * k) (array2 n m a) = array2 n k a.
Proof.
  intros H. unfold array2. replace m with (k + (m - k))%nat by lia. rewrite seq_app, flat_map_app. rewrite firstn_app_le; [|apply Nat.eq_le_incl; symmetry; apply (length_array2 n k a)].
  apply firstn_all2. apply Nat.eq_le_incl. apply (length_array2 n k a).
Qed.
Lemma flat_map_nest {A B D} (f : B -> list D) (g : A -> list B) l : flat_map f (flat_map g l) = flat_map (fun x => flat_map f (g x)) l.
Proof. induction l as [|x l IH]; [reflexivity|]. cbn [flat_map]. rewrite flat_map_app, IH. reflexivity. Qed.
Lemma rows_atoms : flat_map (fun i => firstn (3 * Z.to_nat (nth i T_nin 0)) (skipn (3 * most c * i) T_pos)) (seq 0 (species c)) =
  flat_map (fun a => [dec (position c 0 (snd a) (fst a)); dec (position c 1 (snd a) (fst a)); dec (position c 2 (snd a) (fst a))]) (atoms c).
Proof.
  unfold atoms. rewrite flat_map_nest, !flat_map_concat_map. f_equal. apply map_ext_in. intros s I. apply in_seq in I.
  unfold T_nin. rewrite (map_nth_indep _ _ _ 0%nat 0) by (rewrite seq_length; lia). rewrite seq_nth by lia. cbn [plus]. rewrite Nat2Z.id.
  unfold T_pos. rewrite array3_map. unfold array3.
  destruct (skipn_flat_map (3 * most c) (fun d => array2 3 (most c) (fun x k => dec (position c x k d))) (species c) s) as (t & E); [intros x; apply length_array2|lia|]. rewrite E.
  assert (P : (per_species c s <= most c)%nat) by (apply ions_bound; lia).
  rewrite firstn_app_le by (rewrite length_array2; nia). rewrite array2_prefix by exact P. unfold array2. rewrite !flat_map_concat_map, map_map. reflexivity.
Qed.

Definition true_cell : cell :=
  {| c_natoms := ions c; c_vec := fun i j => nth (3 * j + i) T_cell 0%R;
     c_r := flat_map (fun a => [dec (position c 0 (snd a) (fst a)); dec (position c 1 (snd a) (fst a)); dec (position c 2 (snd a) (fst a))]) (atoms c);
     c_mass := map (fun a => dec (mass c (fst a))) (atoms c); c_type := map (fun a => strip (symbol c (fst a))) (atoms c) |}.
Lemma build_ok v : good v -> (forall i, assigned i v) -> build_cell v = Ok true_cell.
Proof.
  intros (G1 & G2 & G3 & G4 & G5 & G6 & G7) A. unfold build_cell.
  rewrite (some_of _ _ G1 (A NumIons)), (some_of _ _ G2 (A Lattice)), (some_of _ _ G3 (A NumSpecies)), (some_of _ _ G4 (A NumInSpecies)), (some_of _ _ G5 (A Positions)), (some_of _ _ G6 (A Masses)), (some_of _ _ G7 (A Symbols)).
  rewrite max_nin, !Nat2Z.id. cbv zeta. unfold T_mass at 1, T_sym at 1, T_nin at 1. rewrite !map_length, seq_length, Nat.ltb_irrefl. cbn [orb]. rewrite rows_atoms.
  set (rows := flat_map _ (atoms c)). assert (L : length rows = (3 * ions c)%nat).
  { unfold rows. rewrite (length_flat_map_const _ _ 3); [rewrite length_atoms; lia|]. intros a _. reflexivity. }
  rewrite L, Nat.ltb_irrefl, Nat.sub_diag. cbn [repeat]. rewrite app_nil_r. unfold true_cell. f_equal.
  unfold T_mass, T_sym. rewrite !map_map. rewrite (repeated_atoms 0%R (fun s => dec (mass c s))), (repeated_atoms [] (fun s => strip (symbol c s))). reflexivity.
Qed.
Lemma good_no : good no_vars. Proof. repeat split; left; reflexivity. Qed.
Lemma read_cell_ok its g rest : writes_cell c its g -> good_cell its -> read_cell dec (g ++ rest) = Ok (true_cell, rest).
Proof.
  intros W (I1 & I2 & I3 & I4 & I5 & I6 & I7 & B1 & B2). unfold read_cell.
  destruct (loop_ok its g W no_vars (length (g ++ rest)) rest) as (v & E & G & A & _).
  - rewrite app_length. pose proof (cell_length its g W). lia.
  - exact good_no.
  - split; [intros _; exact B1|]. split; [intros _; exact B2|]. intros N. exfalso. apply N. reflexivity.
  - rewrite E. rewrite (build_ok v G); [reflexivity|]. intros i. destruct i; try (apply A; assumption). exact Logic.I.
Qed.
End CellBlock.

(** ** The whole file *)
Lemma no_cell c l f : writes c true l f -> forall its, ~ In (Cell its) l.
Proof.
  intros W. remember true as b eqn:E. induction W; intros its0 I; try discriminate; cbn [In] in I; try (destruct I as [I|I]; [discriminate|]; exact (IHW E _ I)). contradiction.
Qed.
Lemma one_cell c l f : writes c false l f -> forall a b, In (Cell a) l -> In (Cell b) l -> a = b.
Proof.
  intros W. remember false as s eqn:E. induction W; intros x y Ix Iy; cbn [In] in Ix, Iy; try contradiction;
    try (destruct Ix as [Ix|Ix]; [discriminate|]; destruct Iy as [Iy|Iy]; [discriminate|]; exact (IHW E _ _ Ix Iy)).
  pose proof (no_cell _ _ _ W) as N. destruct Ix as [Ix|Ix]; [|exfalso; exact (N _ Ix)]. destruct Iy as [Iy|Iy]; [|exfalso; exact (N _ Iy)]. congruence.
Qed.

Section WholeFile.
Variable dec : bytes -> R.
Variable version : bytes -> option bool.
Variable c : contents.
Hypothesis SZ : sized c.
Hypothesis DET : Z.of_nat (cells c) = Z.abs (detZ (scm c)).

Definition true_fc : fcdata :=
  let n := (3 * ions c)%nat in
  {| f_sc := fun i j => nth (3 * j + i) (array2 3 3 (scm c)) 0; f_ncells := cells c;
     f_fc := fun a i j => nth (a * (n * n) + j * n + i) (map dec (array3 n n (cells c) (fcs c))) 0%R;
     f_origin := fun a i => nth (3 * a + i) (array2 3 (cells c) (origin c)) 0 |}.
Lemma read_fc_ok rest : read_fc dec (ions c) (fc_body c ++ rest) = Ok (true_fc, rest).
Proof.
  destruct SZ as (S0 & S1 & C0 & L1 & L2 & L3 & L4 & L5 & L6 & L7 & I1 & I2 & F1 & F2 & F3 & B1 & B2 & B3). pose proof (species_le c SZ) as SL.
  unfold read_fc, fc_body. cbv zeta. rewrite <- !app_assoc.
  rewrite intn_ok; [|discriminate|intros z I; apply in_array2 in I; destruct I as (a & b & ->); apply I1|apply fits_ints; rewrite length_array2; lia].
  rewrite length_array2. cbn [Nat.mul Nat.add Nat.eqb negb].
  assert (NC : Z.to_nat (Z.abs (detZ (fun i j => nth (3 * j + i) (array2 3 3 (scm c)) 0))) = cells c).
  { replace (detZ _) with (detZ (scm c)); [rewrite <- DET; apply Nat2Z.id|]. reflexivity. }
  cbn [Nat.mul Nat.add] in NC. rewrite NC.
  rewrite floats_ok; [| |intros x I; apply in_array3 in I; destruct I as (a & b & d & ->); apply L5|apply (fits_items 8); [intros x I; apply in_array3 in I; destruct I as (a & b & d & ->); apply L5|rewrite length_array3; nia]].
  2:{ intros E. apply (f_equal (@length _)) in E. rewrite length_array3 in E. cbn in E. assert (0 < ions c)%nat by lia. assert (0 < (3 * ions c) * (3 * ions c))%nat by nia. nia. }
  rewrite map_length, length_array3. rewrite (proj2 (Nat.eqb_eq _ _)) by nia. cbn [negb].
  rewrite intn_ok; [| |intros z I; apply in_array2 in I; destruct I as (a & b & ->); apply I2|apply fits_ints; rewrite length_array2; lia].
  2:{ intros E. apply (f_equal (@length _)) in E. rewrite length_array2 in E. cbn in E. lia. }
  rewrite length_array2. rewrite (proj2 (Nat.eqb_eq _ _)) by lia. cbn [negb].
  rewrite intn_ok; [reflexivity|exact F1|exact F2|apply fits_ints; lia].
Qed.

Definition T_born := map dec (array3 3 3 (ions c) (born c)).
Definition T_diel := map dec (array2 3 3 (dielectric c)).
Definition goodm (v : main_vars) : Prop :=
  opt_is (m_cell v) (true_cell dec c) /\ opt_is (m_fc v) true_fc /\ opt_is (m_born v) T_born /\ opt_is (m_diel v) T_diel.
Definition orderm (v : main_vars) (l : list main_item) : Prop :=
  forall l1 b l2, l = l1 ++ b :: l2 -> b = ForceCon \/ b = Born -> m_cell v <> None \/ exists its, In (Cell its) l1.
Lemma orderm_tail v v' b l : orderm v (b :: l) -> (m_cell v <> None -> m_cell v' <> None) -> (forall its, b = Cell its -> m_cell v' <> None) -> orderm v' l.
Proof.
  intros H M N l1 x l2 E P. destruct (H (b :: l1) x l2) as [Q|(its & [Q|Q])]; [cbn; congruence|exact P| | |].
  - left. apply M. exact Q.
  - left. apply (N its). exact Q.
  - right. exists its. exact Q.
Qed.
Lemma orderm_head v b l : orderm v (b :: l) -> b = ForceCon \/ b = Born -> m_cell v <> None.
Proof. intros H P. destruct (H [] b l eq_refl P) as [Q|(its & [])]. exact Q. Qed.
Definition found {A} (a b : option A) (P : Prop) : Prop := b <> None <-> a <> None \/ P.

Lemma found_skip {A} (a b : option A) (x y : main_item) l : found a b (In x l) -> y <> x -> found a b (In x (y :: l)).
Proof. intros [H1 H2] N. split; [intros Q; destruct (H1 Q) as [P|P]; [left; exact P|right; right; exact P]|]. intros [P|[P|P]]; [apply H2; left; exact P|contradiction|apply H2; right; exact P]. Qed.
Lemma found_skipc {A} (a b : option A) (y : main_item) l : found a b (exists its, In (Cell its) l) -> (forall its, y <> Cell its) -> found a b (exists its, In (Cell its) (y :: l)).
Proof. intros [H1 H2] N. split; [intros Q; destruct (H1 Q) as [P|(t & P)]; [left; exact P|right; exists t; right; exact P]|]. intros [P|(t & [P|P])]; [apply H2; left; exact P|exfalso; exact (N t P)|apply H2; right; exists t; exact P]. Qed.
Lemma found_here {A} (a b : option A) (v : A) (P Q : Prop) : found (Some v) b P -> a <> None \/ Q -> found a b Q.
Proof. intros [_ H] I. split; [intros _; exact I|intros _; apply H; left; discriminate]. Qed.
Lemma main_ok seen l f : writes c seen l f -> forall junk v fuel, (length l < fuel)%nat -> goodm v -> (seen = true <-> m_cell v <> None) ->
  (forall its, In (Cell its) l -> good_cell its) -> (forall p, In (Params p) l -> version p = Some false) -> orderm v l ->
  exists v', main_loop dec version fuel v (f ++ junk) = Ok v' /\ goodm v' /\ found (m_cell v) (m_cell v') (exists its, In (Cell its) l) /\
    found (m_fc v) (m_fc v') (In ForceCon l) /\ found (m_born v) (m_born v') (In Born l) /\ found (m_diel v) (m_diel v') (In Dielectric l).
Proof.
  assert (Yes : forall s p, In s main_titles -> titled s p -> is_header p s = true) by (intros s p I T; apply header_iff; [apply main_words; exact I|exact (proj1 T)|exact T]).
  assert (No : forall s t p, In s main_titles -> In t main_titles -> ascii_codes s <> ascii_codes t -> titled s p -> is_header p t = false).
  { intros s t p I J N T. apply (titled_other s t p); [apply main_words; exact I|apply main_words; exact J|exact N|exact T]. }
  destruct SZ as (S0 & S1 & C0 & L1 & L2 & L3 & L4 & L5 & L6 & L7 & I1 & I2 & F1 & F2 & F3 & B1 & B2 & B3). pose proof (species_le c SZ) as SL. pose proof (ions_small c SZ) as IS.
  intros W. induction W as [seen p T|seen p l f F N W IH|seen p q l f T F W IH|p its g l f T WC W IH|seen p l f T W IH|seen p l f T W IH|seen p l f T W IH];
    intros junk v fuel Hf G HS HC HP HO; (destruct fuel as [|fuel]; [cbn in Hf; lia|]); cbn [length] in Hf; rewrite <- ?app_assoc; cbn [main_loop].
  - exists v. rewrite raw_ok by exact (proj1 T). rewrite (Yes "END"%string p) by (first [cbn; tauto|exact T]). split; [reflexivity|]. split; [exact G|]. unfold found. cbn [In].
    split; [split; [tauto|intros [Q|(x & [])]; exact Q]|]. tauto.
  - destruct (IH junk v fuel) as (v' & E & G' & A1 & A2 & A3 & A4); [lia|exact G|exact HS|intros i I; apply HC; right; exact I|intros i I; apply HP; right; exact I|apply (orderm_tail v v (Other p)); [exact HO|tauto|discriminate]|].
    exists v'. rewrite raw_ok by exact F.
    assert (Nh : forall s, In s main_titles -> (seen = true -> s <> "BEGIN_UNIT_CELL"%string) -> is_header p s = false) by (intros s I H; apply header_no; [apply main_words; exact I|exact F|apply N; assumption]).
    rewrite (Nh "END"%string), (Nh "BEGIN_PARAMETERS_DUMP"%string), (Nh "FORCE_CON"%string), (Nh "BORN_CHGS"%string), (Nh "DIELECTRIC"%string) by (first [cbn; tauto|intros _; discriminate]).
    split.
    { destruct (is_header p "BEGIN_UNIT_CELL") eqn:Q; [|exact E]. destruct (m_cell v) eqn:MC; [exact E|]. exfalso. destruct seen; [apply (proj1 HS eq_refl eq_refl)|].
      rewrite Nh in Q by (first [cbn; tauto|discriminate]). discriminate. }
    split; [exact G'|]. split; [apply found_skipc; [exact A1|discriminate]|]. split; [apply found_skip; [exact A2|discriminate]|]. split; apply found_skip; first [discriminate|assumption].
  - rewrite raw_ok by exact (proj1 T). rewrite (No "BEGIN_PARAMETERS_DUMP"%string "END"%string p), (Yes "BEGIN_PARAMETERS_DUMP"%string p) by (first [cbn; tauto|discriminate|exact T]).
    rewrite raw_ok by exact F. rewrite (HP q) by (left; reflexivity).
    destruct (IH junk v fuel) as (v' & E & G' & A1 & A2 & A3 & A4); [lia|exact G|exact HS|intros i I; apply HC; right; exact I|intros i I; apply HP; right; exact I|apply (orderm_tail v v (Params q)); [exact HO|tauto|discriminate]|].
    exists v'. split; [exact E|]. split; [exact G'|]. split; [apply found_skipc; [exact A1|discriminate]|]. split; [apply found_skip; [exact A2|discriminate]|]. split; apply found_skip; first [discriminate|assumption].
  - rewrite raw_ok by exact (proj1 T). rewrite (No "BEGIN_UNIT_CELL"%string "END"%string p), (No "BEGIN_UNIT_CELL"%string "BEGIN_PARAMETERS_DUMP"%string p), (Yes "BEGIN_UNIT_CELL"%string p) by (first [cbn; tauto|discriminate|exact T]).
    destruct (m_cell v) as [x|] eqn:MC; [exfalso; assert (false = true) by (apply HS; discriminate); discriminate|].
    rewrite (read_cell_ok dec c SZ its g (f ++ junk) WC) by (apply HC; left; reflexivity).
    set (v1 := Build_main_vars (Some (true_cell dec c)) (m_fc v) (m_born v) (m_diel v)).
    assert (G1 : goodm v1) by (destruct G as (G1 & G2 & G3 & G4); split; [right; reflexivity|split; [exact G2|split; [exact G3|exact G4]]]).
    destruct (IH junk v1 fuel) as (v' & E & G' & A1 & A2 & A3 & A4); [lia|exact G1|split; [discriminate|reflexivity]|intros i I; apply HC; right; exact I|intros i I; apply HP; right; exact I|apply (orderm_tail v v1 (Cell its)); [exact HO|intros; discriminate|discriminate]|].
    exists v'. split; [exact E|]. split; [exact G'|]. split; [exact (found_here _ _ _ _ _ A1 (or_intror (ex_intro _ its (or_introl eq_refl))))|]. split; [apply found_skip; [exact A2|discriminate]|]. split; apply found_skip; first [discriminate|assumption].
  - rewrite raw_ok by exact (proj1 T). rewrite (No "FORCE_CON"%string "END"%string p), (No "FORCE_CON"%string "BEGIN_PARAMETERS_DUMP"%string p), (No "FORCE_CON"%string "BEGIN_UNIT_CELL"%string p), (Yes "FORCE_CON"%string p) by (first [cbn; tauto|discriminate|exact T]).
    pose proof (orderm_head _ _ _ HO (or_introl eq_refl)) as MC. destruct G as (G1 & G2 & G3 & G4). rewrite (some_of _ _ G1 MC). change (c_natoms (true_cell dec c)) with (ions c). rewrite read_fc_ok.
    set (v1 := Build_main_vars (Some (true_cell dec c)) (Some true_fc) (m_born v) (m_diel v)).
    assert (GG : goodm v1) by (split; [right; reflexivity|split; [right; reflexivity|split; [exact G3|exact G4]]]).
    destruct (IH junk v1 fuel) as (v' & E & G' & A1 & A2 & A3 & A4); [lia|exact GG|split; [discriminate|intros _; apply HS; exact MC]|intros i I; apply HC; right; exact I|intros i I; apply HP; right; exact I|apply (orderm_tail v v1 ForceCon); [exact HO|intros; discriminate|discriminate]|].
    exists v'. split; [exact E|]. split; [exact G'|]. split; [apply (found_here _ _ _ _ _ A1); left; discriminate|]. split; [exact (found_here _ _ _ _ _ A2 (or_intror (or_introl eq_refl)))|]. split; apply found_skip; first [discriminate|assumption].
  - rewrite raw_ok by exact (proj1 T). rewrite (No "BORN_CHGS"%string "END"%string p), (No "BORN_CHGS"%string "BEGIN_PARAMETERS_DUMP"%string p), (No "BORN_CHGS"%string "BEGIN_UNIT_CELL"%string p), (No "BORN_CHGS"%string "FORCE_CON"%string p), (Yes "BORN_CHGS"%string p) by (first [cbn; tauto|discriminate|exact T]).
    pose proof (orderm_head _ _ _ HO (or_intror eq_refl)) as MC. destruct G as (G1 & G2 & G3 & G4). rewrite (some_of _ _ G1 MC). change (c_natoms (true_cell dec c)) with (ions c).
    rewrite floats_ok; [| |intros x I; apply in_array3 in I; destruct I as (a & b & d & ->); apply L6|apply (fits_items 8); [intros x I; apply in_array3 in I; destruct I as (a & b & d & ->); apply L6|rewrite length_array3; lia]].
    2:{ intros E. apply (f_equal (@length _)) in E. rewrite length_array3 in E. cbn in E. lia. }
    rewrite map_length, length_array3. rewrite (proj2 (Nat.eqb_eq _ _)) by lia.
    set (v1 := Build_main_vars (Some (true_cell dec c)) (m_fc v) (Some T_born) (m_diel v)).
    assert (GG : goodm v1) by (split; [right; reflexivity|split; [exact G2|split; [right; reflexivity|exact G4]]]).
    destruct (IH junk v1 fuel) as (v' & E & G' & A1 & A2 & A3 & A4); [lia|exact GG|split; [discriminate|intros _; apply HS; exact MC]|intros i I; apply HC; right; exact I|intros i I; apply HP; right; exact I|apply (orderm_tail v v1 Born); [exact HO|intros; discriminate|discriminate]|].
    exists v'. split; [exact E|]. split; [exact G'|]. split; [apply (found_here _ _ _ _ _ A1); left; discriminate|]. split; [apply found_skip; [exact A2|discriminate]|]. split; [exact (found_here _ _ _ _ _ A3 (or_intror (or_introl eq_refl)))|]. apply found_skip; [exact A4|discriminate].
  - rewrite raw_ok by exact (proj1 T). rewrite (No "DIELECTRIC"%string "END"%string p), (No "DIELECTRIC"%string "BEGIN_PARAMETERS_DUMP"%string p), (No "DIELECTRIC"%string "BEGIN_UNIT_CELL"%string p), (No "DIELECTRIC"%string "FORCE_CON"%string p), (No "DIELECTRIC"%string "BORN_CHGS"%string p), (Yes "DIELECTRIC"%string p) by (first [cbn; tauto|discriminate|exact T]).
    destruct G as (G1 & G2 & G3 & G4).
    rewrite floats_ok; [|discriminate|intros x I; apply in_array2 in I; destruct I as (a & b & ->); apply L7|apply (fits_items 8); [intros x I; apply in_array2 in I; destruct I as (a & b & ->); apply L7|rewrite length_array2; lia]].
    rewrite map_length, length_array2. cbn [Nat.mul Nat.add Nat.eqb].
    set (v1 := Build_main_vars (m_cell v) (m_fc v) (m_born v) (Some T_diel)).
    assert (GG : goodm v1) by (split; [exact G1|split; [exact G2|split; [exact G3|right; reflexivity]]]).
    destruct (IH junk v1 fuel) as (v' & E & G' & A1 & A2 & A3 & A4); [lia|exact GG|exact HS|intros i I; apply HC; right; exact I|intros i I; apply HP; right; exact I|apply (orderm_tail v v1 Dielectric); [exact HO|tauto|discriminate]|].
    exists v'. split; [exact E|]. split; [exact G'|]. split; [apply found_skipc; [exact A1|discriminate]|]. split; [apply found_skip; [exact A2|discriminate]|]. split; [apply found_skip; [exact A3|discriminate]|]. exact (found_here _ _ _ _ _ A4 (or_intror (or_introl eq_refl))).
Qed.
Lemma main_length seen l f : writes c seen l f -> (length l < length f)%nat.
Proof. induction 1; cbn [length]; rewrite ?app_length; pose proof (record_long p); lia. Qed.

Lemma read_ok u l f junk : writes c false l f -> good_main l -> (forall p, In (Params p) l -> version p = Some false) ->
  exists d, read_interpolation_data dec version u (f ++ junk) = Ok d /\ i_natoms d = ions c /\
    (forall i j, (i < 3)%nat -> (j < 3)%nat -> i_cell d i j = (dec (lattice c i j) * u_len u)%R) /\
    i_r d = flat_map (fun a => [frac (dec (position c 0 (snd a) (fst a))); frac (dec (position c 1 (snd a) (fst a))); frac (dec (position c 2 (snd a) (fst a)))]) (atoms c) /\
    i_mass d = map (fun a => (dec (mass c (fst a)) * u_mass u)%R) (atoms c) /\
    i_type d = map (fun a => strip (symbol c (fst a))) (atoms c) /\
    i_ncells d = cells c /\
    (forall a i j, (a < cells c)%nat -> (i < 3 * ions c)%nat -> (j < 3 * ions c)%nat -> i_fc d a i j = (dec (fcs c i j a) * u_fc u)%R) /\
    (forall i j, (i < 3)%nat -> (j < 3)%nat -> i_sc d i j = scm c i j) /\
    (forall a x, (a < cells c)%nat -> (x < 3)%nat -> i_origins d a x = origin c x a) /\
    (In Born l -> exists b, i_born d = Some b /\ forall a i j, (a < ions c)%nat -> (i < 3)%nat -> (j < 3)%nat -> b a i j = (dec (born c j i a) * u_born u)%R) /\
    (~ In Born l -> i_born d = None) /\
    (In Born l -> In Dielectric l -> exists e, i_diel d = Some e /\ forall i j, (i < 3)%nat -> (j < 3)%nat -> e i j = (dec (dielectric c i j) * u_diel u)%R) /\
    (~ (In Born l /\ In Dielectric l) -> i_diel d = None).
Proof.
  intros W ((its & IC & GC) & IF & OR) HP.
  destruct (main_ok false l f W junk no_main (length (f ++ junk))) as (v & E & G & A1 & A2 & A3 & A4).
  - rewrite app_length. pose proof (main_length _ _ _ W). lia.
  - repeat split; left; reflexivity.
  - split; [discriminate|intros Q; exfalso; apply Q; reflexivity].
  - intros i I. rewrite (one_cell _ _ _ W i its I IC). exact GC.
  - exact HP.
  - intros l1 b l2 EL P. right. exact (OR l1 b l2 EL P).
  - unfold found in *. cbn in A1, A2, A3, A4. destruct G as (G1 & G2 & G3 & G4).
    assert (E1 : m_cell v = Some (true_cell dec c)) by (apply some_of; [exact G1|apply A1; right; exists its; exact IC]).
    assert (E2 : m_fc v = Some true_fc) by (apply some_of; [exact G2|apply A2; right; exact IF]).
    assert (E3 : In Born l -> m_born v = Some T_born) by (intros I; apply some_of; [exact G3|apply A3; right; exact I]).
    assert (E3' : ~ In Born l -> m_born v = None) by (intros I; destruct (m_born v); [exfalso; destruct A3 as [A3 _]; destruct A3 as [A3|A3]; [discriminate|apply A3; reflexivity|contradiction]|reflexivity]).
    assert (E4 : In Dielectric l -> m_diel v = Some T_diel) by (intros I; apply some_of; [exact G4|apply A4; right; exact I]).
    assert (E4' : ~ In Dielectric l -> m_diel v = None) by (intros I; destruct (m_diel v); [exfalso; destruct A4 as [A4 _]; destruct A4 as [A4|A4]; [discriminate|apply A4; reflexivity|contradiction]|reflexivity]).
    unfold read_interpolation_data. rewrite E, E1, E2. eexists. split; [reflexivity|]. cbn [i_natoms i_cell i_r i_mass i_type i_ncells i_fc i_sc i_origins i_born i_diel].
    split; [reflexivity|].
    split. { intros i j Hi Hj. f_equal. unfold true_cell, T_cell. cbn [c_vec]. rewrite array2_map. apply (nth_array2 3 3 (fun i j => dec (lattice c i j))); assumption. }
    split. { unfold true_cell. cbn [c_r]. rewrite !flat_map_concat_map, concat_map, map_map. reflexivity. }
    split. { unfold true_cell. cbn [c_mass]. rewrite map_map. reflexivity. }
    split; [reflexivity|]. split; [reflexivity|].
    split. { intros a i j Ha Hi Hj. f_equal. unfold true_fc. cbn [f_fc]. rewrite array3_map.
      replace (a * (3 * ions c * (3 * ions c)) + j * (3 * ions c) + i)%nat with (3 * ions c * (3 * ions c) * a + (3 * ions c * j + i))%nat by lia.
      apply (nth_array3 (3 * ions c) (3 * ions c) (cells c) (fun i j a => dec (fcs c i j a))); assumption. }
    split. { intros i j Hi Hj. exact (nth_array2 3 3 (scm c) i j 0 Hi Hj). }
    split. { intros a x Ha Hx. exact (nth_array2 3 (cells c) (origin c) x a 0 Hx Ha). }
    split. { intros I. rewrite (E3 I). eexists. split; [reflexivity|]. intros a i j Ha Hi Hj. cbv beta. f_equal. unfold T_born. rewrite array3_map.
      replace (9 * a + 3 * i + j)%nat with (3 * 3 * a + (3 * i + j))%nat by lia. apply (nth_array3 3 3 (ions c) (fun j i a => dec (born c j i a))); assumption. }
    split. { intros I. rewrite (E3' I). reflexivity. }
    split. { intros I J. rewrite (E3 I), (E4 J). eexists. split; [reflexivity|]. intros i j Hi Hj. cbv beta. f_equal. unfold T_diel. rewrite array2_map. apply (nth_array2 3 3 (fun i j => dec (dielectric c i j))); assumption. }
    intros I. destruct (m_born v) eqn:MB; [|reflexivity]. destruct (m_diel v) eqn:MD; [|reflexivity]. exfalso. apply I. split.
    + destruct A3 as [A3 _]. destruct A3 as [Q|Q]; [discriminate|exfalso; apply Q; reflexivity|exact Q].
    + destruct A4 as [A4 _]. destruct A4 as [Q|Q]; [discriminate|exfalso; apply Q; reflexivity|exact Q].
Qed.
End WholeFile.
