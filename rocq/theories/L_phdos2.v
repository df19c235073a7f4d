(** Main lemmas for the .phonon_dos reader (C72, C73). *)
From Verif Require Import Base M_qpts M_phonon S_phonon L_phonon L_phonon2 M_phdos S_phdos L_phdos.
Open Scope Z_scope.

Section Main.
Context {L : Type}.
Variables (P : dparser L) (k : factors) (cu fu gu : unit_name).
Lemma combine_snd {A B C} (f : B -> C) (l : list A) (m : list B) : length l = length m -> map (fun p => f (snd p)) (combine l m) = map f m.
Proof. revert m. induction l as [|a l IH]; intros [|b m] H; cbn in *; try lia; [reflexivity|]. f_equal. apply IH. lia. Qed.
Lemma contents_main (x : dfile L) na nb nbins cell ats ds rows :
  dfile_says P x na nb nbins cell ats ds rows -> (2 <= nbins)%nat -> length rows = nbins -> wide_table (map at_type ats) rows -> ~ In Total (map at_type ats) ->
  exists d, read_phonon_dos_data P k cu fu gu (dfile_lines x) = Ok d /\
    d_cell d = map (map (fun v => (v * k_len k)%R)) cell /\ d_atoms d = ats /\
    map g_qpt (d_blocks d) = map gpt ds /\ map g_weight (d_blocks d) = map gwt ds /\
    map g_freqs (d_blocks d) = map (fun b => map (fun v => (v * k_freq k)%R) (gfr b)) ds /\
    map g_grads (d_blocks d) = map (fun b => map (fun v => (v * k_len k * k_freq k)%R) (ggr b)) ds /\
    d_bins d = scaled_column 0 (k_freq k) rows /\
    dict_get Total (d_dos d) = Some (scaled_column 1 (k_dos k) rows) /\
    (forall i s, nth_species (map at_type ats) i s -> dict_get s (d_dos d) = Some (scaled_column (2 + i) (k_dos k) rows)) /\
    (forall s, s <> Total -> ~ In s (map at_type ats) -> dict_get s (d_dos d) = None).
Proof.
  intros S H2 Hn W NT. destruct (read_ok P k cu fu gu x na nb nbins cell ats ds rows S ltac:(lia) (or_introl Hn) W NT) as (ids & Le & E).
  exists (result_of k cu fu ids cell ats ds rows). split; [exact E|]. pose proof (keys_nodup k ats rows NT) as ND. unfold result_of. cbn [d_cell d_atoms d_blocks d_bins d_dos].
  rewrite !map_map. cbn [g_qpt g_weight g_freqs g_grads].
  split; [reflexivity|]. split; [reflexivity|]. split; [apply (combine_snd gpt); exact Le|]. split; [apply (combine_snd gwt); exact Le|].
  split; [apply (combine_snd (fun b => map (fun v => (v * k_freq k)%R) (gfr b))); exact Le|]. split; [apply (combine_snd (fun b => map (fun v => (v * k_len k * k_freq k)%R) (ggr b))); exact Le|].
  split; [reflexivity|]. split; [reflexivity|]. split.
  - intros i s N. apply unique_nth in N. apply (dict_get_nth _ (Datatypes.S i)); [exact ND|]. cbn [nth_error].
    rewrite (entries_nth (k_dos k) rows _ 0 i s N). do 3 f_equal. lia.
  - intros s N1 N2. apply dict_get_none. cbn [map fst In]. rewrite entries_names. intros [Q|Q]; [apply N1; symmetry; exact Q|]. apply unique_in in Q. tauto.
Qed.
Lemma collection_main (x : dfile L) na nb nbins cell ats ds rows :
  dfile_says P x na nb nbins cell ats ds rows -> (2 <= nbins)%nat -> length rows = nbins -> wide_table (map at_type ats) rows -> ~ In Total (map at_type ats) ->
  exists lines, collection_of P k cu fu gu (dfile_lines x) = Ok (scaled_column 0 (k_freq k) rows, lines) /\ length lines = (1 + n_species (map at_type ats))%nat /\
    nth_error lines 0 = Some (scaled_column 1 (k_dos k) rows, {| l_species := None; l_label := Total |}) /\
    (forall i s, nth_species (map at_type ats) i s -> nth_error lines (1 + i) = Some (scaled_column (2 + i) (k_dos k) rows, {| l_species := Some s; l_label := s |})).
Proof.
  intros S H2 Hn W NT. destruct (read_ok P k cu fu gu x na nb nbins cell ats ds rows S ltac:(lia) (or_introl Hn) W NT) as (ids & Le & E).
  unfold collection_of. rewrite E. unfold result_of. cbn [d_bins d_dos]. eexists. split; [reflexivity|]. split; [|split].
  - rewrite map_length. cbn [length]. unfold entries. rewrite map_length, combine_length, seq_length, Nat.min_id, unique_len. reflexivity.
  - reflexivity.
  - intros i s N. pose proof N as N'. apply unique_nth in N. change (1 + i)%nat with (Datatypes.S i). cbn [map nth_error]. rewrite nth_error_map, (entries_nth (k_dos k) rows _ 0 i s N). cbn [option_map fst snd].
    rewrite zeqb_ne; [replace (0 + i + 2)%nat with (2 + i)%nat by lia; reflexivity|]. intros ->. apply NT. destruct N' as (b & a & Q & _). rewrite Q. apply in_or_app. right. left. reflexivity.
Qed.
Lemma spectrum_main (x : dfile L) na nb nbins cell ats ds rows :
  dfile_says P x na nb nbins cell ats ds rows -> (2 <= nbins)%nat -> length rows = nbins -> wide_table (map at_type ats) rows -> ~ In Total (map at_type ats) ->
  spectrum_of P k cu fu gu (dfile_lines x) None = Ok (scaled_column 0 (k_freq k) rows, scaled_column 1 (k_dos k) rows, {| l_species := None; l_label := Total |}) /\
  (forall i s, nth_species (map at_type ats) i s -> spectrum_of P k cu fu gu (dfile_lines x) (Some s) = Ok (scaled_column 0 (k_freq k) rows, scaled_column (2 + i) (k_dos k) rows, {| l_species := Some s; l_label := s |})) /\
  (forall s, s <> Total -> ~ In s (map at_type ats) -> spectrum_of P k cu fu gu (dfile_lines x) (Some s) = Err KeyError).
Proof.
  intros S H2 Hn W NT. destruct (contents_main x na nb nbins cell ats ds rows S H2 Hn W NT) as (d & E & _ & _ & _ & _ & _ & _ & B & T & Sp & No).
  unfold spectrum_of. rewrite E. rewrite B. split; [|split].
  - change total_name with Total. rewrite T. reflexivity.
  - intros i s N. rewrite (Sp i s N). reflexivity.
  - intros s N1 N2. rewrite (No s N1 N2). reflexivity.
Qed.
Lemma total_spectrum (x : dfile L) na nb nbins cell ats ds rows :
  dfile_says P x na nb nbins cell ats ds rows -> (2 <= nbins)%nat -> length rows = nbins -> wide_table (map at_type ats) rows -> ~ In Total (map at_type ats) ->
  exists xs ys m, spectrum_of P k cu fu gu (dfile_lines x) (Some Total) = Ok (xs, ys, m) /\ l_species m = Some Total.
Proof.
  intros S H2 Hn W NT. destruct (contents_main x na nb nbins cell ats ds rows S H2 Hn W NT) as (d & E & _ & _ & _ & _ & _ & _ & B & T & Sp & No).
  unfold spectrum_of. rewrite E, T. eexists. eexists. eexists. split; reflexivity.
Qed.

(** A short table *)
Lemma short_main (x : dfile L) na nb nbins cell ats ds rows :
  dfile_says P x na nb nbins cell ats ds rows -> (2 <= length rows)%nat -> (length rows < nbins)%nat -> f_tail x = [] -> wide_table (map at_type ats) rows -> ~ In Total (map at_type ats) ->
  exists d, read_phonon_dos_data P k cu fu gu (dfile_lines x) = Ok d /\ d_bins d = scaled_column 0 (k_freq k) rows /\ dict_get Total (d_dos d) = Some (scaled_column 1 (k_dos k) rows).
Proof.
  intros S H2 Hn T W NT. destruct (read_ok P k cu fu gu x na nb nbins cell ats ds rows S H2 (or_intror (conj (Nat.lt_le_incl _ _ Hn) T)) W NT) as (ids & Le & E).
  eexists. split; [exact E|]. split; reflexivity.
Qed.
Lemma few_rows (x : dfile L) na nb nbins cell ats ds rows :
  dfile_says P x na nb nbins cell ats ds rows -> ((length rows < 2)%nat /\ f_tail x = [] /\ (length rows <= nbins)%nat \/ (nbins < 2)%nat /\ length rows = nbins) ->
  read_phonon_dos_data P k cu fu gu (dfile_lines x) = Err Parse.
Proof.
  intros S H. pose proof S as (_ & _ & _ & _ & _ & _ & F). destruct (read_to_table P k cu fu gu x na nb nbins cell ats ds rows S) as (ids & Le & ->).
  assert (E : load_rows P nbins (f_rows x ++ f_tail x) = Ok rows).
  { destruct H as [(H & T & Hn)|(H & Hn)]; [rewrite T, app_nil_r; apply load_short; assumption|apply load_ok; assumption]. }
  unfold loadtxt. rewrite E. rewrite (proj2 (Nat.leb_gt 2 (length rows))) by lia. reflexivity.
Qed.
Lemma end_line (x : dfile L) na nb nbins cell ats ds rows e rest :
  dfile_says P x na nb nbins cell ats ds rows -> (length rows < nbins)%nat -> f_tail x = e :: rest -> table_row P e = Bad ->
  read_phonon_dos_data P k cu fu gu (dfile_lines x) = Err Parse.
Proof.
  intros S H T B. pose proof S as (_ & _ & _ & _ & _ & _ & F). destruct (read_to_table P k cu fu gu x na nb nbins cell ats ds rows S) as (ids & Le & ->).
  unfold loadtxt. rewrite T, (load_bad P nbins (f_rows x) rows e rest F H B). reflexivity.
Qed.
Lemma cut_row (x : dfile L) na nb nbins cell ats ds rows r : dfile_says P x na nb nbins cell ats ds rows -> length rows = nbins ->
  In r rows -> length r <> length (hd [] rows) -> read_phonon_dos_data P k cu fu gu (dfile_lines x) = Err Parse.
Proof.
  intros S H I N. pose proof S as (_ & _ & _ & _ & _ & _ & F). destruct (read_to_table P k cu fu gu x na nb nbins cell ats ds rows S) as (ids & Le & ->).
  unfold loadtxt. rewrite (load_ok P nbins (f_rows x) rows (f_tail x) F H). destruct (same_length (length (hd [] rows)) rows) eqn:Q; [|rewrite Bool.andb_false_r; reflexivity].
  unfold same_length in Q. rewrite forallb_forall in Q. specialize (Q r I). apply Nat.eqb_eq in Q. contradiction.
Qed.
Lemma narrow_table (x : dfile L) na nb nbins cell ats ds rows : dfile_says P x na nb nbins cell ats ds rows -> length rows = nbins ->
  (length (hd [] rows) < 2 + n_species (map at_type ats))%nat -> ~ In Total (map at_type ats) -> read_phonon_dos_data P k cu fu gu (dfile_lines x) = Err Parse.
Proof.
  intros S H N NT. pose proof S as (_ & _ & _ & _ & _ & _ & F). destruct (read_to_table P k cu fu gu x na nb nbins cell ats ds rows S) as (ids & Le & ->).
  unfold loadtxt. rewrite (load_ok P nbins (f_rows x) rows (f_tail x) F H). destruct (Nat.leb 2 (length rows) && Nat.leb 2 (length (hd [] rows)) && same_length (length (hd [] rows)) rows)%bool eqn:Q; [|reflexivity].
  apply andb_prop in Q. destruct Q as (Q & _). apply andb_prop in Q. destruct Q as (_ & Q). apply Nat.leb_le in Q. rewrite column_ok by lia.
  rewrite <- unique_len in N. revert N. generalize ([(total_name, scaled_column 1 (k_dos k) rows)]). generalize (unique_types [] (map at_type ats)) as names.
  cut (forall names i d, (length (hd [] rows) < 2 + i + length names)%nat -> (i + 2 <= length (hd [] rows))%nat -> add_species i names (k_dos k) rows d = Err Parse).
  { intros G names l N. rewrite G by lia. reflexivity. }
  induction names as [|s names IH]; intros i d N1 N2; cbn [add_species length] in *; [lia|]. destruct (Nat.ltb_spec (i + 2) (length (hd [] rows))) as [A|A].
  - rewrite column_ok by exact A. apply IH; lia.
  - unfold column. rewrite (proj2 (Nat.ltb_ge _ _) A). reflexivity.
Qed.
End Main.

(** Anything without the two marks is refused. *)
Lemma readline_rest {L} (f : list L) o r : readline f = (o, r) -> forall y, In y r -> In y f.
Proof. destruct f as [|a f]; cbn; intros E; injection E as <- <-; intros y I; [destruct I|right; exact I]. Qed.
Lemma readlines_rest {L} n (f : list L) l r : readlines n f = (l, r) -> forall y, In y r -> In y f.
Proof.
  revert f l r. induction n as [|n IH]; intros f l r E y I; cbn [readlines] in E; [injection E as <- <-; exact I|].
  destruct (readline f) as [o f1] eqn:E1. destruct (readlines n f1) as [l1 f2] eqn:E2. injection E as <- <-. apply (readline_rest f o f1 E1). apply (IH f1 l1 f2 E2 y I).
Qed.
Lemma find_cell_rest {L} (P : parser L) f r : find_cell P f = Ok r -> forall y, In y r -> In y f.
Proof. induction f as [|a f IH]; cbn [find_cell]; [discriminate|]. destruct (has_ucv P a); intros E y I; [injection E as <-; right; exact I|right; apply (IH E y I)]. Qed.
Lemma crystal_rest {L} (P : parser L) n f v r : read_crystal_info P n f = Ok (v, r) -> forall y, In y r -> In y f.
Proof.
  unfold read_crystal_info. destruct (find_cell P f) as [f1|] eqn:E1; [|discriminate]. destruct (readlines 3 f1) as [c f2] eqn:E2. destruct (parse_all _ _ c) as [rw|]; [|discriminate].
  destruct (negb _); [discriminate|]. destruct (readline f2) as [o f3] eqn:E3. destruct (readlines n f3) as [a f4] eqn:E4. destruct (parse_all None _ a) as [at_|]; [|discriminate].
  destruct (readline f4) as [o2 f5] eqn:E5. intros E y I. assert (r = f5) by congruence. subst r.
  apply (find_cell_rest _ _ _ E1), (readlines_rest _ _ _ _ E2), (readline_rest _ _ _ E3), (readlines_rest _ _ _ _ E4), (readline_rest _ _ _ E5), I.
Qed.
Lemma gradient_block_rest {L} (P : dparser L) nb f b r : read_gradient_block P nb f = Ok (b, r) -> (forall y, In y r -> In y f) /\ (b = None -> exists y, In y f /\ end_gradients P y = true).
Proof.
  unfold read_gradient_block. destruct f as [|q f]; cbn [readline]; [discriminate|]. destruct (end_gradients P q) eqn:E.
  - intros Q. injection Q as <- <-. split; [intros y I; right; exact I|]. intros _. exists q. split; [left; reflexivity|exact E].
  - destruct (q_id (base P) q); [|discriminate]. destruct (nth_error (q_floats (base P) q) 3); [|discriminate]. destruct (readlines nb f) as [ls f2] eqn:E2.
    destruct (parse_all None (freq_of (base P)) ls); [|discriminate]. destruct (parse_all None _ ls); [|discriminate]. intros Q. assert (f2 = r /\ b <> None) as (<- & NB) by (split; congruence).
    split; [intros y I; right; apply (readlines_rest _ _ _ _ E2 y I)|]. intros C. congruence.
Qed.
Lemma gradients_rest {L} (P : dparser L) nb fuel : forall f bs r, read_gradients P fuel nb f = Ok (bs, r) -> (forall y, In y r -> In y f) /\ exists y, In y f /\ end_gradients P y = true.
Proof.
  induction fuel as [|fuel IH]; intros f bs r; cbn [read_gradients]; [discriminate|]. destruct (read_gradient_block P nb f) as [[[b|] f1]|] eqn:E; [| |discriminate].
  - destruct (Nat.eqb nb 1); [discriminate|]. destruct (read_gradients P fuel nb f1) as [[bs' f2]|] eqn:E2; [|discriminate]. intros Q. assert (f2 = r) by congruence. subst f2.
    destruct (gradient_block_rest P nb f _ _ E) as (A & _). destruct (IH f1 bs' r E2) as (B & y & Y1 & Y2). split; [intros z I; apply A, B, I|]. exists y. split; [apply A, Y1|exact Y2].
  - intros Q. assert (f1 = r) by congruence. subst f1. destruct (gradient_block_rest P nb f _ _ E) as (A & B). split; [exact A|apply B; reflexivity].
Qed.
Lemma marks_main {L} (P : dparser L) k cu fu gu f d : read_phonon_dos_data P k cu fu gu f = Ok d ->
  (exists y, In y f /\ end_gradients P y = true) /\ (exists y, In y f /\ begin_dos P y = true).
Proof.
  unfold read_phonon_dos_data. destruct (readline f) as [o f1] eqn:E1. destruct (readlines 4 f1) as [hs f2] eqn:E2. destruct (parse_all None _ hs) as [ns|]; [|discriminate].
  destruct ns as [|na [|x2 [|nb [|nbins [|x3 x4]]]]]; try discriminate. destruct (_ || _)%bool; [discriminate|]. destruct (read_crystal_info (base P) (Z.to_nat na) f2) as [[[cell ats] f3]|] eqn:E3; [|discriminate].
  destruct (readline f3) as [o4 f4] eqn:E4. destruct (read_gradients P (S (length f4)) (Z.to_nat nb) f4) as [[bs f5]|] eqn:E5; [|discriminate]. destruct (readline f5) as [o6 f6] eqn:E6.
  destruct o6 as [y|]; [|discriminate]. destruct (begin_dos P y) eqn:B; [|discriminate]. intros _.
  assert (U : forall z, In z f4 -> In z f) by (intros z I; apply (readline_rest _ _ _ E1), (readlines_rest _ _ _ _ E2), (crystal_rest _ _ _ _ _ E3), (readline_rest _ _ _ E4), I).
  destruct (gradients_rest P _ _ _ _ _ E5) as (A & z & Z1 & Z2). split; [exists z; split; [apply U, Z1|exact Z2]|]. exists y. split; [|exact B]. apply U, A. destruct f5 as [|q f5]; cbn in E6; [discriminate|]. injection E6 as <- _. left. reflexivity.
Qed.

(** Units *)
Lemma area_scaled c k1 k2 (rows : list (list R)) : (k1 * k2 = 1)%R -> area (scaled_column 0 k1 rows) (scaled_column c k2 rows) = area (map (fun r => nth 0 r 0%R) rows) (map (fun r => nth c r 0%R) rows).
Proof.
  intros K. induction rows as [|r [|r' rows] IH]; [reflexivity|reflexivity|]. cbn [scaled_column map area] in *. rewrite IH. f_equal.
  transitivity (nth c r 0 * (nth 0 r' 0 - nth 0 r 0) * (k1 * k2))%R; [ring|]. rewrite K. ring.
Qed.
Lemma sum_scaled n k (rows : list (list R)) : (forall r, In r rows -> nth 1 r 0%R = Sum (seq 0 n) (fun i => nth (2 + i) r 0%R)) ->
  forall j, nth j (scaled_column 1 k rows) 0%R = Sum (seq 0 n) (fun i => nth j (scaled_column (2 + i) k rows) 0%R).
Proof.
  intros H j. unfold scaled_column. destruct (le_lt_dec (length rows) j) as [Q|Q].
  - rewrite nth_overflow by (rewrite map_length; exact Q). symmetry. rewrite (Sum_ext _ _ (fun _ => 0%R)); [apply Sum_zero|]. intros i _. cbv beta. apply nth_overflow. rewrite map_length. exact Q.
  - rewrite (nth_indep (map (fun r => (nth 1 r 0 * k)%R) rows) 0%R (nth 1 [] 0 * k)%R) by (rewrite map_length; exact Q). rewrite (map_nth (fun r => (nth 1 r 0 * k)%R) rows [] j). rewrite (H (nth j rows []) (nth_In _ _ Q)).
    rewrite <- Sum_scal_r. apply Sum_ext. intros i _. rewrite (nth_indep (map (fun r => (nth (2 + i) r 0 * k)%R) rows) 0%R (nth (2 + i) [] 0 * k)%R) by (rewrite map_length; exact Q). rewrite (map_nth (fun r => (nth (2 + i) r 0 * k)%R) rows [] j). reflexivity.
Qed.

(** The examples *)
Lemma salt_says n : dfile_says printed_dos (salt_file n) 2 6 n cube salt [salt_q] salt_rows.
Proof.
  unfold dfile_says, header_says, gsays. cbn. rewrite ?Nat2Z.id. repeat match goal with |- _ /\ _ => split end; try lia; try reflexivity; try discriminate;
    try (intros x [<-|[]]; reflexivity); repeat (constructor; try (split; reflexivity); try reflexivity); try lia; cbn; try lia; try discriminate; repeat constructor.
Qed.
Lemma salt_wide : wide_table (map at_type salt) salt_rows /\ ~ In Total (map at_type salt).
Proof. split; [exists 4%nat; split; [cbn; lia|intros r [<-|[<-|[<-|[]]]]; reflexivity]|cbn; intros [H|[H|[]]]; discriminate]. Qed.
Lemma salt_species : nth_species (map at_type salt) 0 [78; 97] /\ nth_species (map at_type salt) 1 [67; 108].
Proof. split; [exists [], [[67; 108]]|exists [[78; 97]], []]; (split; [reflexivity|]); (split; [cbn; intros H; try destruct H as [H|[]]; try discriminate; auto|reflexivity]). Qed.
Lemma unit_ignored : exists (f : list dline) (k : factors) asked d, (k_len k = 1 /\ k_freq k = 1)%R /\
  read_phonon_dos_data printed_dos k (U 0) (U 1) asked f = Ok d /\ d_grad_unit d <> asked.
Proof.
  destruct salt_wide as (W & T). destruct (read_ok printed_dos {| k_freq := 1; k_len := 1; k_dos := 1 |}%R (U 0) (U 1) (U 2) (salt_file 3) 2 6 3 cube salt [salt_q] salt_rows (salt_says 3) ltac:(cbn; lia) (or_introl eq_refl) W T) as (ids & _ & E).
  exists (dfile_lines (salt_file 3)), {| k_freq := 1; k_len := 1; k_dos := 1 |}%R, (U 2). eexists. split; [split; reflexivity|]. split; [exact E|]. cbn. discriminate.
Qed.
