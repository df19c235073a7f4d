(** Cut files: a reader that succeeds on a prefix has read the same from the whole (C63). *)
From Coq Require Import String Ascii.
From Verif Require Import Base M_fortran S_fortran L_fortran M_castepbin S_castepbin L_castepbin.
Open Scope Z_scope.

Definition ext {A E} (X : bytes -> res (A * bytes) E) : Prop := forall g d r t, X g = Ok (d, r) -> X (g ++ t) = Ok (d, r ++ t).

Lemma ext_mark : ext record_mark_read.
Proof.
  intros g d r t. unfold record_mark_read, fread. change (4 <? 0) with false. cbv iota. change (Z.to_nat 4) with 4%nat.
  destruct g as [|a [|b [|c [|e g]]]]; cbn [firstn skipn app unpack_i]; try discriminate. intros E. assert (g = r) by congruence. subst r. congruence.
Qed.
Lemma fread_ext n g a r t : fread n g = (a, r) -> r <> [] -> fread n (g ++ t) = (a, r ++ t).
Proof.
  unfold fread. destruct (n <? 0); [intros E N; congruence|]. intros E N. assert (E1 : firstn (Z.to_nat n) g = a) by congruence. assert (E2 : skipn (Z.to_nat n) g = r) by congruence.
  assert (L : (Z.to_nat n < length g)%nat) by (destruct (le_lt_dec (length g) (Z.to_nat n)); [exfalso; apply N; rewrite <- E2; apply skipn_all2; assumption|assumption]).
  rewrite firstn_app, skipn_app. replace (Z.to_nat n - length g)%nat with 0%nat by lia. cbn [firstn skipn]. rewrite app_nil_r. congruence.
Qed.
Lemma chunks_ext w k g t : (w * k <= length g)%nat -> chunks w k (g ++ t) = chunks w k g.
Proof.
  revert g. induction k as [|k IH]; intros g H; [reflexivity|]. cbn [chunks]. rewrite firstn_app, skipn_app. replace (w - length g)%nat with 0%nat by nia. cbn [firstn skipn]. rewrite app_nil_r. f_equal.
  apply IH. rewrite skipn_length. nia.
Qed.
Lemma fromfile_ext w n g a r t : (0 < w)%nat -> fromfile w n g = (a, r) -> r <> [] -> fromfile w n (g ++ t) = (a, r ++ t).
Proof.
  intros Hw. unfold fromfile. rewrite app_length. destruct (Nat.ltb_spec (Nat.min n (length g / w)) n) as [H|H]; [congruence|]. intros E N.
  assert (D : (n <= length g / w)%nat) by lia. assert (D1 : (w * n <= length g)%nat) by (pose proof (Nat.mul_div_le (length g) w ltac:(lia)); nia).
  assert (D2 : (n <= (length g + length t) / w)%nat) by (apply Nat.div_le_lower_bound; lia).
  rewrite Nat.min_l in E by exact D. rewrite Nat.min_l by exact D2. rewrite Nat.ltb_irrefl. rewrite chunks_ext by exact D1. rewrite skipn_app. replace (w * n - length g)%nat with 0%nat by lia. cbn [skipn]. congruence.
Qed.
Lemma isz t : (0 < itemsize t)%nat. Proof. destruct t; cbn; lia. Qed.
Lemma data_ext ty b g d r t : read_data ty b g = Ok (d, r) -> r <> [] -> read_data ty b (g ++ t) = Ok (d, r ++ t).
Proof.
  unfold read_data. destruct ty.
  - destruct (fread b g) as [a r'] eqn:E. intros Q N. assert (r' = r) by congruence. subst r'. rewrite (fread_ext _ _ _ _ t E N). congruence.
  - destruct (1 <? _).
    + destruct (fromfile _ _ g) as [a r'] eqn:E. intros Q N. assert (r' = r) by congruence. subst r'. rewrite (fromfile_ext _ _ _ _ _ t (isz _) E N). congruence.
    + destruct (fread b g) as [a r'] eqn:E. intros Q N. assert (r' = r) by (destruct (unpack_i a); congruence). subst r'. rewrite (fread_ext _ _ _ _ t E N). destruct (unpack_i a); congruence.
  - destruct (1 <? _).
    + destruct (fromfile _ _ g) as [a r'] eqn:E. intros Q N. assert (r' = r) by congruence. subst r'. rewrite (fromfile_ext _ _ _ _ _ t (isz _) E N). congruence.
    + destruct (fread b g) as [a r'] eqn:E. intros Q N. assert (r' = r) by (destruct (unpack_d a); congruence). subst r'. rewrite (fread_ext _ _ _ _ t E N). destruct (unpack_d a); congruence.
  - destruct (1 <? _).
    + destruct (fromfile _ _ g) as [a r'] eqn:E. intros Q N. assert (r' = r) by congruence. subst r'. rewrite (fromfile_ext _ _ _ _ _ t (isz _) E N). congruence.
    + destruct (fread b g) as [a r'] eqn:E. intros Q N. assert (r' = r) by congruence. subst r'. rewrite (fread_ext _ _ _ _ t E N). congruence.
Qed.
Lemma ext_entry ty : ext (read_entry ty).
Proof.
  intros g d r t. unfold read_entry. destruct (record_mark_read g) as [[b g1]|e] eqn:E1; [|discriminate]. rewrite (ext_mark _ _ _ t E1).
  destruct (read_data ty b g1) as [[x g2]|e] eqn:E2; [|discriminate]. destruct (record_mark_read g2) as [[z g3]|e] eqn:E3; [|discriminate].
  assert (N : g2 <> []) by (intros ->; discriminate). rewrite (data_ext _ _ _ _ _ t E2 N), (ext_mark _ _ _ t E3). destruct (b =? z); [|discriminate]. congruence.
Qed.

Lemma ext_raw : ext entry_raw.
Proof. intros g d r t. unfold entry_raw. destruct (read_entry Raw g) as [[x g1]|e] eqn:E; [|discriminate]. rewrite (ext_entry _ _ _ _ t E). destruct x; congruence. Qed.
Lemma ext_int1 : ext entry_int1.
Proof. intros g d r t. unfold entry_int1. destruct (read_entry I4 g) as [[x g1]|e] eqn:E; [|discriminate]. rewrite (ext_entry _ _ _ _ t E). destruct x; congruence. Qed.
Lemma ext_intn : ext entry_intn.
Proof. intros g d r t. unfold entry_intn. destruct (read_entry I4 g) as [[x g1]|e] eqn:E; [|discriminate]. rewrite (ext_entry _ _ _ _ t E). destruct x; congruence. Qed.
Lemma ext_floats dec : ext (entry_floats dec).
Proof. intros g d r t. unfold entry_floats. destruct (read_entry F8 g) as [[x g1]|e] eqn:E; [|discriminate]. rewrite (ext_entry _ _ _ _ t E). destruct x; congruence. Qed.
Lemma ext_strs one : ext (entry_strs one).
Proof. intros g d r t. unfold entry_strs. destruct (read_entry S8 g) as [[x g1]|e] eqn:E; [|discriminate]. rewrite (ext_entry _ _ _ _ t E). destruct x, one; congruence. Qed.

(** More fuel and more file change nothing once the block has been read. *)
Lemma loop_ext dec fuel : forall fuel' v g d r t, (fuel <= fuel')%nat -> read_cell_loop dec fuel v g = Ok (d, r) -> read_cell_loop dec fuel' v (g ++ t) = Ok (d, r ++ t).
Proof.
  induction fuel as [|fuel IH]; intros fuel' v g d r t L; [discriminate|]. destruct fuel' as [|fuel']; [lia|]. assert (L' : (fuel <= fuel')%nat) by lia. cbn [read_cell_loop].
  destruct (entry_raw g) as [[h g1]|e] eqn:E; [|discriminate]. rewrite (ext_raw _ _ _ t E).
  destruct (is_header h "END_UNIT_CELL"); [congruence|].
  destruct (is_header h "CELL%NUM_IONS"). { destruct (entry_int1 g1) as [[z g2]|e] eqn:E2; [|discriminate]. rewrite (ext_int1 _ _ _ t E2). apply IH. exact L'. }
  destruct (is_header h "CELL%REAL_LATTICE"). { destruct (entry_floats dec g1) as [[z g2]|e] eqn:E2; [|discriminate]. rewrite (ext_floats _ _ _ _ t E2). destruct (Nat.eqb (length z) 9); [|discriminate]. apply IH. exact L'. }
  destruct (is_header h "CELL%NUM_SPECIES"). { destruct (entry_int1 g1) as [[z g2]|e] eqn:E2; [|discriminate]. rewrite (ext_int1 _ _ _ t E2). apply IH. exact L'. }
  destruct (is_header h "CELL%NUM_IONS_IN_SPECIES"). { destruct (entry_intn g1) as [[z g2]|e] eqn:E2; [|discriminate]. rewrite (ext_intn _ _ _ t E2). destruct (v_nspecies v); [|discriminate]. apply IH. exact L'. }
  destruct (is_header h "CELL%IONIC_POSITIONS"). { destruct (v_nin v); [|discriminate]. destruct (entry_floats dec g1) as [[z g2]|e] eqn:E2; [|discriminate]. rewrite (ext_floats _ _ _ _ t E2). destruct (v_nspecies v); [|discriminate]. destruct (_ =? _); [|discriminate]. apply IH. exact L'. }
  destruct (is_header h "CELL%SPECIES_MASS"). { destruct (entry_floats dec g1) as [[z g2]|e] eqn:E2; [|discriminate]. rewrite (ext_floats _ _ _ _ t E2). destruct (v_nspecies v); [|discriminate]. apply IH. exact L'. }
  destruct (is_header h "CELL%SPECIES_SYMBOL"). { destruct (v_nspecies v) as [ns|]; [|discriminate]. destruct (entry_strs (ns =? 1) g1) as [[z g2]|e] eqn:E2; [|discriminate]. rewrite (ext_strs _ _ _ _ t E2). apply IH. exact L'. }
  apply IH. exact L'.
Qed.
Lemma ext_cell dec : ext (read_cell dec).
Proof.
  intros g d r t. unfold read_cell. destruct (read_cell_loop dec (length g) no_vars g) as [[v g1]|e] eqn:E; [|discriminate].
  rewrite (loop_ext dec (length g) (length (g ++ t)) no_vars g v g1 t) by (first [rewrite app_length; lia|exact E]). destruct (build_cell v); congruence.
Qed.
Lemma ext_fc dec n : ext (read_fc dec n).
Proof.
  intros g d r t. unfold read_fc. cbv zeta. destruct (entry_intn g) as [[sc g1]|e] eqn:E1; [|discriminate]. rewrite (ext_intn _ _ _ t E1). destruct (negb (Nat.eqb (length sc) 9)); [discriminate|].
  destruct (entry_floats dec g1) as [[fc g2]|e] eqn:E2; [|discriminate]. rewrite (ext_floats _ _ _ _ t E2). destruct (negb _); [discriminate|].
  destruct (entry_intn g2) as [[ors g3]|e] eqn:E3; [|discriminate]. rewrite (ext_intn _ _ _ t E3). destruct (negb _); [discriminate|].
  destruct (entry_intn g3) as [[row g4]|e] eqn:E4; [|discriminate]. rewrite (ext_intn _ _ _ t E4). congruence.
Qed.

(** Reading a proper prefix either fails or leaves a proper prefix of what the whole leaves. *)
Lemma cut {A} (X : bytes -> res (A * bytes) cerr) g d f k : ext X -> X g = Ok (d, f) -> (k < length g)%nat ->
  (exists e, X (firstn k g) = Err e) \/ exists j, (j < length f)%nat /\ X (firstn k g) = Ok (d, firstn j f).
Proof.
  intros H E K. destruct (X (firstn k g)) as [[d' r]|e] eqn:Q; [right|left; exists e; reflexivity].
  pose proof (H _ _ _ (skipn k g) Q) as P. rewrite firstn_skipn, E in P. assert (d' = d) by congruence. assert (F : f = r ++ skipn k g) by congruence. subst d'.
  exists (length r). rewrite F, firstn_app, Nat.sub_diag, firstn_all. cbn [firstn]. rewrite app_nil_r. split; [|reflexivity]. rewrite app_length, skipn_length. lia.
Qed.

Section Cut.
Variable dec : bytes -> R.
Variable version : bytes -> option bool.
Variable c : contents.
Hypothesis SZ : sized c.
Hypothesis DET : Z.of_nat (cells c) = Z.abs (detZ (scm c)).

Lemma main_cut seen l f : writes c seen l f -> forall k v fuel, (k < length f)%nat -> goodm dec c v -> (seen = true <-> m_cell v <> None) ->
  (forall its, In (Cell its) l -> good_cell its) -> orderm v l -> exists e, main_loop dec version fuel v (firstn k f) = Err e.
Proof.
  assert (Yes : forall s p, In s main_titles -> titled s p -> is_header p s = true) by (intros s p I T; apply header_iff; [apply main_words; exact I|exact (proj1 T)|exact T]).
  assert (No : forall s t p, In s main_titles -> In t main_titles -> ascii_codes s <> ascii_codes t -> titled s p -> is_header p t = false).
  { intros s t p I J N T. apply (titled_other s t p); [apply main_words; exact I|apply main_words; exact J|exact N|exact T]. }
  destruct SZ as (S0 & S1 & C0 & L1 & L2 & L3 & L4 & L5 & L6 & L7 & I1 & I2 & F1 & F2 & F3 & B1 & B2 & B3). pose proof (species_le c SZ) as SL. pose proof (ions_small c SZ) as IS.
  intros W. induction W as [seen p T|seen p l f F N W IH|seen p q l f T F W IH|p its g l f T WC W IH|seen p l f T W IH|seen p l f T W IH|seen p l f T W IH];
    intros k v fuel Hk G HS HC HO; (destruct fuel as [|fuel]; [exists (File EndOfFile); reflexivity|]); cbn [main_loop].
  - destruct (cut entry_raw (record p) p [] k ext_raw) as [(e & E)|(j & J & E)]; [rewrite <- (app_nil_r (record p)) at 1; apply raw_ok; exact (proj1 T)|exact Hk| |cbn in J; lia]. rewrite E. exists e. reflexivity.
  - destruct (cut entry_raw _ p f k ext_raw (raw_ok p f F) Hk) as [(e & E)|(j & J & E)]; rewrite E; [exists e; reflexivity|].
    assert (Nh : forall s, In s main_titles -> (seen = true -> s <> "BEGIN_UNIT_CELL"%string) -> is_header p s = false) by (intros s I H; apply header_no; [apply main_words; exact I|exact F|apply N; assumption]).
    rewrite (Nh "END"%string), (Nh "BEGIN_PARAMETERS_DUMP"%string), (Nh "FORCE_CON"%string), (Nh "BORN_CHGS"%string), (Nh "DIELECTRIC"%string) by (first [cbn; tauto|intros _; discriminate]).
    destruct (IH j v fuel) as (e & Q); [exact J|exact G|exact HS|intros i I; apply HC; right; exact I|apply (orderm_tail v v (Other p)); [exact HO|tauto|discriminate]|].
    exists e. destruct (is_header p "BEGIN_UNIT_CELL") eqn:P; [|exact Q]. destruct (m_cell v) eqn:MC; [exact Q|]. exfalso. destruct seen; [apply (proj1 HS eq_refl eq_refl)|].
    rewrite Nh in P by (first [cbn; tauto|discriminate]). discriminate.
  - destruct (cut entry_raw _ p _ k ext_raw (raw_ok p (record q ++ f) (proj1 T)) Hk) as [(e & E)|(j & J & E)]; rewrite E; [exists e; reflexivity|].
    rewrite (No "BEGIN_PARAMETERS_DUMP"%string "END"%string p), (Yes "BEGIN_PARAMETERS_DUMP"%string p) by (first [cbn; tauto|discriminate|exact T]).
    destruct (cut entry_raw _ q f j ext_raw (raw_ok q f F) J) as [(e & E')|(m & M & E')]; rewrite E'; [exists e; reflexivity|].
    destruct (version q) as [[|]|]; [exists OldFile; reflexivity| |exists BadVersion; reflexivity].
    apply IH; [exact M|exact G|exact HS|intros i I; apply HC; right; exact I|apply (orderm_tail v v (Params q)); [exact HO|tauto|discriminate]].
  - destruct (cut entry_raw _ p _ k ext_raw (raw_ok p (g ++ f) (proj1 T)) Hk) as [(e & E)|(j & J & E)]; rewrite E; [exists e; reflexivity|].
    rewrite (No "BEGIN_UNIT_CELL"%string "END"%string p), (No "BEGIN_UNIT_CELL"%string "BEGIN_PARAMETERS_DUMP"%string p), (Yes "BEGIN_UNIT_CELL"%string p) by (first [cbn; tauto|discriminate|exact T]).
    destruct (m_cell v) as [x|] eqn:MC; [exfalso; assert (false = true) by (apply HS; discriminate); discriminate|].
    destruct (cut (read_cell dec) _ _ f j (ext_cell dec) (read_cell_ok dec c SZ its g f WC (HC its (or_introl eq_refl))) J) as [(e & E')|(m & M & E')]; rewrite E'; [exists e; reflexivity|].
    destruct G as (G1 & G2 & G3 & G4). apply IH; [exact M|split; [right; reflexivity|split; [exact G2|split; [exact G3|exact G4]]]|split; [discriminate|reflexivity]|intros i I; apply HC; right; exact I|apply (orderm_tail v _ (Cell its)); [exact HO|intros; discriminate|discriminate]].
  - destruct (cut entry_raw _ p _ k ext_raw (raw_ok p (fc_body c ++ f) (proj1 T)) Hk) as [(e & E)|(j & J & E)]; rewrite E; [exists e; reflexivity|].
    rewrite (No "FORCE_CON"%string "END"%string p), (No "FORCE_CON"%string "BEGIN_PARAMETERS_DUMP"%string p), (No "FORCE_CON"%string "BEGIN_UNIT_CELL"%string p), (Yes "FORCE_CON"%string p) by (first [cbn; tauto|discriminate|exact T]).
    pose proof (orderm_head _ _ _ HO (or_introl eq_refl)) as MC. destruct G as (G1 & G2 & G3 & G4). rewrite (some_of _ _ G1 MC). change (c_natoms (true_cell dec c)) with (ions c).
    destruct (cut (read_fc dec (ions c)) _ _ f j (ext_fc dec _) (read_fc_ok dec c SZ DET f) J) as [(e & E')|(m & M & E')]; rewrite E'; [exists e; reflexivity|].
    apply IH; [exact M|split; [right; reflexivity|split; [right; reflexivity|split; [exact G3|exact G4]]]|split; [discriminate|intros _; apply HS; exact MC]|intros i I; apply HC; right; exact I|apply (orderm_tail v _ ForceCon); [exact HO|intros; discriminate|discriminate]].
  - destruct (cut entry_raw _ p _ k ext_raw (raw_ok p (floats (array3 3 3 (ions c) (born c)) ++ f) (proj1 T)) Hk) as [(e & E)|(j & J & E)]; rewrite E; [exists e; reflexivity|].
    rewrite (No "BORN_CHGS"%string "END"%string p), (No "BORN_CHGS"%string "BEGIN_PARAMETERS_DUMP"%string p), (No "BORN_CHGS"%string "BEGIN_UNIT_CELL"%string p), (No "BORN_CHGS"%string "FORCE_CON"%string p), (Yes "BORN_CHGS"%string p) by (first [cbn; tauto|discriminate|exact T]).
    pose proof (orderm_head _ _ _ HO (or_intror eq_refl)) as MC. destruct G as (G1 & G2 & G3 & G4). rewrite (some_of _ _ G1 MC). change (c_natoms (true_cell dec c)) with (ions c).
    assert (FL : entry_floats dec (floats (array3 3 3 (ions c) (born c)) ++ f) = Ok (T_born dec c, f)).
    { apply floats_ok; [|intros x I; apply in_array3 in I; destruct I as (a & b & d & ->); apply L6|apply (fits_items 8); [intros x I; apply in_array3 in I; destruct I as (a & b & d & ->); apply L6|rewrite length_array3; lia]].
      intros Q. apply (f_equal (@length _)) in Q. rewrite length_array3 in Q. cbn in Q. lia. }
    destruct (cut (entry_floats dec) _ _ f j (ext_floats dec) FL J) as [(e & E')|(m & M & E')]; rewrite E'; [exists e; reflexivity|].
    destruct (Nat.eqb _ _); [|exists BadShape; reflexivity].
    apply IH; [exact M|split; [right; reflexivity|split; [exact G2|split; [right; reflexivity|exact G4]]]|split; [discriminate|intros _; apply HS; exact MC]|intros i I; apply HC; right; exact I|apply (orderm_tail v _ Born); [exact HO|intros; discriminate|discriminate]].
  - destruct (cut entry_raw _ p _ k ext_raw (raw_ok p (floats (array2 3 3 (dielectric c)) ++ f) (proj1 T)) Hk) as [(e & E)|(j & J & E)]; rewrite E; [exists e; reflexivity|].
    rewrite (No "DIELECTRIC"%string "END"%string p), (No "DIELECTRIC"%string "BEGIN_PARAMETERS_DUMP"%string p), (No "DIELECTRIC"%string "BEGIN_UNIT_CELL"%string p), (No "DIELECTRIC"%string "FORCE_CON"%string p), (No "DIELECTRIC"%string "BORN_CHGS"%string p), (Yes "DIELECTRIC"%string p) by (first [cbn; tauto|discriminate|exact T]).
    destruct G as (G1 & G2 & G3 & G4).
    assert (FL : entry_floats dec (floats (array2 3 3 (dielectric c)) ++ f) = Ok (T_diel dec c, f)).
    { apply floats_ok; [discriminate|intros x I; apply in_array2 in I; destruct I as (a & b & ->); apply L7|apply (fits_items 8); [intros x I; apply in_array2 in I; destruct I as (a & b & ->); apply L7|rewrite length_array2; lia]]. }
    destruct (cut (entry_floats dec) _ _ f j (ext_floats dec) FL J) as [(e & E')|(m & M & E')]; rewrite E'; [exists e; reflexivity|].
    destruct (Nat.eqb _ _); [|exists BadShape; reflexivity].
    apply IH; [exact M|split; [exact G1|split; [exact G2|split; [exact G3|right; reflexivity]]]|exact HS|intros i I; apply HC; right; exact I|apply (orderm_tail v _ Dielectric); [exact HO|tauto|discriminate]].
Qed.
Lemma read_cut u l f k : writes c false l f -> good_main l -> (k < length f)%nat -> exists e, read_interpolation_data dec version u (firstn k f) = Err e.
Proof.
  intros W ((its & IC & GC) & IF & OR) Hk. unfold read_interpolation_data.
  destruct (main_cut false l f W k no_main (length (firstn k f))) as (e & E); [exact Hk|repeat split; left; reflexivity|split; [discriminate|intros Q; exfalso; apply Q; reflexivity]| | |].
  - intros i I. rewrite (one_cell _ _ _ W i its I IC). exact GC.
  - intros l1 b l2 EL P. right. exact (OR l1 b l2 EL P).
  - rewrite E. exists e. reflexivity.
Qed.
End Cut.
