(** Lemmas for C47. *)
From Verif Require Import Base M_fortran S_fortran.
Open Scope Z_scope.

Lemma unpack_big_endian z : int32 z -> unpack_i (big_endian z) = Ok z.
Proof.
  intros H. unfold int32 in H. unfold big_endian, unpack_i. set (u := z mod 4294967296).
  assert (U : 0 <= u < 4294967296) by (apply Z.mod_pos_bound; lia).
  assert (E : ((u / 16777216 * 256 + (u / 65536) mod 256) * 256 + (u / 256) mod 256) * 256 + u mod 256 = u).
  { replace (u / 65536) with (u / 256 / 256) by (rewrite Z.div_div by lia; reflexivity). replace (u / 16777216) with (u / 256 / 256 / 256) by (rewrite !Z.div_div by lia; reflexivity).
    pose proof (Z.div_mod u 256 ltac:(lia)). pose proof (Z.div_mod (u / 256) 256 ltac:(lia)). pose proof (Z.div_mod (u / 256 / 256) 256 ltac:(lia)). lia. }
  cbv zeta. rewrite E. unfold u in *. clear E.
  assert (C : z mod 4294967296 = z \/ z mod 4294967296 = z + 4294967296).
  { destruct (Z_lt_dec z 0); [right|left; apply Z.mod_small; lia]. rewrite <- (Z.mod_add z 1) by lia. rewrite Z.mul_1_l. apply Z.mod_small. lia. }
  f_equal. destruct (Z.ltb_spec (z mod 4294967296) 2147483648); lia.
Qed.
Lemma length_be z : length (big_endian z) = 4%nat. Proof. reflexivity. Qed.
Lemma fread_app p r : fread (Z.of_nat (length p)) (p ++ r) = (p, r).
Proof.
  unfold fread. rewrite (proj2 (Z.ltb_ge _ _)) by lia. rewrite Nat2Z.id, firstn_app, skipn_app, Nat.sub_diag, firstn_all, skipn_all. cbn. rewrite app_nil_r. reflexivity.
Qed.
Lemma mark_app z r : int32 z -> record_mark_read (big_endian z ++ r) = Ok (z, r).
Proof.
  intros H. unfold record_mark_read. change 4 with (Z.of_nat (length (big_endian z))). rewrite fread_app. rewrite unpack_big_endian by exact H. reflexivity.
Qed.
Lemma fits_int p : fits p -> int32 (Z.of_nat (length p)). Proof. unfold fits, int32. lia. Qed.

Lemma entry_ok t p rest d : fits p -> (forall r, read_data t (Z.of_nat (length p)) (p ++ r) = Ok (d, r)) -> read_entry t (record p ++ rest) = Ok (d, rest).
Proof.
  intros F D. unfold record, read_entry. rewrite <- !app_assoc. rewrite mark_app by (apply fits_int; exact F). rewrite D.
  rewrite mark_app by (apply fits_int; exact F). rewrite Z.eqb_refl. reflexivity.
Qed.
Lemma entry_mismatch t p z rest d : fits p -> int32 z -> z <> Z.of_nat (length p) -> (forall r, read_data t (Z.of_nat (length p)) (p ++ r) = Ok (d, r)) ->
  read_entry t (big_endian (Z.of_nat (length p)) ++ p ++ big_endian z ++ rest) = Err MarkerError.
Proof.
  intros F I N D. unfold read_entry. rewrite mark_app by (apply fits_int; exact F). rewrite D. rewrite mark_app by exact I.
  rewrite (proj2 (Z.eqb_neq _ _)) by congruence. reflexivity.
Qed.
Lemma data_raw p r : read_data Raw (Z.of_nat (length p)) (p ++ r) = Ok (DBytes p, r).
Proof. unfold read_data. rewrite fread_app. reflexivity. Qed.

(** Items *)
Lemma length_concat_w {A} w (l : list (list A)) : (forall x, In x l -> length x = w) -> length (concat l) = (w * length l)%nat.
Proof. induction l as [|a l IH]; intros H; [cbn; lia|]. cbn [concat length]. rewrite app_length, (H a) by (left; reflexivity). rewrite IH; [lia|]. intros x I. apply H. right. exact I. Qed.
Lemma chunks_concat w items r : (forall x, In x items -> length x = w) -> chunks w (length items) (concat items ++ r) = items.
Proof.
  induction items as [|a items IH]; intros H; [reflexivity|]. cbn [length chunks concat]. pose proof (H a (or_introl eq_refl)) as La.
  rewrite <- app_assoc, firstn_app, skipn_app, La, Nat.sub_diag. rewrite <- La at 1 3. rewrite firstn_all, skipn_all. cbn [firstn skipn app]. rewrite app_nil_r. f_equal.
  apply IH. intros x I. apply H. right. exact I.
Qed.
Lemma fromfile_ok w items r : (0 < w)%nat -> (forall x, In x items -> length x = w) -> fromfile w (length items) (concat items ++ r) = (items, r).
Proof.
  intros Hw H. pose proof (length_concat_w w items H) as L. unfold fromfile. rewrite app_length, L.
  assert (M : Nat.min (length items) ((w * length items + length r) / w) = length items).
  { apply Nat.min_l. apply Nat.div_le_lower_bound; lia. }
  rewrite M, Nat.ltb_irrefl, chunks_concat by exact H. f_equal. rewrite skipn_app, <- L, Nat.sub_diag, skipn_all. reflexivity.
Qed.
Lemma quot_items w (k : nat) : (0 < w)%nat -> Z.quot (Z.of_nat (w * k)) (Z.of_nat w) = Z.of_nat k.
Proof. intros H. rewrite Nat2Z.inj_mul, Z.mul_comm, Z.quot_mul by lia. reflexivity. Qed.

Definition result (t : dtype) (items : list bytes) : data :=
  match t, items with
  | Raw, _ => DBytes (concat items)
  | I4, [x] => DInt (int_of x) | I4, _ => DInts (map int_of items)
  | F8, [x] => DFloat x | F8, _ => DFloats items
  | S8, [x] => DBytes x | S8, _ => DStrs items
  end.
Lemma data_items t items r : t <> Raw -> items <> [] -> (forall x, In x items -> length x = itemsize t) ->
  read_data t (Z.of_nat (length (concat items))) (concat items ++ r) = Ok (result t items, r).
Proof.
  intros T N H. assert (W : (0 < itemsize t)%nat) by (destruct t; cbn; lia). pose proof (length_concat_w _ items H) as L.
  assert (Q : Z.quot (Z.of_nat (length (concat items))) (Z.of_nat (itemsize t)) = Z.of_nat (length items)) by (rewrite L; apply quot_items; exact W).
  destruct items as [|a [|b items]]; [congruence| |].
  - pose proof (H a (or_introl eq_refl)) as La. cbn [concat length] in *. rewrite app_nil_r in *.
    unfold read_data. destruct t; [congruence| | |]; cbv beta iota zeta; rewrite Q; cbn [Z.of_nat Z.ltb Z.compare Pos.of_succ_nat Pos.compare Pos.compare_cont]; rewrite fread_app.
    + destruct a as [|a1 [|a2 [|a3 [|a4 [|]]]]]; try discriminate. reflexivity.
    + unfold unpack_d. rewrite La. reflexivity.
    + reflexivity.
  - set (it := a :: b :: items) in *. assert (G : (1 <? Z.of_nat (length it)) = true) by (apply Z.ltb_lt; cbn [it length]; lia).
    unfold read_data. destruct t; [congruence| | |]; cbv beta iota zeta; rewrite Q, G, Nat2Z.id; (rewrite fromfile_ok; [|cbn; lia|exact H]); reflexivity.
Qed.

Lemma entry_items t items rest : t <> Raw -> items <> [] -> (forall x, In x items -> length x = itemsize t) -> fits (concat items) ->
  read_entry t (record (concat items) ++ rest) = Ok (result t items, rest).
Proof. intros T N H F. apply entry_ok; [exact F|]. intros r. apply data_items; assumption. Qed.
Lemma result_ints zs : (forall z, In z zs -> int32 z) -> (2 <= length zs)%nat -> result I4 (map big_endian zs) = DInts zs.
Proof.
  intros H L. destruct zs as [|a [|b zs]]; cbn [length] in L; [lia|lia|]. cbn [result map]. rewrite map_map. unfold int_of at 1 2. rewrite !unpack_big_endian by (apply H; cbn; tauto). f_equal. f_equal. f_equal.
  transitivity (map (fun z => z) zs); [|apply map_id]. apply map_ext_in. intros z I. unfold int_of. rewrite unpack_big_endian by (apply H; cbn; tauto). reflexivity.
Qed.
Lemma entry_ints zs rest : (forall z, In z zs -> int32 z) -> (2 <= length zs)%nat -> fits (concat (map big_endian zs)) ->
  read_entry I4 (record (concat (map big_endian zs)) ++ rest) = Ok (DInts zs, rest).
Proof.
  intros H L F. rewrite entry_items; [rewrite result_ints by assumption; reflexivity|discriminate| | |exact F].
  - destruct zs; [cbn in L; lia|discriminate].
  - intros x I. apply in_map_iff in I. destruct I as (z & <- & _). reflexivity.
Qed.
Lemma entry_int z rest : int32 z -> read_entry I4 (record (big_endian z) ++ rest) = Ok (DInt z, rest).
Proof.
  intros H. replace (big_endian z) with (concat [big_endian z]) by exact (app_nil_r (big_endian z)). rewrite entry_items.
  - cbn [result]. unfold int_of. rewrite unpack_big_endian by exact H. reflexivity.
  - discriminate.
  - discriminate.
  - intros x [<-|[]]. reflexivity.
  - unfold fits. cbn. lia.
Qed.

(** All records in order, then end of file. *)
Lemma read_all_ok ps : (forall p, In p ps -> fits p) -> forall fuel, (length ps < fuel)%nat -> read_all fuel (concat (map record ps)) = (map DBytes ps, EndOfFile).
Proof.
  induction ps as [|p ps IH]; intros F fuel L; (destruct fuel as [|fuel]; [cbn in L; lia|]); cbn [read_all map concat]; [reflexivity|].
  rewrite (entry_ok Raw p _ (DBytes p)); [|apply F; left; reflexivity|apply data_raw]. rewrite IH; [reflexivity|intros q I; apply F; right; exact I|cbn in L; lia].
Qed.

(** ** Truncation: every proper prefix of a record is an error. *)
Lemma mark_short l : (length l < 4)%nat -> exists e, record_mark_read l = Err e.
Proof.
  intros H. destruct l as [|a [|b [|c [|d l]]]]; [exists EndOfFile|exists StructError|exists StructError|exists StructError|cbn in H; lia]; reflexivity.
Qed.
Lemma firstn_app_le {A} k (a b : list A) : (k <= length a)%nat -> firstn k (a ++ b) = firstn k a.
Proof. intros H. rewrite firstn_app. replace (k - length a)%nat with 0%nat by lia. cbn. apply app_nil_r. Qed.
Lemma firstn_app_ge {A} k (a b : list A) : (length a <= k)%nat -> firstn k (a ++ b) = a ++ firstn (k - length a) b.
Proof. intros H. rewrite firstn_app. f_equal. apply firstn_all2. exact H. Qed.

(** With the end marker cut, or the payload cut, what follows the data is too short. *)
Lemma data_short t begin f d f' : 0 <= begin -> (t = Raw \/ exists k : nat, begin = Z.of_nat (itemsize t * k)) -> (length f < Z.to_nat begin + 4)%nat ->
  read_data t begin f = Ok (d, f') -> (length f' < 4)%nat.
Proof.
  intros B M L E.
  assert (FR : forall raw f'', fread begin f = (raw, f'') -> (length f'' < 4)%nat).
  { intros raw f'' Ef. unfold fread in Ef. rewrite (proj2 (Z.ltb_ge _ _)) in Ef by lia. injection Ef as _ <-. rewrite skipn_length. lia. }
  unfold read_data in E. destruct t.
  1:{ destruct (fread begin f) as [raw f''] eqn:Ef. injection E as _ <-. exact (FR _ _ eq_refl). }
  all: destruct M as [M|(k & M)]; [discriminate|];
    match type of E with context [Z.quot ?bb (Z.of_nat ?w)] =>
      assert (Q : Z.quot bb (Z.of_nat w) = Z.of_nat k) by (rewrite M; apply quot_items; cbn; lia) end;
    cbv beta iota zeta in E; rewrite Q in E; destruct (1 <? Z.of_nat k);
    [ rewrite Nat2Z.id in E; unfold fromfile in E; cbv beta iota zeta in E;
      match type of E with Ok (_, ?r) = _ => assert (Er : r = f') by congruence end; rewrite <- Er; clear E Er;
      match goal with |- context [Nat.ltb ?a ?b] => destruct (Nat.ltb_spec a b) end; cbn [length]; [lia|]; rewrite skipn_length; subst begin; rewrite Nat2Z.id in L; cbn [itemsize] in *; lia
    | destruct (fread begin f) as [raw f''] eqn:Ef; specialize (FR _ _ eq_refl) ].
  - destruct (unpack_i raw); [|discriminate]. assert (f'' = f') by congruence. subst. exact FR.
  - destruct (unpack_d raw); [|discriminate]. assert (f'' = f') by congruence. subst. exact FR.
  - assert (f'' = f') by congruence. subst. exact FR.
Qed.
Lemma entry_truncated t p k : fits p -> (t = Raw \/ exists n : nat, length p = (itemsize t * n)%nat) -> (k < length (record p))%nat ->
  exists e, read_entry t (firstn k (record p)) = Err e.
Proof.
  intros F M K. unfold record in *. rewrite !app_length, !length_be in K. destruct (le_lt_dec 4 k) as [D|D].
  - rewrite firstn_app_ge by (rewrite length_be; exact D). rewrite length_be. unfold read_entry. rewrite mark_app by (apply fits_int; exact F).
    set (f := firstn (k - 4) _). assert (Lf : (length f < length p + 4)%nat) by (unfold f; rewrite firstn_length; lia).
    destruct (read_data t (Z.of_nat (length p)) f) as [[d f']|e] eqn:E; [|exists e; reflexivity].
    apply data_short in E; [|lia| |rewrite Nat2Z.id; exact Lf].
    + destruct (mark_short f' E) as (e & Ee). rewrite Ee. exists e. reflexivity.
    + destruct M as [M|(n & M)]; [left; exact M|right; exists n; rewrite M; reflexivity].
  - rewrite firstn_app_le by (rewrite length_be; lia). unfold read_entry. destruct (mark_short (firstn k (big_endian (Z.of_nat (length p))))) as (e & E); [rewrite firstn_length; lia|].
    rewrite E. exists e. reflexivity.
Qed.

(** A negative marker (a continued record of a compiler that splits records) is refused. *)
Lemma entry_negative t z rest : int32 z -> z < 0 -> exists e, read_entry t (big_endian z ++ rest) = Err e.
Proof.
  intros I N. unfold read_entry. rewrite mark_app by exact I.
  assert (FR : fread z rest = (rest, [])) by (unfold fread; rewrite (proj2 (Z.ltb_lt _ _)) by lia; reflexivity).
  assert (Q : forall w : nat, (0 < w)%nat -> (1 <? Z.quot z (Z.of_nat w)) = false).
  { intros w Hw. apply Z.ltb_ge. pose proof (Z.quot_opp_l z (Z.of_nat w) ltac:(lia)) as O. assert (0 <= Z.quot (- z) (Z.of_nat w)) by (apply Z.quot_pos; lia). lia. }
  unfold read_data. destruct t; cbv beta iota zeta; [| | |]; try (rewrite Q by (cbn; lia)); rewrite FR.
  - exists EndOfFile. reflexivity.
  - destruct (unpack_i rest) as [x|e]; [exists EndOfFile|exists e]; reflexivity.
  - destruct (unpack_d rest) as [x|e]; [exists EndOfFile|exists e]; reflexivity.
  - exists EndOfFile. reflexivity.
Qed.

(** A record whose length is not a multiple of the item size can be misread. *)
Lemma entry_odd x1 x2 : length x1 = 8%nat -> length x2 = 8%nat -> forall z rest,
  read_entry F8 (big_endian 20 ++ (x1 ++ x2 ++ big_endian 20) ++ big_endian z ++ rest) = Ok (DFloats [x1; x2], big_endian z ++ rest).
Proof.
  intros L1 L2 z rest. unfold read_entry. rewrite mark_app by (unfold int32; lia).
  assert (E : read_data F8 20 ((x1 ++ x2 ++ big_endian 20) ++ big_endian z ++ rest) = Ok (DFloats [x1; x2], big_endian 20 ++ big_endian z ++ rest)).
  { unfold read_data. change (Z.quot 20 (Z.of_nat (itemsize F8))) with 2. change (1 <? 2) with true. cbv iota. change (Z.to_nat 2) with (length [x1; x2]).
    replace ((x1 ++ x2 ++ big_endian 20) ++ big_endian z ++ rest) with (concat [x1; x2] ++ big_endian 20 ++ big_endian z ++ rest) by (cbn [concat]; rewrite app_nil_r, <- !app_assoc; reflexivity).
    rewrite fromfile_ok; [reflexivity|cbn; lia|]. intros x [<-|[<-|[]]]; assumption. }
  rewrite E. rewrite mark_app by (unfold int32; lia). reflexivity.
Qed.
