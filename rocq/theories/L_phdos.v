(** Lemmas for the .phonon_dos reader (C72, C73). *)
From Verif Require Import Base M_qpts M_phonon S_phonon L_phonon L_phonon2 M_phdos S_phdos.
Open Scope Z_scope.

Local Notation dec := (list_eq_dec Z.eq_dec).
Lemma zeqb_ok a b : list_Z_eqb a b = true <-> a = b.
Proof.
  revert b. induction a as [|x a IH]; intros [|y b]; cbn; try (split; [discriminate|discriminate]); [split; reflexivity|].
  rewrite Bool.andb_true_iff, Z.eqb_eq, IH. split; [intros (-> & ->); reflexivity|intros E; injection E as -> ->; split; reflexivity].
Qed.
Lemma zeqb_refl a : list_Z_eqb a a = true. Proof. apply zeqb_ok. reflexivity. Qed.
Lemma zeqb_ne a b : a <> b -> list_Z_eqb a b = false.
Proof. intros H. destruct (list_Z_eqb a b) eqn:E; [apply zeqb_ok in E; contradiction|reflexivity]. Qed.
Lemma seen_ok t seen : existsb (list_Z_eqb t) seen = true <-> In t seen.
Proof. rewrite existsb_exists. split; [intros (x & I & E); apply zeqb_ok in E; subst; exact I|intros I; exists t; split; [exact I|apply zeqb_refl]]. Qed.

(** ** Species *)
Lemma unique_in types : forall seen s, In s (unique_types seen types) <-> In s types /\ ~ In s seen.
Proof.
  induction types as [|t types IH]; intros seen s; cbn [unique_types]; [cbn; tauto|].
  destruct (existsb (list_Z_eqb t) seen) eqn:E.
  - apply seen_ok in E. rewrite IH. cbn [In]. split; [intros (I & N); split; [right; exact I|exact N]|intros ([->|I] & N); [contradiction|split; assumption]].
  - assert (N : ~ In t seen) by (intros I; apply seen_ok in I; congruence). cbn [In]. rewrite IH. cbn [In]. split.
    + intros [->|(I & M)]; [split; [left; reflexivity|exact N]|split; [right; exact I|tauto]].
    + intros ([->|I] & M); [left; reflexivity|]. destruct (dec t s) as [->|D]; [left; reflexivity|right]. tauto.
Qed.
Lemma unique_nodup types : forall seen, NoDup (unique_types seen types).
Proof.
  induction types as [|t types IH]; intros seen; cbn [unique_types]; [constructor|]. destruct (existsb (list_Z_eqb t) seen); [apply IH|].
  constructor; [|apply IH]. rewrite unique_in. cbn. tauto.
Qed.
Lemma unique_len types : length (unique_types [] types) = n_species types.
Proof.
  unfold n_species. apply Nat.le_antisymm; apply NoDup_incl_length; try apply unique_nodup; try apply NoDup_nodup.
  - intros s I. apply unique_in in I. apply nodup_In. tauto.
  - intros s I. apply nodup_In in I. apply unique_in. cbn. tauto.
Qed.
Lemma unique_split before s after : forall seen, ~ In s before -> ~ In s seen ->
  exists rest, unique_types seen (before ++ s :: after) = unique_types seen before ++ s :: rest.
Proof.
  induction before as [|t before IH]; intros seen N M; cbn [unique_types app].
  - destruct (existsb (list_Z_eqb s) seen) eqn:E; [apply seen_ok in E; contradiction|]. eexists. reflexivity.
  - cbn [In] in N. destruct (existsb (list_Z_eqb t) seen); [apply IH; tauto|]. destruct (IH (t :: seen)) as (rest & E); [tauto|cbn; tauto|]. exists rest. rewrite E. reflexivity.
Qed.
Lemma unique_nth types k s : nth_species types k s -> nth_error (unique_types [] types) k = Some s.
Proof.
  intros (before & after & -> & N & <-). destruct (unique_split before s after [] N (fun H => H)) as (rest & ->).
  change (length (nodup dec before)) with (n_species before). rewrite <- unique_len. rewrite nth_error_app2 by lia. rewrite Nat.sub_diag. reflexivity.
Qed.
Lemma unique_nth_back types k s : nth_error (unique_types [] types) k = Some s -> nth_species types k s.
Proof.
  intros E. assert (I : In s types) by (apply nth_error_In in E; apply unique_in in E; tauto).
  assert (Q : exists before after, types = before ++ s :: after /\ ~ In s before).
  { clear E. induction types as [|t types IH]; [destruct I|]. destruct (dec t s) as [->|D]; [exists [], types; split; [reflexivity|intros []]|].
    destruct I as [->|I]; [contradiction|]. destruct (IH I) as (b & a & -> & N). exists (t :: b), a. split; [reflexivity|]. cbn. tauto. }
  destruct Q as (b & a & -> & N). exists b, a. split; [reflexivity|]. split; [exact N|].
  destruct (unique_split b s a [] N (fun H => H)) as (rest & U). change (length (nodup dec b)) with (n_species b). rewrite <- unique_len.
  pose proof (unique_nodup (b ++ s :: a) []) as ND. apply NoDup_nth_error with (l := unique_types [] (b ++ s :: a)); [exact ND| |].
  - rewrite U, app_length. cbn. lia.
  - rewrite E, U. rewrite nth_error_app2 by lia. rewrite Nat.sub_diag. reflexivity.
Qed.

(** ** The dictionary *)
Lemma dict_set_new {A} k (v : A) d : ~ In k (map fst d) -> dict_set k v d = d ++ [(k, v)].
Proof. induction d as [|[k' v'] d IH]; intros N; [reflexivity|]. cbn [dict_set map fst In app] in *. rewrite zeqb_ne by (intros ->; tauto). rewrite IH by tauto. reflexivity. Qed.
Lemma dict_get_nth {A} (d : list (list Z * A)) i k v : NoDup (map fst d) -> nth_error d i = Some (k, v) -> dict_get k d = Some v.
Proof.
  revert i. induction d as [|[k' v'] d IH]; intros [|i] ND E; cbn in E; try discriminate.
  - injection E as -> ->. cbn. rewrite zeqb_refl. reflexivity.
  - cbn [map fst] in ND. inversion ND as [|? ? N ND']; subst. cbn [dict_get]. rewrite zeqb_ne; [apply (IH i); assumption|].
    intros ->. apply N. apply nth_error_In in E. apply (in_map fst) in E. exact E.
Qed.
Lemma dict_get_none {A} (d : list (list Z * A)) k : ~ In k (map fst d) -> dict_get k d = None.
Proof. induction d as [|[k' v'] d IH]; intros N; [reflexivity|]. cbn [dict_get map fst In] in *. rewrite zeqb_ne by (intros ->; tauto). apply IH. tauto. Qed.

Section Table.
Variables (factor : R) (rows : list (list R)).
Definition entries (i : nat) (names : list (list Z)) : list (list Z * list R) :=
  map (fun p => (snd p, scaled_column (fst p + 2) factor rows)) (combine (seq i (length names)) names).
Lemma entries_names i names : map fst (entries i names) = names.
Proof. unfold entries. rewrite map_map. cbn. revert i. induction names as [|s names IH]; intros i; [reflexivity|]. cbn [length seq combine map snd]. f_equal. apply IH. Qed.
Lemma entries_nth names : forall i k s, nth_error names k = Some s -> nth_error (entries i names) k = Some (s, scaled_column (i + k + 2) factor rows).
Proof.
  induction names as [|t names IH]; intros i [|k] s E; cbn in E; try discriminate.
  - injection E as ->. unfold entries. cbn [length seq combine map nth_error fst snd]. do 4 f_equal. lia.
  - unfold entries. cbn [length seq combine map nth_error]. fold (entries (S i) names). rewrite (IH (S i) k s E). do 3 f_equal. lia.
Qed.
Lemma column_ok c : (c < length (hd [] rows))%nat -> column c factor rows = Ok (scaled_column c factor rows).
Proof. intros H. unfold column. rewrite (proj2 (Nat.ltb_lt _ _) H). reflexivity. Qed.
Lemma add_species_ok names : forall i d, NoDup names -> (forall s, In s names -> ~ In s (map fst d)) -> (i + length names + 1 < length (hd [] rows))%nat ->
  add_species i names factor rows d = Ok (d ++ entries i names).
Proof.
  induction names as [|s names IH]; intros i d ND N W; cbn [add_species].
  - unfold entries. cbn. rewrite app_nil_r. reflexivity.
  - cbn [length] in W. rewrite column_ok by lia. inversion ND as [|? ? N0 ND']; subst. rewrite dict_set_new by (apply N; left; reflexivity).
    rewrite IH; [| exact ND' | | lia].
    + rewrite <- app_assoc. reflexivity.
    + intros t I. rewrite map_app, in_app_iff. cbn. intros [H|[H|[]]]; [apply (N t); [right; exact I|exact H]|subst; contradiction].
Qed.
End Table.

(** ** Gradients and table *)
Section Read.
Context {L : Type}.
Variable P : dparser L.
Definition gblock_of (i : Z) (d : gdata) : gblock := {| g_id := i; g_qpt := gpt d; g_weight := gwt d; g_freqs := gfr d; g_grads := ggr d |}.
Lemma gradient_block_ok nb b d rest : gsays P nb b d -> exists i, read_gradient_block P nb (glines_of b ++ rest) = Ok (Some (gblock_of i d), rest).
Proof.
  intros (E & I & L3 & FL & W & Ln & Ff & Fg). unfold read_gradient_block, glines_of. cbn [app readline]. rewrite E.
  destruct (q_id (base P) (gq b)) as [i|]; [|congruence]. exists i. rewrite FL. cbv zeta. rewrite nth_error_app2 by lia. rewrite L3. cbn [Nat.sub nth_error].
  rewrite <- Ln, readlines_app. rewrite (parse_ok None (freq_of (base P)) _ _ Ff).
  assert (C : (1 + (if Nat.ltb 6 (n_words P (gq b)) then 0 + 1 else 0) + 1)%nat = match gdir d with [] => 2%nat | _ => 3%nat end).
  { destruct (gdir d) as [|v l] eqn:D.
    - rewrite (proj2 (Nat.ltb_ge _ _)) by (apply W; reflexivity). reflexivity.
    - rewrite (proj2 (Nat.ltb_lt _ _)); [reflexivity|]. destruct (le_lt_dec (n_words P (gq b)) 6) as [Q|Q]; [apply W in Q; discriminate|exact Q]. }
  rewrite C. rewrite (parse_ok None (fun l => word P l match gdir d with [] => 2%nat | _ :: _ => 3%nat end) _ _ Fg).
  unfold gblock_of. do 4 f_equal. rewrite firstn_app, L3, Nat.sub_diag, firstn_O, app_nil_r. apply firstn_all2. lia.
Qed.
Lemma gradients_ok nb bs ds e rest : (1 < nb)%nat -> Forall2 (gsays P nb) bs ds -> end_gradients P e = true ->
  forall fuel, (length bs < fuel)%nat -> exists ids, length ids = length ds /\
    read_gradients P fuel nb (flat_map glines_of bs ++ e :: rest) = Ok (map (fun p => gblock_of (fst p) (snd p)) (combine ids ds), rest).
Proof.
  intros H1 F E. induction F as [|b d bs ds S F IH]; intros fuel Hf; (destruct fuel as [|fuel]; [cbn in Hf; lia|]); cbn [flat_map read_gradients].
  - exists []. split; [reflexivity|]. cbn [app]. unfold read_gradient_block. cbn [readline]. rewrite E. reflexivity.
  - rewrite <- app_assoc. destruct (gradient_block_ok nb b d (flat_map glines_of bs ++ e :: rest) S) as (i & ->).
    rewrite (proj2 (Nat.eqb_neq nb 1)) by lia. cbn [length] in Hf. destruct (IH fuel ltac:(lia)) as (ids & Le & ->). exists (i :: ids). split; [cbn; lia|reflexivity].
Qed.
Lemma load_blank n f : load_rows P n f = load_rows P n (filter (written P) f).
Proof.
  revert f. induction n as [|n IHn]; intros f; [reflexivity|]. induction f as [|l f IH]; [reflexivity|]. cbn [filter]. unfold written at 1.
  destruct (table_row P l) eqn:E; cbn [load_rows] in *; rewrite E; try reflexivity.
  - exact IH.
  - rewrite (IHn f). reflexivity.
Qed.
Lemma load_ok0 n ls rows rest : Forall2 (fun l v => table_row P l = Row v) ls rows -> length rows = n -> load_rows P n (ls ++ rest) = Ok rows.
Proof.
  intros F. revert n. induction F as [|l v ls rows E F IH]; intros n H; subst n; cbn [length load_rows]; [reflexivity|]. cbn [app]. rewrite E. rewrite (IH (length rows) eq_refl). reflexivity.
Qed.
Lemma load_ok n ls rows rest : Forall2 (fun l v => table_row P l = Row v) (filter (written P) ls) rows -> length rows = n -> load_rows P n (ls ++ rest) = Ok rows.
Proof. intros F H. rewrite load_blank, filter_app. apply load_ok0; assumption. Qed.
Lemma load_short0 n ls rows : Forall2 (fun l v => table_row P l = Row v) ls rows -> (length rows <= n)%nat -> load_rows P n ls = Ok rows.
Proof.
  intros F. revert n. induction F as [|l v ls rows E F IH]; intros n H; [destruct n; reflexivity|]. cbn [length] in H. destruct n as [|n]; [lia|]. cbn [load_rows]. rewrite E. rewrite (IH n) by lia. reflexivity.
Qed.
Lemma load_short n ls rows : Forall2 (fun l v => table_row P l = Row v) (filter (written P) ls) rows -> (length rows <= n)%nat -> load_rows P n ls = Ok rows.
Proof. intros F H. rewrite load_blank. apply load_short0; assumption. Qed.
Lemma load_bad0 n ls rows x rest : Forall2 (fun l v => table_row P l = Row v) ls rows -> (length rows < n)%nat -> table_row P x = Bad -> load_rows P n (ls ++ x :: rest) = Err Parse.
Proof.
  intros F. revert n. induction F as [|l v ls rows E F IH]; intros n H B; (destruct n as [|n]; [cbn in H; lia|]); cbn [load_rows app].
  - rewrite B. reflexivity.
  - rewrite E. cbn [length] in H. rewrite (IH n) by (try lia; assumption). reflexivity.
Qed.
Lemma load_bad n ls rows x rest : Forall2 (fun l v => table_row P l = Row v) (filter (written P) ls) rows -> (length rows < n)%nat -> table_row P x = Bad -> load_rows P n (ls ++ x :: rest) = Err Parse.
Proof. intros F H B. rewrite load_blank, filter_app. cbn [filter]. unfold written at 2. rewrite B. apply load_bad0 with rows; assumption. Qed.
Lemma glen bs : (length bs <= length (flat_map (@glines_of L) bs))%nat.
Proof. induction bs as [|b bs IH]; [cbn; lia|]. cbn [flat_map length]. rewrite app_length. unfold glines_of at 1. cbn [length]. lia. Qed.

(** Everything up to the table. *)
Variables (k : factors) (cu fu gu : unit_name).
Lemma read_to_table (x : dfile L) na nb nbins cell ats ds rows :
  dfile_says P x na nb nbins cell ats ds rows -> exists ids, length ids = length ds /\
  read_phonon_dos_data P k cu fu gu (dfile_lines x) =
    match loadtxt P nbins (f_rows x ++ f_tail x) with
    | Err e => Err e
    | Ok rows => match column 1 (k_dos k) rows with Err e => Err e | Ok total =>
        match add_species 0 (unique_types [] (map at_type ats)) (k_dos k) rows [(total_name, total)] with Err e => Err e | Ok dos =>
          Ok {| d_cell := map (map (fun x => (x * k_len k)%R)) cell; d_atoms := ats;
                d_blocks := map (fun p => {| g_id := fst p; g_qpt := gpt (snd p); g_weight := gwt (snd p); g_freqs := map (fun x => (x * k_freq k)%R) (gfr (snd p)); g_grads := map (fun x => (x * k_len k * k_freq k)%R) (ggr (snd p)) |}) (combine ids ds);
                d_grad_unit := UTimes fu cu; d_bins := scaled_column 0 (k_freq k) rows; d_bins_unit := fu; d_dos := dos; d_dos_unit := UInv fu |} end end
    end.
Proof.
  intros (H & Hb & Hs & F & E & B & Fr). pose proof H as (Ha & Hb0 & I1 & I2 & I3 & _). unfold read_phonon_dos_data, dfile_lines. cbv zeta. cbn [app readline readlines].
  destruct (last_int (base P) (f_species x)) as [ns|] eqn:Es; [|congruence]. set (h := f_head x) in *.
  change [Some (hna h); Some (f_species x); Some (hnb h); Some (hnq h)] with (map Some [hna h; f_species x; hnb h; hnq h]).
  rewrite (parse_ok None (last_int (base P)) [hna h; f_species x; hnb h; hnq h] [Z.of_nat na; ns; Z.of_nat nb; Z.of_nat nbins]) by (repeat constructor; assumption).
  rewrite !(proj2 (Z.ltb_ge _ _)) by lia. cbn [orb]. rewrite !Nat2Z.id.
  pose proof (crystal_ok (base P) h na nb nbins cell ats (f_begin x :: flat_map glines_of (f_blocks x) ++ f_end x :: f_dos x :: f_rows x ++ f_tail x) H) as C. cbn [app] in C.
  rewrite C. clear C. cbn [readline].
  destruct (gradients_ok nb (f_blocks x) ds (f_end x) (f_dos x :: f_rows x ++ f_tail x) Hb F E (S (length (flat_map glines_of (f_blocks x) ++ f_end x :: f_dos x :: f_rows x ++ f_tail x)))) as (ids & Le & G).
  { rewrite app_length. pose proof (glen (f_blocks x)). lia. }
  rewrite G. clear G. exists ids. split; [exact Le|]. cbn [readline]. rewrite B. destruct (loadtxt P nbins (f_rows x ++ f_tail x)) as [rw|e]; [|reflexivity].
  destruct (column 1 (k_dos k) rw) as [t|e]; [|reflexivity]. destruct (add_species 0 (unique_types [] (map at_type ats)) (k_dos k) rw [(total_name, t)]) as [dd|e]; [|reflexivity].
  do 2 f_equal. rewrite map_map. reflexivity.
Qed.

(** ** Complete tables *)
Lemma table_ok (x : dfile L) nbins ats rows : Forall2 (fun l v => table_row P l = Row v) (filter (written P) (f_rows x)) rows -> (2 <= length rows)%nat ->
  (length rows = nbins \/ (length rows <= nbins)%nat /\ f_tail x = []) ->
  wide_table (map at_type ats) rows -> loadtxt P nbins (f_rows x ++ f_tail x) = Ok rows /\ (1 + n_species (map at_type ats) < length (hd [] rows))%nat.
Proof.
  intros F H2 T (w & Hw & A). assert (H6 : length (hd [] rows) = w) by (destruct rows as [|r rs]; [cbn in H2; lia|apply A; left; reflexivity]).
  split; [|lia]. unfold loadtxt. assert (LR : load_rows P nbins (f_rows x ++ f_tail x) = Ok rows).
  { destruct T as [T|(T & E)]; [apply load_ok; assumption|rewrite E, app_nil_r; apply load_short; assumption]. }
  rewrite LR, H6. rewrite (proj2 (Nat.leb_le _ _) H2). rewrite (proj2 (Nat.leb_le 2 w)) by lia. rewrite same_length_ok by exact A. reflexivity.
Qed.
Definition result_of ids cell ats ds rows : phdos :=
  {| d_cell := map (map (fun x => (x * k_len k)%R)) cell; d_atoms := ats;
     d_blocks := map (fun p => {| g_id := fst p; g_qpt := gpt (snd p); g_weight := gwt (snd p); g_freqs := map (fun x => (x * k_freq k)%R) (gfr (snd p)); g_grads := map (fun x => (x * k_len k * k_freq k)%R) (ggr (snd p)) |}) (combine ids ds);
     d_grad_unit := UTimes fu cu; d_bins := scaled_column 0 (k_freq k) rows; d_bins_unit := fu;
     d_dos := (total_name, scaled_column 1 (k_dos k) rows) :: entries (k_dos k) rows 0 (unique_types [] (map at_type ats)); d_dos_unit := UInv fu |}.
Lemma read_ok (x : dfile L) na nb nbins cell ats ds rows :
  dfile_says P x na nb nbins cell ats ds rows -> (2 <= length rows)%nat -> (length rows = nbins \/ (length rows <= nbins)%nat /\ f_tail x = []) ->
  wide_table (map at_type ats) rows -> ~ In Total (map at_type ats) ->
  exists ids, length ids = length ds /\ read_phonon_dos_data P k cu fu gu (dfile_lines x) = Ok (result_of ids cell ats ds rows).
Proof.
  intros S H2 T W NT. pose proof S as (_ & _ & _ & _ & _ & _ & F). destruct (read_to_table x na nb nbins cell ats ds rows S) as (ids & Le & E). exists ids. split; [exact Le|]. rewrite E.
  destruct (table_ok x nbins ats rows F H2 T W) as (-> & Hw). rewrite column_ok by lia. rewrite add_species_ok.
  - reflexivity.
  - apply unique_nodup.
  - intros s I. apply unique_in in I. cbn. intros [<-|[]]. apply NT. tauto.
  - rewrite unique_len. lia.
Qed.
Lemma keys_nodup ats rows : ~ In Total (map at_type ats) -> NoDup (map fst ((total_name, scaled_column 1 (k_dos k) rows) :: entries (k_dos k) rows 0 (unique_types [] (map at_type ats)))).
Proof. intros NT. cbn [map fst]. rewrite entries_names. constructor; [|apply unique_nodup]. intros I. apply unique_in in I. tauto. Qed.
End Read.
