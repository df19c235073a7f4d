(** Lemmas for C67: convert_fc_phases when every position difference is whole, and what the
    reported cell origins are. *)
From Verif Require Import Base Vec3 M_grid M_cell M_qpts M_dynmat M_dipole M_struct S_dynmat S_struct L_grid L_cell L_qpts L_omp L_scidx L_util L_conv.
Open Scope R_scope.

(** Membership of the supercell lattice, by computation *)
Definition zadj (s : Z3 * Z3 * Z3) : Z3 * Z3 * Z3 :=
  let '((a, b, c), (d, e, f), (g, h, i)) := s in
  ((e * i - f * h, c * h - b * i, b * f - c * e), (f * g - d * i, a * i - c * g, c * d - a * f), (d * h - e * g, b * g - a * h, a * e - b * d))%Z.
Definition latb (s : Z3 * Z3 * Z3) (v : Z3) : bool :=
  let '(x, y, z) := zmul3 v (zadj s) in let d := zdet3 s in
  (Z.eqb (x mod d) 0 && Z.eqb (y mod d) 0 && Z.eqb (z mod d) 0)%bool.
Lemma zadj_l s v : zmul3 (zmul3 v (zadj s)) s = let '(x, y, z) := v in (zdet3 s * x, zdet3 s * y, zdet3 s * z)%Z.
Proof. destruct s as [[[[? ?] ?] [[? ?] ?]] [[? ?] ?]], v as [[? ?] ?]. cbn [zmul3 zadj zdet3]. f_equal; [f_equal|]; ring. Qed.
Lemma zadj_r s v : zmul3 (zmul3 v s) (zadj s) = let '(x, y, z) := v in (zdet3 s * x, zdet3 s * y, zdet3 s * z)%Z.
Proof. destruct s as [[[[? ?] ?] [[? ?] ?]] [[? ?] ?]], v as [[? ?] ?]. cbn [zmul3 zadj zdet3]. f_equal; [f_equal|]; ring. Qed.
Lemma latb_ok s v : zdet3 s <> 0%Z -> latb s v = true <-> lat s v.
Proof.
  intros Hd. unfold latb. split.
  - destruct (zmul3 v (zadj s)) as [[x y] z] eqn:E. rewrite !andb_true_iff, !Z.eqb_eq. intros [[Hx Hy] Hz].
    apply Z.mod_divide in Hx, Hy, Hz; try exact Hd. destruct Hx as [a ->], Hy as [b ->], Hz as [c ->].
    exists (a, b, c). pose proof (zadj_l s v) as L. rewrite E in L. destruct v as [[v1 v2] v3].
    destruct s as [[[[? ?] ?] [[? ?] ?]] [[? ?] ?]]. set (D := zdet3 _) in *. cbn [zmul3] in *.
    assert (A1 := f_equal (fun p : Z3 => fst (fst p)) L). assert (A2 := f_equal (fun p : Z3 => snd (fst p)) L). assert (A3 := f_equal (fun p : Z3 => snd p) L).
    cbn [fst snd] in A1, A2, A3. clear E L.
    f_equal; [f_equal|]; apply (Z.mul_reg_l _ _ D Hd); [rewrite <- A1|rewrite <- A2|rewrite <- A3]; ring.
  - intros [m ->]. rewrite zadj_r. destruct m as [[a b] c]. rewrite !(Z.mul_comm (zdet3 s)), !Z.mod_mul by exact Hd. reflexivity.
Qed.
Lemma latb_false s v : zdet3 s <> 0%Z -> latb s v = false -> ~ lat s v.
Proof. intros Hd H L. apply (latb_ok s v Hd) in L. congruence. Qed.

(** The table of relative indices, by computation *)
Definition rel_row (org : list Z3) (sc : Z3 * Z3 * Z3) (nc : nat) : res (list nat) conv_err :=
  mapE (fun j => match hd_error (filter (fun k => latb sc (zsub3 (zsub3 (nth j org (0,0,0)%Z) (nth nc org (0,0,0)%Z)) (nth k org (0,0,0)%Z))) (seq 0 (length org))) with
                 | Some k => Ok k | None => Err NoRelIdx end) (seq 0 (length org)).
Definition rel_table (org : list Z3) (sc : Z3 * Z3 * Z3) : res (list (list nat)) conv_err := mapE (rel_row org sc) (seq 0 (length org)).

Lemma hd_filter_seq p n k : hd_error (filter p (seq 0 n)) = Some k -> first_index n (fun x => p x = true) k.
Proof.
  assert (G : forall m b, hd_error (filter p (seq b m)) = Some k -> (b <= k < b + m)%nat /\ p k = true /\ forall k', (b <= k' < k)%nat -> p k' = false).
  { induction m as [|m IH]; intros b H; cbn [seq filter] in H; [discriminate|]. destruct (p b) eqn:Eb.
    - injection H as <-. split; [lia|]. split; [exact Eb|]. intros; lia.
    - apply IH in H. destruct H as [H1 [H2 H3]]. split; [lia|]. split; [exact H2|]. intros k' Hk. destruct (Nat.eq_dec k' b) as [->|]; [exact Eb|]. apply H3. lia. }
  intros H. apply G in H. destruct H as [H1 [H2 H3]]. split; [lia|]. split; [exact H2|]. intros k' Hk E. rewrite H3 in E by lia. discriminate.
Qed.
Lemma nth_ext_nat (l l' : list nat) : length l = length l' -> (forall j, (j < length l)%nat -> nth j l 0%nat = nth j l' 0%nat) -> l = l'.
Proof. intros H1 H2. apply (nth_ext _ _ 0%nat 0%nat H1 H2). Qed.
Lemma rel_table_ok N org sc t : (0 < N)%nat -> zdet3 sc <> 0%Z -> (Z.abs (zdet3 sc) < 2 ^ 48)%Z ->
  rel_table org sc = Ok t -> supercell_relative_idx N org sc = Ok t.
Proof.
  intros HN Hd Hb Ht. pose proof (rel_idx_spec N org sc HN Hd Hb) as S. cbv zeta in S.
  destruct (mapE_nth _ _ t 0%nat [] Ht) as [Lt Nt]. rewrite seq_length in Lt, Nt.
  assert (R : forall nc, (nc < length org)%nat -> rel_row org sc nc = Ok (nth nc t [])).
  { intros nc H. specialize (Nt nc H). rewrite seq_nth in Nt by exact H. exact Nt. }
  assert (F : forall nc j, (nc < length org)%nat -> (j < length org)%nat -> length (nth nc t []) = length org /\
    first_index (length org) (fun k => same_mod_supercell sc (nth k org (0,0,0)%Z) (zsub3 (nth j org (0,0,0)%Z) (nth nc org (0,0,0)%Z))) (nth j (nth nc t []) 0%nat)).
  { intros nc j Hn Hj. specialize (R nc Hn). unfold rel_row in R. destruct (mapE_nth _ _ _ 0%nat 0%nat R) as [L1 N1]. rewrite seq_length in L1, N1.
    split; [exact L1|]. specialize (N1 j Hj). rewrite seq_nth in N1 by exact Hj. cbn [Nat.add] in N1.
    destruct (hd_error _) as [k|] eqn:E; [|discriminate]. injection N1 as <-. apply hd_filter_seq in E. destruct E as [E1 [E2 E3]].
    split; [exact E1|]. split; [apply same_lat; apply (latb_ok _ _ Hd); exact E2|].
    intros k' Hk' HS. apply (E3 k' Hk'). apply (latb_ok _ _ Hd). apply same_lat. exact HS. }
  destruct (supercell_relative_idx N org sc) as [t'|].
  - destruct S as [S1 S2]. f_equal. apply (nth_ext _ _ [] []); [congruence|]. intros nc Hnc. rewrite S1 in Hnc. destruct (S2 nc Hnc) as [S3 S4].
    destruct (F nc nc Hnc Hnc) as [L1 _]. apply nth_ext_nat; [congruence|]. intros j Hj. rewrite S3 in Hj.
    eapply first_index_det; [apply S4; exact Hj|]. apply F; assumption.
  - exfalso. destruct S as [nc [j [H1 [H2 H3]]]]. destruct (F nc j H1 H2) as [_ [F1 [F2 _]]]. exact (H3 _ F1 F2).
Qed.

(** Everything convert_fc_phases computes from the whole differences [raw] *)
Definition conv_tables (raw : list Z3) (uc_to_sc sc_to_uc : list nat) (sc : Z3 * Z3 * Z3) : res (list nat * list (list nat) * list nat * list Z3) conv_err :=
  let n_sc := length sc_to_uc in let n_uc := length uc_to_sc in
  let n_cells := Z.to_nat (Z.abs (zdet3 sc)) in
  if negb (Nat.eqb n_sc (n_cells * n_uc)) then Err InconsistentCells else
  let per_atom := map (fun o => zsub3 o (nth (nth 0 uc_to_sc 0%nat) raw (0,0,0)%Z)) raw in
  let cell_origins := map (fun s => nth s per_atom (0,0,0)%Z) (where_eq sc_to_uc 0) in
  if negb (Nat.eqb (length cell_origins) n_cells) then Err BadShape else
  match mapE (fun o => match cell_origin_of sc cell_origins o with Some k => Ok k | None => Err NoCellOrigin end) per_atom with
  | Err e => Err e
  | Ok cmap => match rel_table cell_origins sc with
               | Err e => Err e
               | Ok rel => match mapE (fun i => match first_where sc_to_uc i with Some s => Ok s | None => Err IndexErr end) (seq 0 n_uc) with
                           | Err e => Err e
                           | Ok firsts => Ok (cmap, rel, firsts, cell_origins)
                           end
               end
  end.
(** Which atom of the supercell the entry (n, i, j) comes from *)
Definition source (cmap : list nat) (rel : list (list nat)) (firsts sc_to_uc : list nat) (n_cells n i j : nat) : option nat :=
  match last_match (fun m => Nat.eqb (nth m (nth (nth (nth i firsts 0%nat) cmap 0%nat) rel []) 0%nat) n) n_cells with
  | Some m => last_match (fun s => (Nat.eqb (nth s cmap 0%nat) m && Nat.eqb (nth s sc_to_uc 0%nat) j)%bool) (length sc_to_uc)
  | None => None
  end.
Lemma whole_diff (raw : list Z3) tol : 0 <= tol -> existsb (fun v => let '(x, y, z) := v in
        (Rltb tol (frac_dist x) || Rltb tol (frac_dist y) || Rltb tol (frac_dist z))%bool) (map zvec raw) = false /\ map vrint (map zvec raw) = raw.
Proof.
  intros Ht. induction raw as [|[[x y] z] raw [I1 I2]]; [split; reflexivity|]. cbn [map existsb zvec vrint]. split.
  - rewrite I1, !frac_dist_int, (Rltb_false tol 0) by lra. reflexivity.
  - rewrite I2, !rint_IZR. reflexivity.
Qed.
Lemma convert_whole N rows fc atom_r sc_atom_r uc_to_sc sc_to_uc sc tol raw cmap rel firsts org :
  (0 < N)%nat -> zdet3 sc <> 0%Z -> (Z.abs (zdet3 sc) < 2 ^ 48)%Z -> 0 <= tol ->
  map (fun s => vsub (nth s sc_atom_r vzero) (nth (nth s sc_to_uc 0%nat) atom_r vzero)) (seq 0 (length sc_to_uc)) = map zvec raw ->
  conv_tables raw uc_to_sc sc_to_uc sc = Ok (cmap, rel, firsts, org) ->
  exists out, convert_fc_phases N rows fc atom_r sc_atom_r uc_to_sc sc_to_uc sc tol = Ok (out, org) /\
    forall n i j a b s, (a < 3)%nat -> (b < 3)%nat -> source cmap rel firsts sc_to_uc (Z.to_nat (Z.abs (zdet3 sc))) n i j = Some s ->
      out n (3 * i + a)%nat (3 * j + b)%nat = (if Nat.eqb rows (length sc_to_uc) then fc (nth i uc_to_sc 0%nat) else fc i) s a b.
Proof.
  intros HN Hd Hb Ht Hdiff HT. unfold conv_tables in HT. unfold convert_fc_phases. cbv zeta in *.
  destruct (Nat.eqb (length sc_to_uc) _); [|discriminate]. cbn [negb] in *. rewrite Hdiff.
  destruct (whole_diff raw tol Ht) as [W1 W2]. rewrite W1, W2.
  set (per := map (fun o => zsub3 o (nth (nth 0 uc_to_sc 0%nat) raw (0,0,0)%Z)) raw) in *. set (og := map (fun s => nth s per (0,0,0)%Z) _) in *.
  destruct (Nat.eqb (length og) _); [|discriminate]. cbn [negb] in *.
  destruct (mapE _ per) as [cm|]; [|discriminate]. destruct (rel_table og sc) as [rl|] eqn:Er; [|discriminate].
  rewrite (rel_table_ok N og sc rl HN Hd Hb Er).
  destruct (mapE _ (seq 0 (length uc_to_sc))) as [fs|]; [|discriminate]. assert (cm = cmap /\ rl = rel /\ fs = firsts /\ og = org) as [-> [-> [-> ->]]] by (repeat split; congruence).
  eexists. split; [reflexivity|]. intros n i j a b s Ha Hb' HS. cbv beta. rewrite !L_cgrad.div3_at, !L_cgrad.mod3_at by assumption.
  unfold source in HS. destruct (last_match _ (Z.to_nat (Z.abs (zdet3 sc)))) as [m|]; [|discriminate]. rewrite HS. destruct (Nat.eqb rows _); reflexivity.
Qed.

(** Facts about any successful conversion *)
Section Origins.
Variables (N rows : nat) (fc : nat -> nat -> nat -> nat -> R) (atom_r sc_atom_r : list V3)
  (uc_to_sc sc_to_uc : list nat) (sc : Z3 * Z3 * Z3) (tol : R) (out : nat -> nat -> nat -> R) (origins : list Z3).
Hypothesis HC : convert_fc_phases N rows fc atom_r sc_atom_r uc_to_sc sc_to_uc sc tol = Ok (out, origins).
Let diff s := vsub (nth s sc_atom_r vzero) (nth (nth s sc_to_uc 0%nat) atom_r vzero).

Lemma converted_whole s : (s < length sc_to_uc)%nat ->
  let '(x, y, z) := vsub (diff s) (zvec (cell_of atom_r sc_atom_r sc_to_uc s)) in Rabs x <= tol /\ Rabs y <= tol /\ Rabs z <= tol.
Proof.
  intros Hs. revert HC. unfold convert_fc_phases. cbv zeta. destruct (negb _); [discriminate|].
  destruct (existsb _ _) eqn:E; [discriminate|]. intros _. unfold cell_of. fold (diff s).
  assert (In (diff s) (map (fun s => vsub (nth s sc_atom_r vzero) (nth (nth s sc_to_uc 0%nat) atom_r vzero)) (seq 0 (length sc_to_uc)))).
  { apply in_map_iff. exists s. split; [reflexivity|]. apply in_seq. lia. }
  destruct (diff s) as [[x y] z]. cbn [zvec vsub].
  assert (G := E). rewrite <- not_true_iff_false, existsb_exists in G.
  assert ((Rltb tol (frac_dist x) || Rltb tol (frac_dist y) || Rltb tol (frac_dist z))%bool = false) as B.
  { destruct (_ || _)%bool eqn:E2; [|reflexivity]. exfalso. apply G. exists (x, y, z). split; [exact H|exact E2]. }
  apply orb_false_iff in B. destruct B as [B B3]. apply orb_false_iff in B. destruct B as [B1 B2].
  apply Rltb_nf in B1, B2, B3. unfold frac_dist in *. lra.
Qed.
Lemma converted_count : length origins = Z.to_nat (Z.abs (zdet3 sc)) /\ length sc_to_uc = (Z.to_nat (Z.abs (zdet3 sc)) * length uc_to_sc)%nat.
Proof.
  revert HC. unfold convert_fc_phases. cbv zeta. destruct (Nat.eqb_spec (length sc_to_uc) (Z.to_nat (Z.abs (zdet3 sc)) * length uc_to_sc)) as [E1|]; [|discriminate]. cbn [negb].
  destruct (existsb _ _); [discriminate|]. match goal with |- context [Nat.eqb (length ?l) _] => set (og := l) end.
  destruct (Nat.eqb_spec (length og) (Z.to_nat (Z.abs (zdet3 sc)))) as [E2|]; [|discriminate]. cbn [negb].
  destruct (mapE _ _); [|discriminate]. destruct (supercell_relative_idx _ _ _); [|discriminate]. destruct (mapE _ _); [|discriminate].
  intros H. apply Ok_pair in H. destruct H as [_ <-]. split; assumption.
Qed.
(** The reported origins are those of the copies of the first atom, relative to its own copy *)
Lemma converted_origins : (nth 0 uc_to_sc 0 < length sc_to_uc)%nat ->
  origins = map (fun s => zsub3 (cell_of atom_r sc_atom_r sc_to_uc s) (cell_of atom_r sc_atom_r sc_to_uc (nth 0 uc_to_sc 0%nat))) (where_eq sc_to_uc 0).
Proof.
  intros H0. revert HC. unfold convert_fc_phases. cbv zeta. destruct (negb _); [discriminate|]. destruct (existsb _ _); [discriminate|].
  match goal with |- context [Nat.eqb (length ?l) _] => set (og := l) end.
  destruct (negb _); [discriminate|]. destruct (mapE _ _); [|discriminate]. destruct (supercell_relative_idx _ _ _); [|discriminate]. destruct (mapE _ _); [|discriminate].
  intros H. apply Ok_pair in H. destruct H as [_ <-]. unfold og. apply map_ext_in. intros s Hs. apply where_eq_in in Hs. destruct Hs as [Hs _].
  set (raw := map vrint _).
  assert (Nraw : forall k, (k < length sc_to_uc)%nat -> nth k raw (0,0,0)%Z = cell_of atom_r sc_atom_r sc_to_uc k).
  { intros k Hk. unfold raw. rewrite (map_nth_indep vrint _ k vzero) by (rewrite map_length, seq_length; exact Hk).
    rewrite (map_nth_indep _ (seq 0 (length sc_to_uc)) k 0%nat) by (rewrite seq_length; exact Hk). rewrite seq_nth by exact Hk. reflexivity. }
  rewrite (map_nth_indep _ raw s (0,0,0)%Z) by (unfold raw; rewrite !map_length, seq_length; exact Hs).
  rewrite !Nraw by assumption. reflexivity.
Qed.
Lemma converted_distinct n n' : (nth 0 uc_to_sc 0 < length sc_to_uc)%nat -> distinct_copies sc atom_r sc_atom_r sc_to_uc ->
  (n < length origins)%nat -> (n' < length origins)%nat -> same_mod_supercell sc (nth n origins (0,0,0)%Z) (nth n' origins (0,0,0)%Z) -> n = n'.
Proof.
  intros H0 HD Hn Hn' HS. rewrite (converted_origins H0) in *. set (o := cell_of atom_r sc_atom_r sc_to_uc) in *. rewrite map_length in Hn, Hn'.
  rewrite !(map_nth_indep _ (where_eq sc_to_uc 0) _ 0%nat) in HS by assumption.
  pose proof (nth_In (where_eq sc_to_uc 0) 0%nat Hn) as I1. pose proof (nth_In (where_eq sc_to_uc 0) 0%nat Hn') as I2.
  apply where_eq_in in I1, I2.
  assert (E : nth n (where_eq sc_to_uc 0) 0%nat = nth n' (where_eq sc_to_uc 0) 0%nat).
  { apply HD; [apply I1|apply I2|destruct I1, I2; congruence|]. fold o. apply same_lat. apply same_lat in HS. revert HS.
    generalize (o (nth n (where_eq sc_to_uc 0) 0%nat)), (o (nth n' (where_eq sc_to_uc 0) 0%nat)), (o (nth 0 uc_to_sc 0%nat)). clear. intros p q r HS.
    match goal with |- lat _ ?y => match type of HS with lat _ ?x => replace y with x; [exact HS|] end end. unfold zsub3. clear HS. z3. }
  apply (proj1 (NoDup_nth (where_eq sc_to_uc 0) 0%nat)) in E; [exact E| |exact Hn|exact Hn'].
  unfold where_eq, where_true. apply NoDup_filter, seq_NoDup.
Qed.
End Origins.
