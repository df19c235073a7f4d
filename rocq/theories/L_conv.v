(** Lemmas for C44: convert_fc_phases. *)
From Verif Require Import Base Vec3 M_grid M_cell M_qpts M_dynmat M_dipole M_struct S_dynmat S_struct L_grid L_cell L_qpts L_omp L_scidx.
Open Scope R_scope.

Ltac z3 := repeat match goal with p : Z3 |- _ => destruct p as [[? ?] ?] end; cbn [zsub3 zadd3 zopp3] in *;
  repeat match goal with |- (_, _) = (_, _) => f_equal end; try lia.

Definition lat (sc : Z3 * Z3 * Z3) (v : Z3) : Prop := exists m, v = zmul3 m sc.
Lemma same_lat sc o r : same_mod_supercell sc o r <-> lat sc (zsub3 r o).
Proof.
  unfold same_mod_supercell, lat. split; intros [m E]; exists m.
  - rewrite E. generalize (zmul3 m sc). intros w. unfold zsub3. clear. z3.
  - rewrite <- E. unfold zsub3. clear. z3.
Qed.
Lemma zmul3_add sc m m' : zmul3 (zadd3 m m') sc = zadd3 (zmul3 m sc) (zmul3 m' sc).
Proof.
  destruct sc as [[[[? ?] ?] [[? ?] ?]] [[? ?] ?]]. destruct m as [[? ?] ?], m' as [[? ?] ?]. cbn. f_equal; [f_equal|]; ring.
Qed.
Lemma zmul3_opp sc m : zmul3 (zopp3 m) sc = zopp3 (zmul3 m sc).
Proof.
  destruct sc as [[[[? ?] ?] [[? ?] ?]] [[? ?] ?]]. destruct m as [[? ?] ?]. cbn. f_equal; [f_equal|]; ring.
Qed.
Lemma lat_add sc v w : lat sc v -> lat sc w -> lat sc (zadd3 v w).
Proof. intros [m ->] [m' ->]. exists (zadd3 m m'). symmetry. apply zmul3_add. Qed.
Lemma lat_opp sc v : lat sc v -> lat sc (zopp3 v).
Proof. intros [m ->]. exists (zopp3 m). symmetry. apply zmul3_opp. Qed.
Lemma lat_zero sc : lat sc (0,0,0)%Z.
Proof. exists (0,0,0)%Z. destruct sc as [[[[? ?] ?] [[? ?] ?]] [[? ?] ?]]. reflexivity. Qed.

Lemma Z3_eqb_ok a b : Z3_eqb a b = true <-> a = b.
Proof.
  destruct a as [[? ?] ?], b as [[? ?] ?]. cbn. rewrite !andb_true_iff, !Z.eqb_eq. split.
  - intros [[-> ->] ->]. reflexivity.
  - intros E. injection E as -> -> ->. auto.
Qed.

Lemma cell_origin_of_spec sc origins o k : cell_origin_of sc origins o = Some k ->
  (k < length origins)%nat /\ lat sc (zsub3 o (nth k origins (0,0,0)%Z)).
Proof.
  unfold cell_origin_of.
  assert (S2 : hd_error (filter (fun j =>
           existsb (fun m => Z3_eqb (zsub3 o m) (nth j origins (0,0,0)%Z)) (neighbour_supercells sc))
           (seq 0 (length origins))) = Some k ->
      (k < length origins)%nat /\ lat sc (zsub3 o (nth k origins (0,0,0)%Z))).
  { intros H. assert (Hin : In k (filter (fun j =>
           existsb (fun m => Z3_eqb (zsub3 o m) (nth j origins (0,0,0)%Z)) (neighbour_supercells sc))
           (seq 0 (length origins)))).
    { destruct (filter _ _); [discriminate|]. injection H as ->. left. reflexivity. }
    apply filter_In in Hin. destruct Hin as [H1 H2]. apply in_seq in H1. split; [lia|].
    apply existsb_exists in H2. destruct H2 as [m [Hm E]]. apply Z3_eqb_ok in E.
    unfold neighbour_supercells in Hm. destruct (get_all_origins _ _ _) as [l|]; [|contradiction].
    apply in_map_iff in Hm. destruct Hm as [m' [<- _]]. exists m'.
    rewrite <- E. generalize (zmul3 m' sc). intros w. unfold zsub3. clear. z3. }
  destruct (filter (fun k => Z3_eqb o (nth k origins (0,0,0)%Z)) (seq 0 (length origins))) as [|k0 [|? ?]] eqn:Ef;
    try exact S2.
  intros H. injection H as ->.
  assert (Hin : In k (filter (fun k => Z3_eqb o (nth k origins (0,0,0)%Z)) (seq 0 (length origins)))) by (rewrite Ef; left; reflexivity).
  apply filter_In in Hin. destruct Hin as [H1 H2]. apply in_seq in H1. split; [lia|].
  apply Z3_eqb_ok in H2. rewrite <- H2. replace (zsub3 o o) with (0,0,0)%Z; [apply lat_zero|].
  unfold zsub3. clear. z3.
Qed.

Lemma last_match_spec p n s : (s < n)%nat -> p s = true -> (forall s', (s' < n)%nat -> p s' = true -> s' = s) ->
  last_match p n = Some s.
Proof.
  intros Hs Hp Hu. unfold last_match.
  assert (Hin : In s (filter p (rev (seq 0 n)))).
  { apply filter_In. split; [apply in_rev; rewrite rev_involutive; apply in_seq; lia|exact Hp]. }
  destruct (filter p (rev (seq 0 n))) as [|s' l] eqn:E; [contradiction|]. cbn. f_equal.
  assert (H : In s' (filter p (rev (seq 0 n)))) by (rewrite E; left; reflexivity).
  apply filter_In in H. destruct H as [H1 H2]. apply in_rev in H1. apply in_seq in H1. apply Hu; [lia|exact H2].
Qed.

Lemma mapE_nth {A B E} (f : A -> res B E) l t da db : mapE f l = Ok t ->
  length t = length l /\ forall k, (k < length l)%nat -> f (nth k l da) = Ok (nth k t db).
Proof.
  revert t. induction l as [|a l IH]; intros t H; cbn in H.
  - injection H as <-. split; [reflexivity|cbn; intros; lia].
  - destruct (f a) as [y|] eqn:Ea; [|discriminate]. destruct (mapE f l) as [t'|]; [|discriminate].
    injection H as <-. destruct (IH t' eq_refl) as [I1 I2]. cbn. split; [lia|].
    intros [|k] Hk; [exact Ea|]. apply I2. lia.
Qed.

Lemma where_eq_in l i k : In k (where_eq l i) -> (k < length l)%nat /\ nth k l 0%nat = i.
Proof.
  unfold where_eq, where_true. intros H. apply filter_In in H. rewrite map_length, in_seq in H. destruct H as [H1 H2].
  split; [lia|]. rewrite (map_nth_indep (fun x => Nat.eqb x i) l k 0%nat) in H2 by lia. apply Nat.eqb_eq in H2. exact H2.
Qed.

Lemma Ok_pair {A B E} (x x' : A) (y y' : B) : @Ok _ E (x, y) = Ok (x', y') -> x = x' /\ y = y'.
Proof. intros H. injection H as -> ->. auto. Qed.

Section Conv.
Variables (N rows : nat) (fc : nat -> nat -> nat -> nat -> R) (atom_r sc_atom_r : list V3)
  (uc_to_sc sc_to_uc : list nat) (sc : Z3 * Z3 * Z3) (tol : R).
Let n_sc := length sc_to_uc.
Let n_uc := length uc_to_sc.
Let copy i := nth i uc_to_sc 0%nat.
Let o s := cell_of atom_r sc_atom_r sc_to_uc s.
Hypothesis HN : (0 < N)%nat.
Hypothesis Hdet : zdet3 sc <> 0%Z.
Hypothesis Hbig : (Z.abs (zdet3 sc) < 2 ^ 48)%Z.
Hypothesis Hdist : distinct_copies sc atom_r sc_atom_r sc_to_uc.
Hypothesis Hcopy : forall i, (i < n_uc)%nat -> (copy i < n_sc)%nat.

Theorem convert_fc_phases_spec out origins :
  convert_fc_phases N rows fc atom_r sc_atom_r uc_to_sc sc_to_uc sc tol = Ok (out, origins) ->
  (forall i, (i < n_uc)%nat -> first_where sc_to_uc i = Some (copy i)) ->
  forall i s a b, (i < n_uc)%nat -> (s < n_sc)%nat -> (a < 3)%nat -> (b < 3)%nat ->
  exists n, (n < length origins)%nat /\
    same_mod_supercell sc (nth n origins (0,0,0)%Z) (zsub3 (o s) (o (copy i))) /\
    out n (3 * i + a)%nat (3 * nth s sc_to_uc 0%nat + b)%nat
    = (if Nat.eqb rows n_sc then fc (copy i) else fc i) s a b.
Proof.
  unfold convert_fc_phases. fold n_sc n_uc. cbv zeta.
  destruct (Nat.eqb_spec n_sc (Z.to_nat (Z.abs (zdet3 sc)) * n_uc)) as [Hn|]; [|discriminate]. cbn [negb].
  set (n_cells := Z.to_nat (Z.abs (zdet3 sc))) in *.
  set (diff := map _ (seq 0 n_sc)). destruct (existsb _ diff); [discriminate|].
  set (raw := map vrint diff). set (per := map (fun x => zsub3 x (nth (nth 0 uc_to_sc 0%nat) raw (0,0,0)%Z)) raw).
  set (org := map (fun s => nth s per (0,0,0)%Z) (where_eq sc_to_uc 0)).
  destruct (Nat.eqb_spec (length org) n_cells) as [Hlo|]; [|discriminate]. cbn [negb].
  destruct (mapE _ per) as [cmap|] eqn:Ecm; [|discriminate].
  destruct (supercell_relative_idx N org sc) as [rel|] eqn:Erel; [|discriminate].
  destruct (mapE _ (seq 0 n_uc)) as [firsts|] eqn:Efi; [|discriminate].
  intros HE. apply Ok_pair in HE. destruct HE as [Eout Eorg]. subst origins. intros Hfirst i s a b Hi Hs Ha Hb.
  assert (Lraw : length raw = n_sc) by (unfold raw, diff; rewrite !map_length, seq_length; reflexivity).
  assert (Lper : length per = n_sc) by (unfold per; rewrite map_length; exact Lraw).
  assert (Nraw : forall k, (k < n_sc)%nat -> nth k raw (0,0,0)%Z = o k).
  { intros k Hk. unfold raw. rewrite (map_nth_indep vrint diff k vzero) by (unfold diff; rewrite map_length, seq_length; exact Hk).
    unfold diff. rewrite (map_nth_indep _ (seq 0 n_sc) k 0%nat) by (rewrite seq_length; exact Hk).
    rewrite seq_nth by exact Hk. reflexivity. }
  set (o0 := nth (nth 0 uc_to_sc 0%nat) raw (0,0,0)%Z) in *.
  assert (Nper : forall k, (k < n_sc)%nat -> nth k per (0,0,0)%Z = zsub3 (o k) o0).
  { intros k Hk. unfold per. rewrite (map_nth_indep _ raw k (0,0,0)%Z) by lia. rewrite Nraw by exact Hk. reflexivity. }
  (* origins of different cells are different modulo the supercell *)
  assert (Norg : forall k, (k < length org)%nat -> exists s, (s < n_sc)%nat /\ nth s sc_to_uc 0%nat = 0%nat /\
      nth k (where_eq sc_to_uc 0) 0%nat = s /\ nth k org (0,0,0)%Z = zsub3 (o s) o0).
  { intros k Hk. unfold org in *. rewrite map_length in Hk. exists (nth k (where_eq sc_to_uc 0) 0%nat).
    assert (Hin : In (nth k (where_eq sc_to_uc 0) 0%nat) (where_eq sc_to_uc 0)) by (apply nth_In; exact Hk).
    apply where_eq_in in Hin. destruct Hin as [H1 H2].
    split; [exact H1|split; [exact H2|split; [reflexivity|]]].
    rewrite (map_nth_indep (fun s => nth s per (0,0,0)%Z) _ k 0%nat) by exact Hk. apply Nper. exact H1. }
  assert (Hnd : NoDup (where_eq sc_to_uc 0)).
  { unfold where_eq, where_true. apply NoDup_filter, seq_NoDup. }
  assert (Dorg : forall k k', (k < length org)%nat -> (k' < length org)%nat ->
     lat sc (zsub3 (nth k' org (0,0,0)%Z) (nth k org (0,0,0)%Z)) -> k = k').
  { intros k k' Hk Hk' HL. destruct (Norg k Hk) as [x [X1 [X2 [X3 X4]]]]. destruct (Norg k' Hk') as [x' [Y1 [Y2 [Y3 Y4]]]].
    assert (x = x').
    { apply Hdist; [exact X1|exact Y1|congruence|]. apply same_lat. rewrite X4, Y4 in HL.
      replace (zsub3 (cell_of atom_r sc_atom_r sc_to_uc x') (cell_of atom_r sc_atom_r sc_to_uc x))
        with (zsub3 (zsub3 (o x') o0) (zsub3 (o x) o0)); [exact HL|].
      unfold o. generalize (cell_of atom_r sc_atom_r sc_to_uc x'), (cell_of atom_r sc_atom_r sc_to_uc x), o0. clear. intros. unfold zsub3. z3. }
    subst x'. apply (proj1 (NoDup_nth (where_eq sc_to_uc 0) 0%nat) Hnd); [| |congruence];
      unfold org in *; rewrite map_length in *; assumption. }
  (* cell of each atom *)
  destruct (mapE_nth _ per cmap (0,0,0)%Z 0%nat Ecm) as [Lcm Ncm].
  assert (Hcm : forall k, (k < n_sc)%nat -> (nth k cmap 0 < length org)%nat /\
     lat sc (zsub3 (zsub3 (o k) o0) (nth (nth k cmap 0%nat) org (0,0,0)%Z))).
  { intros k Hk. specialize (Ncm k ltac:(lia)). rewrite Nper in Ncm by exact Hk.
    destruct (cell_origin_of sc org (zsub3 (o k) o0)) as [c|] eqn:Ec; [|discriminate]. injection Ncm as <-.
    apply cell_origin_of_spec. exact Ec. }
  destruct (mapE_nth _ (seq 0 n_uc) firsts 0%nat 0%nat Efi) as [_ Nfi].
  assert (Hfi : nth i firsts 0%nat = copy i).
  { specialize (Nfi i ltac:(rewrite seq_length; exact Hi)). rewrite seq_nth in Nfi by exact Hi. cbn [Nat.add] in Nfi.
    rewrite Hfirst in Nfi by exact Hi. injection Nfi as ->. reflexivity. }
  (* relative index *)
  pose proof (rel_idx_spec N org sc HN Hdet Hbig) as SR. cbv zeta in SR. rewrite Erel in SR. destruct SR as [SR1 SR2].
  set (ci := nth (copy i) cmap 0%nat). destruct (Hcm (copy i) (Hcopy i Hi)) as [C1 C2]. fold ci in C1, C2.
  destruct (Hcm s Hs) as [D1 D2]. set (cs := nth s cmap 0%nat) in *.
  destruct (SR2 ci C1) as [SR3 SR4]. destruct (SR4 cs D1) as [F1 [F2 F3]].
  set (r := nth ci rel []) in *. set (n := nth cs r 0%nat) in *.
  exists n. split; [exact F1|]. apply same_lat in F2.
  assert (Hgoal : lat sc (zsub3 (zsub3 (o s) (o (copy i))) (nth n org (0,0,0)%Z))).
  { pose proof (lat_add _ _ _ (lat_add _ _ _ D2 (lat_opp _ _ C2)) F2) as HL. revert HL.
    generalize (o s), (o (copy i)), (nth n org (0,0,0)%Z), o0, (nth cs org (0,0,0)%Z), (nth ci org (0,0,0)%Z). clear.
    intros p1 p2 p3 p4 p5 p6 HL. match goal with |- lat _ ?y => match type of HL with lat _ ?x => replace y with x; [exact HL|] end end.
    unfold zsub3. clear. z3. }
  split; [apply same_lat; exact Hgoal|].
  rewrite <- Eout. cbv beta. rewrite !L_cgrad.div3_at, !L_cgrad.mod3_at by assumption. rewrite Hfi. fold ci r.
  rewrite (last_match_spec _ n_cells cs).
  - rewrite (last_match_spec _ n_sc s).
    + destruct (Nat.eqb rows n_sc); reflexivity.
    + exact Hs.
    + fold cs. rewrite !Nat.eqb_refl. reflexivity.
    + intros s' Hs' Hp. apply andb_true_iff in Hp. destruct Hp as [P1 P2]. apply Nat.eqb_eq in P1, P2.
      destruct (Hcm s' Hs') as [_ E2]. rewrite P1 in E2.
      apply Hdist; [exact Hs'|exact Hs|exact P2|]. apply same_lat.
      pose proof (lat_add _ _ _ D2 (lat_opp _ _ E2)) as HL. revert HL. unfold o.
      generalize (cell_of atom_r sc_atom_r sc_to_uc s), (cell_of atom_r sc_atom_r sc_to_uc s'), (nth cs org (0,0,0)%Z), o0. clear.
      intros p1 p2 p3 p4 HL. match goal with |- lat _ ?y => match type of HL with lat _ ?x => replace y with x; [exact HL|] end end.
      unfold zsub3. clear. z3.
  - rewrite <- Hlo. exact D1.
  - fold n. apply Nat.eqb_refl.
  - intros m Hm Hp. apply Nat.eqb_eq in Hp. rewrite <- Hlo in Hm. apply Dorg; [exact Hm|exact D1|].
    destruct (SR4 m Hm) as [_ [G2 _]]. apply same_lat in G2. rewrite Hp in G2. 
    pose proof (lat_add _ _ _ F2 (lat_opp _ _ G2)) as HL. fold n in G2. revert HL.
    generalize (nth n org (0,0,0)%Z), (nth cs org (0,0,0)%Z), (nth ci org (0,0,0)%Z), (nth m org (0,0,0)%Z). clear.
    intros p1 p2 p3 p4 HL. match goal with |- lat _ ?y => match type of HL with lat _ ?x => replace y with x; [exact HL|] end end.
    unfold zsub3. clear. z3.
Qed.
End Conv.

(** ** Two cells along x with one atom, for the examples and the refutation. *)
Lemma rint_IZR k : rint (IZR k) = k.
Proof.
  pose proof (rint_dist (IZR k)) as H. rewrite <- minus_IZR, <- abs_IZR in H.
  assert (Z.abs (k - rint (IZR k)) < 1)%Z by (apply lt_IZR; lra). lia.
Qed.

Definition pair_sc : Z3 * Z3 * Z3 := ((2,0,0),(0,1,0),(0,0,1))%Z.
Definition pair_pos : list V3 := [vzero; (1,0,0)].
Definition pair_org (u : nat) : list Z3 :=
  match u with O => [(0,0,0); (1,0,0)]%Z | _ => [(-1,0,0); (0,0,0)]%Z end.

Lemma not_same_half (a b : Z) : (Z.odd (b - a) = true)%Z -> ~ same_mod_supercell pair_sc (a,0,0)%Z (b,0,0)%Z.
Proof.
  intros Ho [[[m1 m2] m3] E]. assert (E1 := f_equal (fun p : Z3 => fst (fst p)) E). cbn [fst pair_sc zmul3 zadd3] in E1.
  replace (b - a)%Z with (2 * m1)%Z in Ho by lia. rewrite Z.odd_mul in Ho. discriminate.
Qed.
Lemma same_half (a b : Z) : (Z.even (b - a) = true)%Z -> same_mod_supercell pair_sc (a,0,0)%Z (b,0,0)%Z.
Proof.
  intros He. apply Z.even_spec in He. destruct He as [m Hm]. exists (m, 0, 0)%Z.
  cbn [pair_sc zmul3 zadd3]. f_equal; [f_equal|]; lia.
Qed.

Definition pair_rel (u : nat) : list (list nat) :=
  match u with O => [[0;1];[1;0]] | _ => [[1;0];[0;1]] end%nat.

Lemma first_index_det n P k k' : first_index n P k -> first_index n P k' -> k = k'.
Proof.
  intros [_ [H1 H2]] [_ [H3 H4]]. destruct (lt_eq_lt_dec k k') as [[L| -> ]|L]; [|reflexivity|].
  - contradiction (H4 k L H1).
  - contradiction (H2 k' L H3).
Qed.

Lemma list2 {A} (l : list A) d : length l = 2%nat -> l = [nth 0 l d; nth 1 l d].
Proof. destruct l as [|a [|b [|c l]]]; cbn; intros H; try discriminate. reflexivity. Qed.

Lemma pair_rel_ok u : (u < 2)%nat -> supercell_relative_idx 100 (pair_org u) pair_sc = Ok (pair_rel u).
Proof.
  intros Hu. assert (E : zdet3 pair_sc = 2%Z) by reflexivity.
  pose proof (rel_idx_spec 100 (pair_org u) pair_sc ltac:(lia) ltac:(lia) ltac:(rewrite E; vm_compute; reflexivity)) as S.
  cbv zeta in S. destruct (supercell_relative_idx 100 (pair_org u) pair_sc) as [t|].
  - destruct S as [S1 S2]. f_equal. rewrite (list2 t []) by (rewrite S1; destruct u as [|[|]]; [reflexivity..|lia]).
    assert (K : forall nc j, (nc < 2)%nat -> (j < 2)%nat -> nth j (nth nc t []) 0%nat = nth j (nth nc (pair_rel u) []) 0%nat).
    { intros nc j Hnc Hj. assert (L2 : length (pair_org u) = 2%nat) by (destruct u as [|[|]]; [reflexivity..|lia]).
      rewrite L2 in *. destruct (S2 nc Hnc) as [_ S3]. specialize (S3 j Hj).
      eapply first_index_det; [exact S3|].
      destruct u as [|[|]]; [| |lia]; (destruct nc as [|[|]]; [| |lia]); (destruct j as [|[|]]; [| |lia]);
        cbn [nth pair_rel pair_org]; unfold first_index; cbn [nth];
        match goal with |- context [zsub3 ?a ?b] => let v := eval vm_compute in (zsub3 a b) in change (zsub3 a b) with v end;
        (split; [lia|]; split; [apply same_half; reflexivity|]);
        intros k' Hk'; try lia; (assert (k' = 0)%nat as -> by lia); cbn [nth]; apply not_same_half; reflexivity. }
    assert (L2 : length (pair_org u) = 2%nat) by (destruct u as [|[|]]; [reflexivity..|lia]).
    rewrite L2 in S2. destruct (S2 0%nat ltac:(lia)) as [A1 _]. destruct (S2 1%nat ltac:(lia)) as [A2 _].
    rewrite (list2 (nth 0 t []) 0%nat A1), (list2 (nth 1 t []) 0%nat A2). rewrite !K by lia.
    destruct u as [|[|]]; [reflexivity..|lia].
  - exfalso. destruct S as [nc [j [H1 [H2 H3]]]].
    destruct u as [|[|]]; [| |lia]; cbn [length pair_org] in *; (destruct nc as [|[|]]; [| |lia]); (destruct j as [|[|]]; [| |lia]);
      pose proof (H3 0%nat ltac:(lia)) as Z0; pose proof (H3 1%nat ltac:(lia)) as Z1;
      cbn [nth] in Z0, Z1;
      match goal with H : context [zsub3 ?a ?b] |- _ => let v := eval vm_compute in (zsub3 a b) in change (zsub3 a b) with v in * end;
      first [apply Z0; apply same_half; reflexivity | apply Z1; apply same_half; reflexivity].
Qed.

Lemma pair_convert fc u tol : (u < 2)%nat -> 0 < tol -> exists out,
  convert_fc_phases 100 1 fc [vzero] pair_pos [u] [0;0]%nat pair_sc tol = Ok (out, pair_org u) /\
  forall a b, (a < 3)%nat -> (b < 3)%nat -> out 0%nat a b = fc 0%nat (nth 0 (nth 0 (pair_rel u) []) 0%nat) a b /\
    out 1%nat a b = fc 0%nat (nth 1 (nth 0 (pair_rel u) []) 0%nat) a b.
Proof.
  intros Hu Ht. unfold convert_fc_phases. cbn [length].
  change (Z.to_nat (Z.abs (zdet3 pair_sc))) with 2%nat. cbn [Nat.mul Nat.add Nat.eqb negb]. cbv zeta.
  set (diff := map _ (seq 0 2)). 
  assert (Ed : diff = [(IZR 0, IZR 0, IZR 0); (IZR 1, IZR 0, IZR 0)]).
  { unfold diff. cbn [seq map nth pair_pos]. unfold vzero. cbn [vsub]. repeat f_equal; lra. }
  rewrite Ed. clear diff Ed.
  match goal with |- context [existsb ?f ?l] => replace (existsb f l) with false end.
  2:{ symmetry. cbn [existsb]. rewrite !frac_dist_int. rewrite (Rltb_false tol 0) by lra. reflexivity. }
  cbn [map]. unfold vrint. rewrite !rint_IZR.
  match goal with |- context [map ?f (where_eq [0%nat; 0%nat] 0)] =>
    replace (map f (where_eq [0%nat; 0%nat] 0)) with (pair_org u) by (destruct u as [|[|]]; [reflexivity..|lia]) end.
  replace (Nat.eqb (length (pair_org u)) 2) with true by (destruct u as [|[|]]; [reflexivity..|lia]). cbn [negb].
  match goal with |- context [mapE ?f ?l] =>
    replace (mapE f l) with (@Ok (list nat) conv_err [0;1]%nat) by (destruct u as [|[|]]; [vm_compute; reflexivity..|lia]) end.
  rewrite pair_rel_ok by exact Hu.
  match goal with |- context [mapE ?f ?l] => replace (mapE f l) with (@Ok (list nat) conv_err [0]%nat) by reflexivity end.
  eexists. split; [reflexivity|]. intros a b Ha Hb. cbv beta.
  destruct a as [|[|[|a]]]; [| | |lia]; (destruct b as [|[|[|b]]]; [| | |lia]); destruct u as [|[|]]; try lia; split; reflexivity.
Qed.

Lemma pair_distinct : distinct_copies pair_sc [vzero] pair_pos [0;0]%nat.
Proof.
  assert (C0 : cell_of [vzero] pair_pos [0;0]%nat 0 = (0,0,0)%Z).
  { unfold cell_of. cbn [nth pair_pos vsub vzero]. unfold vzero. cbn [vsub]. replace (0 - 0) with (IZR 0) by lra. rewrite !rint_IZR. reflexivity. }
  assert (C1 : cell_of [vzero] pair_pos [0;0]%nat 1 = (1,0,0)%Z).
  { unfold cell_of. cbn [nth pair_pos]. unfold vzero. cbn [vsub]. replace (0 - 0) with (IZR 0) by lra.
    replace (1 - 0) with (IZR 1) by lra. rewrite !rint_IZR. reflexivity. }
  intros s s' Hs Hs' _ H. cbn [length] in *.
  destruct s as [|[|s]]; [| |lia]; (destruct s' as [|[|s']]; [| |lia]); try reflexivity; exfalso; rewrite C0, C1 in H;
    revert H; apply not_same_half; reflexivity.
Qed.

Theorem other_copy_refuted : exists (fc : nat -> nat -> nat -> nat -> R) atom_r sc_atom_r uc_to_sc sc_to_uc sc out origins n,
  distinct_copies sc atom_r sc_atom_r sc_to_uc /\
  nth (nth 0 uc_to_sc 0%nat) sc_to_uc 0%nat = 0%nat /\
  convert_fc_phases 100 1 fc atom_r sc_atom_r uc_to_sc sc_to_uc sc (1/100000) = Ok (out, origins) /\
  nth_error origins n = Some (0,0,0)%Z /\
  (forall n', (n' < length origins)%nat -> same_mod_supercell sc (nth n' origins (0,0,0)%Z) (0,0,0)%Z -> n' = n) /\
  out n 0%nat 0%nat <> fc 0%nat (nth 0 uc_to_sc 0%nat) 0%nat 0%nat.
Proof.
  set (fc := fun (_ s _ _ : nat) => if Nat.eqb s 1 then 1 else 0).
  destruct (pair_convert fc 1 (1/100000) ltac:(lia) ltac:(lra)) as [out [E H]].
  exists fc, [vzero], pair_pos, [1]%nat, [0;0]%nat, pair_sc, out, (pair_org 1), 1%nat.
  split; [apply pair_distinct|]. split; [reflexivity|]. split; [exact E|]. split; [reflexivity|]. split.
  - intros [|[|n']] Hn HS; [|reflexivity|cbn in Hn; lia]. exfalso. cbn [nth pair_org] in HS. revert HS. apply not_same_half. reflexivity.
  - destruct (H 0%nat 0%nat ltac:(lia) ltac:(lia)) as [_ ->]. unfold fc. cbn [nth pair_rel Nat.eqb]. lra.
Qed.

Lemma rel_idx_chunk N N' origins sc :
  (0 < N)%nat -> (0 < N')%nat -> zdet3 sc <> 0%Z -> (Z.abs (zdet3 sc) < 2 ^ 48)%Z ->
  supercell_relative_idx N origins sc = supercell_relative_idx N' origins sc.
Proof.
  intros HN HN' Hd Hb. pose proof (rel_idx_spec N origins sc HN Hd Hb) as S. pose proof (rel_idx_spec N' origins sc HN' Hd Hb) as S'.
  cbv zeta in S, S'.
  destruct (supercell_relative_idx N origins sc) as [t|[]], (supercell_relative_idx N' origins sc) as [t'|[]]; try reflexivity.
  - destruct S as [L1 S], S' as [L1' S']. f_equal. apply (nth_ext _ _ [] []); [congruence|]. intros nc Hnc. rewrite L1 in Hnc.
    destruct (S nc Hnc) as [L2 S2], (S' nc Hnc) as [L2' S2']. apply (nth_ext _ _ 0%nat 0%nat); [congruence|].
    intros j Hj. rewrite L2 in Hj. eapply first_index_det; [apply S2; exact Hj|apply S2'; exact Hj].
  - exfalso. destruct S' as [nc [j [H1 [H2 H3]]]]. destruct S as [_ S]. destruct (S nc H1) as [_ S2].
    destruct (S2 j H2) as [K1 [K2 _]]. exact (H3 _ K1 K2).
  - exfalso. destruct S as [nc [j [H1 [H2 H3]]]]. destruct S' as [_ S']. destruct (S' nc H1) as [_ S2].
    destruct (S2 j H2) as [K1 [K2 _]]. exact (H3 _ K1 K2).
Qed.

(** Example for C43: inversion in a cubic cell with two different atoms. *)
From Coq Require Import String.
From Verif Require Import L_struct.
Definition cube : M3 := ((1,0,0),(0,1,0),(0,0,1)).
Definition inversion_op : M3 * V3 := (((-1,0,0),(0,-1,0),(0,0,-1)), vzero).
Lemma cube_small : small_tolerance cube (1/10).
Proof.
  pose proof PI_RGT_0 as HP.
  assert (E : reciprocal_cell cube = ((2*PI,0,0),(0,2*PI,0),(0,0,2*PI))).
  { exact L_nac.unit_recip. }
  intros i Hi. rewrite E. unfold norm.
  replace (dot (row (2 * PI, 0, 0, (0, 2 * PI, 0), (0, 0, 2 * PI)) i) (row (2 * PI, 0, 0, (0, 2 * PI, 0), (0, 0, 2 * PI)) i))
    with ((2 * PI) * (2 * PI)) by (destruct i as [|[|[|i]]]; [cbn; ring..|lia]).
  rewrite sqrt_square by lra. lra.
Qed.
Lemma cube_inversion : exists E, symmetry_equivalent_atoms cube [vzero; (1/2,0,0)] ["A"%string; "B"%string]
  (Some [inversion_op]) (1/10) = Ok E.
Proof.
  apply symm_equiv_exact; [cbn; lra|apply cube_small|].
  intros i s Hi Hs. cbn in Hi, Hs. assert (s = 0)%nat as -> by lia.
  assert (N0 : norm (0,0,0) < 1/10) by (unfold norm; cbn; replace (0*0+0*0+0*0) with 0 by ring; rewrite sqrt_0; lra).
  exists i. split.
  - unfold near_atoms. cbn [length]. split; [exact Hi|]. split; [reflexivity|].
    destruct i as [|[|i]]; [| |lia].
    + exists (0,0,0)%Z. match goal with |- norm ?v < _ => replace v with (0,0,0) end; [exact N0|].
      cbn. unfold vzero. repeat f_equal; ring.
    + exists (-1,0,0)%Z. match goal with |- norm ?v < _ => replace v with (0,0,0) end; [exact N0|].
      cbn. unfold vzero. repeat f_equal; field.
  - intros j [Hj [Ht _]]. cbn in Hj. destruct i as [|[|i]]; [| |lia]; (destruct j as [|[|j]]; [| |lia]); cbn in Ht; try reflexivity; discriminate.
Qed.
