(** Lemmas for C44. *)
From Verif Require Import Base Vec3 M_grid M_cell M_qpts M_dynmat M_dipole M_struct S_dynmat S_struct L_cell L_qpts.
Open Scope R_scope.

(** ** argmin *)
Lemma argmin_from_spec : forall l pre best bi,
  (bi < length pre)%nat -> nth bi pre 0 = best ->
  (forall i, (i < length pre)%nat -> best <= nth i pre 0) -> (forall i, (i < bi)%nat -> best < nth i pre 0) ->
  let k := argmin_from best bi (length pre) l in
  let f := pre ++ l in
  (k < length f)%nat /\ (forall i, (i < length f)%nat -> nth k f 0 <= nth i f 0) /\
  (forall i, (i < k)%nat -> nth k f 0 < nth i f 0).
Proof.
  induction l as [|x l IH]; intros pre best bi H1 H2 H3 H4; cbn [argmin_from].
  - cbv zeta. rewrite app_nil_r, H2. auto.
  - destruct (Rlt_dec x best) as [Hlt|Hge].
    + specialize (IH (pre ++ [x]) x (length pre)). rewrite app_length in IH. cbn [length] in IH.
      rewrite <- app_assoc, Nat.add_1_r in IH. cbn [app] in IH. apply IH.
      * lia.
      * rewrite app_nth2, Nat.sub_diag by lia. reflexivity.
      * intros i Hi. destruct (Nat.eq_dec i (length pre)) as [->|Hne].
        -- rewrite app_nth2, Nat.sub_diag by lia. cbn. lra.
        -- rewrite app_nth1 by lia. specialize (H3 i ltac:(lia)). lra.
      * intros i Hi. rewrite app_nth1 by lia. specialize (H3 i ltac:(lia)). lra.
    + specialize (IH (pre ++ [x]) best bi). rewrite app_length in IH. cbn [length] in IH.
      rewrite <- app_assoc, Nat.add_1_r in IH. cbn [app] in IH. apply IH.
      * lia.
      * rewrite app_nth1 by lia. exact H2.
      * intros i Hi. destruct (Nat.eq_dec i (length pre)) as [->|Hne].
        -- rewrite app_nth2, Nat.sub_diag by lia. cbn. lra.
        -- rewrite app_nth1 by lia. apply H3. lia.
      * intros i Hi. rewrite app_nth1 by lia. apply H4. exact Hi.
Qed.
Lemma argmin_spec l : l <> [] -> let k := argmin l in
  (k < length l)%nat /\ (forall i, (i < length l)%nat -> nth k l 0 <= nth i l 0) /\
  (forall i, (i < k)%nat -> nth k l 0 < nth i l 0).
Proof.
  destruct l as [|x l]; intros H; [congruence|].
  apply (argmin_from_spec l [x] x 0); cbn; try lia; try reflexivity.
  intros [|i] Hi; [cbn; lra|lia].
Qed.

(** ** the chunk loop *)
Section Chunks.
Variables (N : nat) (cosc : list V3) (vs : list V3).
Hypothesis HN : (0 < N)%nat.
Hypothesis Hlen : length vs = length cosc.
Let n := length cosc.
Let d (j k : nat) : R := frac_sum (vsub (nth j vs vzero) (nth k cosc vzero)).

Definition row_ok (hi j : nat) (st : option R * nat) : Prop :=
  match hi with
  | O => st = (None, 0%nat)
  | _ => exists m, fst st = Some m /\ (snd st < hi)%nat /\ d j (snd st) = m /\
      (forall k, (k < hi)%nat -> m <= d j k) /\ (forall k, (k < snd st)%nat -> m < d j k)
  end.

Lemma nth_firstn' {A} (l : list A) m k dflt : (k < m)%nat -> nth k (firstn m l) dflt = nth k l dflt.
Proof.
  revert m k. induction l as [|x l IH]; intros m k H; [rewrite firstn_nil; reflexivity|].
  destruct m as [|m]; [lia|]. destruct k as [|k]; [reflexivity|]. cbn. apply IH. lia.
Qed.
Lemma nth_skipn' {A} (l : list A) m k dflt : nth k (skipn m l) dflt = nth (m + k) l dflt.
Proof.
  revert m. induction l as [|x l IH]; intros m; [rewrite skipn_nil; destruct k, m; reflexivity|].
  destruct m as [|m]; [reflexivity|]. cbn. apply IH.
Qed.

Lemma chunk_row_ok lo hi j st : (lo < hi)%nat -> (hi <= n)%nat -> row_ok lo j st ->
  row_ok hi j (chunk_row cosc lo hi (nth j vs vzero) st).
Proof.
  intros H1 H2 Hst. unfold chunk_row. cbv zeta.
  set (ds := map (fun c => frac_sum (vsub (nth j vs vzero) c)) (firstn (hi - lo) (skipn lo cosc))).
  assert (Lds : length ds = (hi - lo)%nat).
  { unfold ds. rewrite map_length, firstn_length, skipn_length. fold n. lia. }
  assert (Nds : forall k, (k < hi - lo)%nat -> nth k ds 0 = d j (lo + k)%nat).
  { intros k Hk. unfold ds, d.
    rewrite (nth_indep _ 0 (frac_sum (vsub (nth j vs vzero) vzero))).
    - rewrite (map_nth (fun c => frac_sum (vsub (nth j vs vzero) c))).
      rewrite nth_firstn' by exact Hk. rewrite nth_skipn'. reflexivity.
    - fold ds. rewrite Lds. exact Hk. }
  destruct (argmin_spec ds) as [A1 [A2 A3]]; [intros E; rewrite E in Lds; cbn in Lds; lia|].
  set (k := argmin ds) in *. rewrite Lds in A1, A2.
  destruct hi as [|hi']; [lia|]. cbn [row_ok]. set (hi := S hi') in *.
  assert (A2' : forall x, (lo <= x < hi)%nat -> nth k ds 0 <= d j x).
  { intros x Hx. replace x with (lo + (x - lo))%nat by lia. rewrite <- Nds by lia. apply A2. lia. }
  assert (A3' : forall x, (lo <= x < lo + k)%nat -> nth k ds 0 < d j x).
  { intros x Hx. replace x with (lo + (x - lo))%nat by lia. rewrite <- Nds by lia. apply A3. lia. }
  destruct lo as [|lo'].
  - cbn in Hst. subst st. cbn [fst]. exists (nth k ds 0). cbn [fst snd].
    split; [reflexivity|]. split; [lia|]. split; [rewrite Nds by exact A1; reflexivity|].
    split; [intros x Hx; apply A2'; lia|intros x Hx; apply A3'; lia].
  - cbn [row_ok] in Hst. set (lo := S lo') in *. destruct Hst as [m [S1 [S2 [S3 [S4 S5]]]]]. rewrite S1.
    destruct (Rltb_spec (nth k ds 0) m) as [Hlt|Hge].
    + exists (nth k ds 0). cbn [fst snd]. split; [reflexivity|]. split; [lia|].
      split; [rewrite Nds by exact A1; reflexivity|]. split.
      * intros x Hx. destruct (Nat.lt_ge_cases x lo) as [L|L]; [specialize (S4 x L); lra|apply A2'; lia].
      * intros x Hx. destruct (Nat.lt_ge_cases x lo) as [L|L]; [specialize (S4 x L); lra|apply A3'; lia].
    + exists m. split; [exact S1|]. split; [lia|]. split; [exact S3|]. split; [|exact S5].
      intros x Hx. destruct (Nat.lt_ge_cases x lo) as [L|L]; [apply S4; exact L|]. specialize (A2' x ltac:(lia)). lra.
Qed.

Definition all_ok (hi : nat) (st : list (option R * nat)) : Prop :=
  length st = n /\ forall j, (j < n)%nat -> row_ok hi j (nth j st (None, 0%nat)).

Lemma chunk_loop_ok : forall todo i st, (i + todo = (n - 1) / N + 1)%nat -> (0 < n)%nat ->
  all_ok (Nat.min (i * N) n) st ->
  let r := chunk_loop N cosc vs i todo st in
  exists hi, (hi <= n)%nat /\ all_ok hi r /\ (hi = n \/ (0 < hi)%nat /\ forallb close_enough r = true).
Proof.
  induction todo as [|todo IH]; intros i st Hi Hn Hst; cbn [chunk_loop]; cbv zeta.
  - exists (Nat.min (i * N) n). split; [lia|]. split; [exact Hst|]. left.
    assert (n - 1 < i * N)%nat.
    { pose proof (Nat.mul_succ_div_gt (n - 1) N ltac:(lia)). replace i with (S ((n - 1) / N)) by lia. lia. }
    lia.
  - assert (Hlo : (i * N < n)%nat).
    { pose proof (Nat.mul_div_le (n - 1) N ltac:(lia)).
      assert (N * i <= N * ((n - 1) / N))%nat by (apply Nat.mul_le_mono_l; lia). lia. }
    fold n. set (hi := Nat.min ((i + 1) * N) n).
    assert (Hhi : (i * N < hi)%nat) by (unfold hi; nia).
    replace (Nat.min (i * N) n) with (i * N)%nat in Hst by lia. destruct Hst as [L1 L2].
    set (st' := map (fun p => chunk_row cosc (i * N) hi (fst p) (snd p)) (combine vs st)).
    assert (Hst' : all_ok hi st').
    { split; [unfold st'; rewrite map_length, combine_length, L1, Hlen; fold n; lia|].
      intros j Hj. unfold st'.
      set (g := fun p : V3 * (option R * nat) => chunk_row cosc (i * N) hi (fst p) (snd p)).
      rewrite (nth_indep _ (None, 0%nat) (g (vzero, (None, 0%nat)))).
      2:{ rewrite map_length, combine_length, L1, Hlen. fold n. lia. }
      rewrite (map_nth g), combine_nth by (rewrite L1; exact Hlen). unfold g. cbn [fst snd].
      apply chunk_row_ok; [exact Hhi|unfold hi; lia|apply L2; exact Hj]. }
    destruct (forallb close_enough st') eqn:Ef.
    + exists hi. split; [unfold hi; lia|]. split; [exact Hst'|]. right. split; [lia|exact Ef].
    + apply (IH (S i) st'); [lia|exact Hn|]. replace (Nat.min (S i * N) n) with hi; [exact Hst'|].
      unfold hi. f_equal. f_equal. lia.
Qed.
End Chunks.

(** ** fractional coordinates in the supercell *)
Definition znum (sc : Z3 * Z3 * Z3) (o : Z3) : Z3 :=
  let '((a1, a2, a3), (b1, b2, b3), (c1, c2, c3)) := sc in
  let '(x, y, z) := o in
  ((b2 * c3 - b3 * c2) * x + (b3 * c1 - b1 * c3) * y + (b1 * c2 - b2 * c1) * z,
   (a3 * c2 - a2 * c3) * x + (a1 * c3 - a3 * c1) * y + (a2 * c1 - a1 * c2) * z,
   (a2 * b3 - a3 * b2) * x + (a3 * b1 - a1 * b3) * y + (a1 * b2 - a2 * b1) * z)%Z.
Lemma det_zrows sc : det3 (transpose (zrows sc)) = IZR (zdet3 sc).
Proof.
  destruct sc as [[[[a1 a2] a3] [[b1 b2] b3]] [[c1 c2] c3]]. simpl.
  repeat (rewrite ?plus_IZR, ?minus_IZR, ?mult_IZR). ring.
Qed.
Lemma sc_frac_num sc o : zdet3 sc <> 0%Z -> sc_frac sc o =
  let '(x, y, z) := znum sc o in (IZR x / IZR (zdet3 sc), IZR y / IZR (zdet3 sc), IZR z / IZR (zdet3 sc)).
Proof.
  intros Hd. assert (HD : IZR (zdet3 sc) <> 0) by (apply not_0_IZR; exact Hd).
  unfold sc_frac. rewrite <- det_zrows in *.
  destruct sc as [[[[a1 a2] a3] [[b1 b2] b3]] [[c1 c2] c3]]. destruct o as [[x y] z].
  unfold inv3, transpose, zrows, zvec, znum, mulv, dot in *.
  set (D := det3 _) in *. repeat rewrite ?plus_IZR, ?minus_IZR, ?mult_IZR. apply V3_eq; field; exact HD.
Qed.
Lemma znum_mul sc o : zdet3 sc <> 0%Z ->
  (exists m : Z3, znum sc o = let '(a, b, c) := m in (zdet3 sc * a, zdet3 sc * b, zdet3 sc * c)%Z) <->
  exists m : Z3, o = zmul3 m sc.
Proof.
  intros Hd.
  destruct sc as [[[[a1 a2] a3] [[b1 b2] b3]] [[c1 c2] c3]]. destruct o as [[x y] z].
  split; intros [[[a b] c] E].
  - exists (a, b, c). unfold znum, zmul3, zdet3 in *.
    pose proof (f_equal (fun p : Z3 => fst (fst p)) E) as E1.
    pose proof (f_equal (fun p : Z3 => snd (fst p)) E) as E2.
    pose proof (f_equal (fun p : Z3 => snd p) E) as E3. cbn [fst snd] in E1, E2, E3. clear E.
    set (D := (a1 * (b2 * c3 - b3 * c2) - a2 * (b1 * c3 - b3 * c1) + a3 * (b1 * c2 - b2 * c1))%Z) in *.
    assert (G : forall u v, (D * u = D * v)%Z -> u = v) by (intros u v H; apply (Z.mul_reg_l u v D); assumption).
    f_equal; [f_equal|]; apply G.
    + transitivity (a1 * (D * a) + b1 * (D * b) + c1 * (D * c))%Z; [rewrite <- E1, <- E2, <- E3; unfold D; ring|ring].
    + transitivity (a2 * (D * a) + b2 * (D * b) + c2 * (D * c))%Z; [rewrite <- E1, <- E2, <- E3; unfold D; ring|ring].
    + transitivity (a3 * (D * a) + b3 * (D * b) + c3 * (D * c))%Z; [rewrite <- E1, <- E2, <- E3; unfold D; ring|ring].
  - exists (a, b, c). unfold zmul3 in E.
    pose proof (f_equal (fun p : Z3 => fst (fst p)) E) as E1.
    pose proof (f_equal (fun p : Z3 => snd (fst p)) E) as E2.
    pose proof (f_equal (fun p : Z3 => snd p) E) as E3. cbn [fst snd] in E1, E2, E3. clear E. subst.
    unfold znum, zdet3. f_equal; [f_equal|]; ring.
Qed.

Lemma frac_dist_gap (p D : Z) : D <> 0%Z -> frac_dist (IZR p / IZR D) < / IZR (Z.abs D) ->
  exists a, p = (D * a)%Z.
Proof.
  intros Hd H. unfold frac_dist in H. set (k := rint _) in H. exists k.
  assert (HD : IZR D <> 0) by (apply not_0_IZR; exact Hd).
  assert (HA : 0 < IZR (Z.abs D)) by (apply IZR_lt; lia).
  replace (IZR p / IZR D - IZR k) with (IZR (p - D * k) / IZR D) in H.
  2:{ rewrite minus_IZR, mult_IZR. field. exact HD. }
  unfold Rdiv in H. rewrite Rabs_mult, Rabs_inv in H.
  rewrite <- !abs_IZR in H.
  assert (H1 : IZR (Z.abs (p - D * k)) < 1).
  { apply (Rmult_lt_reg_r (/ IZR (Z.abs D))); [apply Rinv_0_lt_compat; exact HA|]. lra. }
  apply lt_IZR in H1. lia.
Qed.
Lemma frac_dist_nonneg x : 0 <= frac_dist x.
Proof. apply Rabs_pos. Qed.
Lemma frac_sum_gap sc o : zdet3 sc <> 0%Z -> frac_sum (sc_frac sc o) < / IZR (Z.abs (zdet3 sc)) ->
  exists m : Z3, o = zmul3 m sc.
Proof.
  intros Hd H. apply znum_mul; [exact Hd|]. rewrite sc_frac_num in H by exact Hd.
  destruct (znum sc o) as [[x y] z]. unfold frac_sum in H.
  pose proof (frac_dist_nonneg (IZR x / IZR (zdet3 sc))). pose proof (frac_dist_nonneg (IZR y / IZR (zdet3 sc))).
  pose proof (frac_dist_nonneg (IZR z / IZR (zdet3 sc))).
  destruct (frac_dist_gap x (zdet3 sc) Hd ltac:(lra)) as [a ->].
  destruct (frac_dist_gap y (zdet3 sc) Hd ltac:(lra)) as [b ->].
  destruct (frac_dist_gap z (zdet3 sc) Hd ltac:(lra)) as [c ->]. exists (a, b, c). reflexivity.
Qed.
Lemma frac_dist_int (a : Z) : frac_dist (IZR a) = 0.
Proof.
  unfold frac_dist, rint. rewrite (Int_part_unique (IZR a) a) by lra.
  destruct (Rlt_dec _ _) as [_|H]; [|exfalso; apply H; lra]. rewrite Rminus_eq_0. apply Rabs_R0.
Qed.
Lemma frac_sum_lattice sc m : zdet3 sc <> 0%Z -> frac_sum (sc_frac sc (zmul3 m sc)) = 0.
Proof.
  intros Hd. destruct (proj2 (znum_mul sc (zmul3 m sc) Hd) ltac:(exists m; reflexivity)) as [[[a b] c] E].
  assert (HD : IZR (zdet3 sc) <> 0) by (apply not_0_IZR; exact Hd).
  rewrite sc_frac_num, E by exact Hd. unfold frac_sum. rewrite !mult_IZR.
  replace (IZR (zdet3 sc) * IZR a / IZR (zdet3 sc)) with (IZR a) by (field; exact HD).
  replace (IZR (zdet3 sc) * IZR b / IZR (zdet3 sc)) with (IZR b) by (field; exact HD).
  replace (IZR (zdet3 sc) * IZR c / IZR (zdet3 sc)) with (IZR c) by (field; exact HD).
  rewrite !frac_dist_int. ring.
Qed.
Lemma sc_frac_sub sc a b : vsub (sc_frac sc a) (sc_frac sc b) = sc_frac sc (zsub3 a b).
Proof.
  unfold sc_frac. destruct (inv3 (transpose (zrows sc))) as [[[[? ?] ?] [[? ?] ?]] [[? ?] ?]].
  destruct a as [[? ?] ?], b as [[? ?] ?]. simpl. rewrite !plus_IZR, !opp_IZR. apply V3_eq; ring.
Qed.

Lemma big_tol D : (D <> 0)%Z -> (Z.abs D < 2 ^ 48)%Z -> sc_tol < / IZR (Z.abs D).
Proof.
  intros H0 H1. unfold sc_tol.
  replace (2 ^ 48) with (IZR (2 ^ 48)) by (rewrite (pow_IZR 2 48); f_equal).
  apply Rinv_lt_contravar; [|apply IZR_lt; exact H1].
  apply Rmult_lt_0_compat; apply IZR_lt; lia.
Qed.
Lemma sc_tol_pos : 0 < sc_tol.
Proof. unfold sc_tol. apply Rinv_0_lt_compat. apply pow_lt. lra. Qed.

Lemma same_mod_frac sc (o r : Z3) : zdet3 sc <> 0%Z -> (Z.abs (zdet3 sc) < 2 ^ 48)%Z ->
  (frac_sum (vsub (sc_frac sc r) (sc_frac sc o)) <= sc_tol <-> same_mod_supercell sc o r) /\
  (same_mod_supercell sc o r -> frac_sum (vsub (sc_frac sc r) (sc_frac sc o)) = 0).
Proof.
  intros Hd Hb. rewrite sc_frac_sub.
  assert (Q : same_mod_supercell sc o r <-> exists m : Z3, zsub3 r o = zmul3 m sc).
  { unfold same_mod_supercell, zsub3. split; intros [m E]; exists m.
    - rewrite E. destruct o as [[? ?] ?], (zmul3 m sc) as [[? ?] ?]. cbn. f_equal; [f_equal|]; lia.
    - rewrite <- E. destruct o as [[? ?] ?], r as [[? ?] ?]. cbn. f_equal; [f_equal|]; lia. }
  assert (Z0 : same_mod_supercell sc o r -> frac_sum (sc_frac sc (zsub3 r o)) = 0).
  { intros H. apply Q in H. destruct H as [m ->]. apply frac_sum_lattice. exact Hd. }
  split; [|exact Z0]. split.
  - intros H. apply Q. apply frac_sum_gap; [exact Hd|]. pose proof (big_tol _ Hd Hb). lra.
  - intros H. rewrite (Z0 H). pose proof sc_tol_pos. lra.
Qed.

Lemma rel_row_spec N origins sc nc : (0 < N)%nat -> zdet3 sc <> 0%Z -> (Z.abs (zdet3 sc) < 2 ^ 48)%Z ->
  (nc < length origins)%nat ->
  let n := length origins in
  let o k := nth k origins (0,0,0)%Z in
  match supercell_relative_row N (map (sc_frac sc) origins) nc with
  | Ok r => length r = n /\ forall j, (j < n)%nat ->
      first_index n (fun k => same_mod_supercell sc (o k) (zsub3 (o j) (o nc))) (nth j r 0%nat)
  | Err _ => exists j, (j < n)%nat /\ forall k, (k < n)%nat -> ~ same_mod_supercell sc (o k) (zsub3 (o j) (o nc))
  end.
Proof.
  intros HN Hd Hb Hnc n o. unfold supercell_relative_row. cbv zeta.
  set (cosc := map (sc_frac sc) origins).
  set (vs := map (fun c => vsub c (nth nc cosc vzero)) cosc).
  assert (Lc : length cosc = n) by (unfold cosc; apply map_length).
  assert (Lv : length vs = length cosc) by (unfold vs; apply map_length).
  assert (Nc : forall k, (k < n)%nat -> nth k cosc vzero = sc_frac sc (o k)).
  { intros k Hk. unfold cosc, o. rewrite (nth_indep _ vzero (sc_frac sc (0,0,0)%Z)) by (rewrite map_length; exact Hk).
    apply map_nth. }
  assert (Nv : forall j, (j < n)%nat -> nth j vs vzero = sc_frac sc (zsub3 (o j) (o nc))).
  { intros j Hj. unfold vs. rewrite (nth_indep _ vzero (vsub vzero (nth nc cosc vzero))) by (rewrite map_length, Lc; exact Hj).
    rewrite (map_nth (fun c => vsub c (nth nc cosc vzero))), !Nc by assumption. apply sc_frac_sub. }
  assert (Hs : forall j k, (j < n)%nat -> (k < n)%nat ->
    (frac_sum (vsub (nth j vs vzero) (nth k cosc vzero)) <= sc_tol <-> same_mod_supercell sc (o k) (zsub3 (o j) (o nc))) /\
    (same_mod_supercell sc (o k) (zsub3 (o j) (o nc)) -> frac_sum (vsub (nth j vs vzero) (nth k cosc vzero)) = 0)).
  { intros j k Hj Hk. rewrite Nv, Nc by assumption. apply same_mod_frac; assumption. }
  destruct (chunk_loop_ok N cosc vs HN Lv ((length cosc - 1) / N + 1) 0 (map (fun _ => (None, 0%nat)) cosc)) as [hi [Hhi [[R1 R2] R3]]].
  { lia. } { rewrite Lc. unfold n. lia. }
  { split; [apply map_length|]. intros j Hj. cbn [Nat.mul Nat.min]. 
    rewrite (map_nth_indep (fun _ => (None, 0%nat)) cosc j vzero) by exact Hj. reflexivity. }
  set (st := chunk_loop N cosc vs 0 ((length cosc - 1) / N + 1) (map (fun _ => (None, 0%nat)) cosc)) in *.
  rewrite Lc in *.
  assert (Hhi0 : (0 < hi)%nat) by (destruct R3 as [->|[H _]]; unfold n; lia).
  destruct (forallb close_enough st) eqn:Ef.
  - split; [rewrite map_length; exact R1|]. intros j Hj.
    rewrite (map_nth_indep snd st j (None, 0%nat)) by lia.
    specialize (R2 j Hj). destruct hi as [|hi']; [lia|]. cbn [row_ok] in R2.
    destruct R2 as [m [S1 [S2 [S3 [S4 S5]]]]].
    assert (Hc : close_enough (nth j st (None, 0%nat)) = true).
    { rewrite forallb_forall in Ef. apply Ef. apply nth_In. lia. }
    unfold close_enough in Hc. rewrite S1 in Hc. destruct (Rleb_spec m sc_tol) as [Hm|]; [|discriminate].
    set (k := snd (nth j st (None, 0%nat))) in *.
    split; [lia|]. split; [apply (Hs j k Hj ltac:(lia)); lra|].
    intros k' Hk' K. pose proof (proj2 (Hs j k' Hj ltac:(lia)) K) as E0. specialize (S5 k' Hk').
    assert (0 <= m).
    { rewrite <- S3. unfold frac_sum. destruct (vsub _ _) as [[x y] z].
      pose proof (frac_dist_nonneg x). pose proof (frac_dist_nonneg y). pose proof (frac_dist_nonneg z). lra. }
    lra.
  - assert (Hhin : hi = n) by (destruct R3 as [H|[_ H]]; [exact H|congruence]). subst hi.
    assert (Hex : exists j, (j < n)%nat /\ close_enough (nth j st (None, 0%nat)) = false).
    { rewrite <- R1. clear -Ef. induction st as [|x l IH]; [discriminate|]. cbn in Ef.
      destruct (close_enough x) eqn:Ex.
      - destruct (IH Ef) as [j [H1 H2]]. exists (S j). split; [cbn; lia|exact H2].
      - exists 0%nat. split; [cbn; lia|exact Ex]. }
    destruct Hex as [j [Hj Hc]]. exists j. split; [exact Hj|]. intros k Hk K.
    specialize (R2 j Hj). destruct n as [|n']; [lia|]. cbn [row_ok] in R2.
    destruct R2 as [m [S1 [S2 [S3 [S4 S5]]]]]. unfold close_enough in Hc. rewrite S1 in Hc.
    destruct (Rleb_spec m sc_tol) as [|Hm]; [discriminate|]. apply Hm.
    specialize (S4 k Hk). rewrite (proj2 (Hs j k Hj Hk) K) in S4. pose proof sc_tol_pos. lra.
Qed.

Theorem rel_idx_spec N origins sc : (0 < N)%nat -> zdet3 sc <> 0%Z -> (Z.abs (zdet3 sc) < 2 ^ 48)%Z ->
  let n := length origins in
  let o k := nth k origins (0,0,0)%Z in
  match supercell_relative_idx N origins sc with
  | Ok t => length t = n /\ forall nc, (nc < n)%nat -> length (nth nc t []) = n /\ forall j, (j < n)%nat ->
      first_index n (fun k => same_mod_supercell sc (o k) (zsub3 (o j) (o nc))) (nth j (nth nc t []) 0%nat)
  | Err _ => exists nc j, (nc < n)%nat /\ (j < n)%nat /\
      forall k, (k < n)%nat -> ~ same_mod_supercell sc (o k) (zsub3 (o j) (o nc))
  end.
Proof.
  intros HN Hd Hb n o. unfold supercell_relative_idx. cbv zeta.
  set (f := supercell_relative_row N (map (sc_frac sc) origins)).
  assert (G : forall l, match mapE f l with
     | Ok t => length t = length l /\ forall a, (a < length l)%nat -> f (nth a l 0%nat) = Ok (nth a t [])
     | Err e => exists a, In a l /\ f a = Err e end).
  { induction l as [|a l IH]; cbn [mapE]; [split; [reflexivity|cbn; intros; lia]|].
    destruct (f a) as [y|e] eqn:E; [|exists a; split; [left; reflexivity|exact E]].
    destruct (mapE f l) as [t|e].
    - destruct IH as [I1 I2]. cbn [length]. split; [lia|]. intros [|b] Hb'; [exact E|]. apply I2. lia.
    - destruct IH as [b [I1 I2]]. exists b. split; [right; exact I1|exact I2]. }
  specialize (G (seq 0 (length origins))). fold n in G |- *. rewrite seq_length in G.
  destruct (mapE f (seq 0 n)) as [t|e].
  - destruct G as [G1 G2]. split; [exact G1|]. intros nc Hnc. specialize (G2 nc Hnc). rewrite seq_nth in G2 by exact Hnc.
    pose proof (rel_row_spec N origins sc nc HN Hd Hb Hnc) as S. cbv zeta in S. fold f in S. cbn [Nat.add] in G2.
    rewrite G2 in S. exact S.
  - destruct G as [nc [G1 G2]]. apply in_seq in G1.
    pose proof (rel_row_spec N origins sc nc HN Hd Hb ltac:(unfold n in G1; lia)) as S. cbv zeta in S. fold f in S.
    rewrite G2 in S. destruct S as [j [S1 S2]]. exists nc, j. split; [lia|]. split; [exact S1|exact S2].
Qed.
