(** Lemmas on S(q,w) maps. *)
From Verif Require Import Base L_util Cpx Vec3 M_qpts M_cell M_path L_path M_broad S_broad L_broad3 M_dos S_dos L_dos L_dos2 M_sf S_sf L_sf.
Open Scope R_scope.

Lemma length_padded bins : (2 <= length bins)%nat -> length (padded_widths bins) = (length bins + 1)%nat.
Proof. intros H. unfold padded_widths. cbn [length]. rewrite app_length, length_np_diffR. cbn. lia. Qed.

Lemma digitize_ok bins : increasing bins -> digitize bins = Ok (fun x => length (filter (fun e => Rleb e x) bins)).
Proof. intros H. unfold digitize. rewrite (increasing_nondecreasing _ H). reflexivity. Qed.

Lemma intensities_spec kB cb T S w : cb = true \/ T = None -> intensities kB cb T S w = (at_plus kB T S w, at_minus kB T S w).
Proof.
  intros H. unfold intensities, at_plus, at_minus, occupation, bose_factor, planck. destruct cb.
  - destruct T as [t|]; [|reflexivity]. destruct (Rltb 0 t); f_equal; unfold Rdiv; ring.
  - destruct H as [H|H]; [discriminate|]. rewrite H. reflexivity.
Qed.

Lemma sqw_row_spec kB k c bins s cb T q : cb = true \/ T = None -> 0 < k -> increasing bins -> (2 <= length bins)%nat ->
  let bc := map (fun b => b / k) bins in
  let r := sqw_row kB k c (fun x => length (filter (fun e => Rleb e x) bc)) bc s cb T q in
  length r = (length bins - 1)%nat /\
  forall i, (i < length bins - 1)%nat -> nth i r 0 * (nth (S i) bins 0 - nth i bins 0)
    = c * Sum (seq 0 (nm (sft s))) (mode_area kB k s T q (nth i bins 0) (nth (S i) bins 0)).
Proof.
  intros Hcb Hk Hinc Hlen bc r. pose proof (increasing_scale _ _ Hk Hinc) as Hinc'. fold bc in Hinc'.
  assert (Hl : length bc = length bins) by apply map_length.
  assert (Hlr : length r = (length bins - 1)%nat).
  { unfold r, sqw_row. rewrite map_length, length_interior, map_length, combine_length, !length_add_at1, repeat_length, length_padded; lia. }
  split; [exact Hlr|]. intros i Hi. unfold r, sqw_row.
  set (pn := fun m => intensities kB cb T (sf_val s q m) (freq (sft s) q m)).
  set (bin := fun x => length (filter (fun e => Rleb e x) bc)).
  set (r1 := add_at1 (repeat 0 (length bc + 1)) _). set (r2 := add_at1 r1 _).
  assert (L1 : length r1 = (length bins + 1)%nat) by (unfold r1; rewrite length_add_at1, repeat_length; lia).
  assert (L2 : length r2 = (length bins + 1)%nat) by (unfold r2; rewrite length_add_at1; exact L1).
  assert (LP : length (padded_widths bc) = (length bins + 1)%nat) by (rewrite length_padded; lia).
  rewrite (map_nth_indep _ _ _ 0 0) by (rewrite length_interior, map_length, combine_length; lia).
  rewrite nth_interior by (rewrite map_length, combine_length; lia).
  rewrite (map_nth_indep _ _ _ (0, 0) 0) by (rewrite combine_length; lia).
  rewrite nth_combine by lia. cbn [fst snd].
  rewrite nth_padded by lia. unfold bc at 1 2. rewrite !(map_nth_indep _ bins _ 0 0) by lia.
  assert (V : nth (S i) r2 0 = Sum (seq 0 (nm (sft s))) (mode_area kB k s T q (nth i bins 0) (nth (S i) bins 0))).
  { unfold r2. rewrite nth_add_at1 by lia. unfold r1. rewrite nth_add_at1 by (rewrite repeat_length; lia).
    rewrite nth_repeat, Rplus_0_l, !Sum_map, <- Sum_plus. apply Sum_ext. intros m _. unfold mode_area. cbn [fst snd].
    assert (EP : pn m = (at_plus kB T (sf_val s q m) (freq (sft s) q m), at_minus kB T (sf_val s q m) (freq (sft s) q m))) by (apply intensities_spec; exact Hcb). unfold pn in EP. rewrite EP. cbn [fst snd]. unfold bin. rewrite !digitize_inc by (try exact Hinc'; lia). unfold bc. rewrite !(map_nth_indep _ bins _ 0 0) by lia.
    rewrite !inside_scale by exact Hk. rewrite Ropp_mult_distr_r. reflexivity. }
  rewrite V. set (X := Sum _ _). assert (Hab : nth i bins 0 < nth (S i) bins 0) by (apply Hinc; lia).
  field. split; [lra|]. replace (nth (S i) bins 0 - nth i bins 0) with (- (nth i bins 0 - nth (S i) bins 0)) by ring. lra.
Qed.

Lemma sqw_map_spec kB k c bins s cb given p : 0 < k -> increasing bins -> (2 <= length bins)%nat ->
  sqw_map kB k c bins s cb given = Ok p ->
  length p = nq (sft s) /\ forall q, (q < nq (sft s))%nat -> length (nth q p []) = (length bins - 1)%nat /\
  forall i, (i < length bins - 1)%nat -> nth i (nth q p []) 0 * (nth (S i) bins 0 - nth i bins 0)
    = c * Sum (seq 0 (nm (sft s))) (mode_area kB k s (temp_of s cb given) q (nth i bins 0) (nth (S i) bins 0)).
Proof.
  intros Hk Hinc Hlen H. unfold sqw_map in H.
  rewrite (digitize_ok _ (increasing_scale _ _ Hk Hinc)) in H.
  destruct (if cb then bose_temperature (sf_temp s) given else Ok None) as [T|er] eqn:ET; [|discriminate].
  assert (HT : T = temp_of s cb given).
  { unfold temp_of. destruct cb; [|injection ET as <-; reflexivity]. unfold bose_temperature in ET.
    destruct (sf_temp s) as [t|], given as [g|]; try (injection ET as <-; reflexivity).
    destruct (isclose _ g t); [injection ET as <-; reflexivity|discriminate]. }
  assert (HC : cb = true \/ T = None) by (destruct cb; [left; reflexivity|right; exact HT]).
  destruct (_ && _)%bool; [discriminate|]. injection H as <-. rewrite map_length, seq_length. split; [reflexivity|].
  intros q Hq. rewrite (map_nth_indep _ _ _ 0%nat []) by (rewrite seq_length; exact Hq). rewrite nth_seq_id by exact Hq.
  rewrite <- HT. exact (sqw_row_spec kB k c bins s cb T q HC Hk Hinc Hlen).
Qed.

Lemma sqw_map_ok kB k c bins s cb given : 0 < k -> increasing bins -> has_zero (sft s) = false ->
  (match sf_temp s, given with Some t, Some g => cb = true -> isclose (1 / 10 ^ 8) g t = true | _, _ => True end) ->
  exists p, sqw_map kB k c bins s cb given = Ok p.
Proof.
  intros Hk Hinc Hz Ht. unfold sqw_map. rewrite (digitize_ok _ (increasing_scale _ _ Hk Hinc)).
  assert (B : exists T, (if cb then bose_temperature (sf_temp s) given else Ok None) = Ok T).
  { destruct cb; [|eexists; reflexivity]. unfold bose_temperature. destruct (sf_temp s), given; try (eexists; reflexivity).
    rewrite Ht by reflexivity. eexists; reflexivity. }
  destruct B as [T ->]. rewrite Hz, andb_false_r. eexists. reflexivity.
Qed.

Lemma mode_area_sum kB k s T q bins m : increasing bins -> (2 <= length bins)%nat ->
  sumn (length bins - 1) (fun i => mode_area kB k s T q (nth i bins 0) (nth (S i) bins 0) m)
  = mode_area kB k s T q (nth 0 bins 0) (nth (length bins - 1) bins 0) m.
Proof.
  intros Hinc Hlen. unfold mode_area. cbv zeta. set (P := at_plus _ _ _ _). set (N := at_minus _ _ _ _).
  pose proof (inside_sum bins (k * freq (sft s) q m) (length bins - 1) Hinc ltac:(lia)) as A.
  pose proof (inside_sum bins (- (k * freq (sft s) q m)) (length bins - 1) Hinc ltac:(lia)) as B.
  transitivity (sumn (length bins - 1) (fun i => P * (if inside (nth i bins 0) (nth (S i) bins 0) (k * freq (sft s) q m) then 1 else 0)
      + N * (if inside (nth i bins 0) (nth (S i) bins 0) (- (k * freq (sft s) q m)) then 1 else 0))).
  { apply sumn_ext. intros i _. clear A B. cbv beta. destruct (inside _ _ _); destruct (inside _ _ _); ring. }
  unfold sumn in *. rewrite Sum_plus, !Sum_scal, A, B. clear A B. destruct (inside _ _ _); destruct (inside _ _ _); ring.
Qed.

Lemma sqw_area kB k c bins s cb given p q : 0 < k -> increasing bins -> (2 <= length bins)%nat ->
  sqw_map kB k c bins s cb given = Ok p -> (q < nq (sft s))%nat ->
  area bins (nth q p []) = c * Sum (seq 0 (nm (sft s))) (mode_area kB k s (temp_of s cb given) q (nth 0 bins 0) (nth (length bins - 1) bins 0)).
Proof.
  intros Hk Hinc Hlen H Hq. destruct (sqw_map_spec kB k c bins s cb given p Hk Hinc Hlen H) as [_ S]. destruct (S q Hq) as [_ V].
  unfold area. rewrite (sumn_ext _ _ _ V). unfold sumn. rewrite Sum_scal. f_equal. rewrite Sum_exchange. apply Sum_ext.
  intros m _. apply (mode_area_sum kB k s (temp_of s cb given) q bins m Hinc Hlen).
Qed.

(** Bose factor. *)
Lemma occupation_pos kB T f : 0 < T -> 0 < f -> occupation kB T f = planck (kB * T) f.
Proof. intros HT Hf. unfold occupation. rewrite Rltb_true by exact HT. rewrite Rabs_right by lra. reflexivity. Qed.
Lemma detailed_balance_factor kT w : 0 < kT -> 0 < w -> planck kT w = exp (- w / kT) * (1 + planck kT w).
Proof.
  intros Hk Hw. unfold planck. assert (H : 0 < w / kT) by (apply Rdiv_lt_0_compat; assumption).
  pose proof (exp_ineq1 (w / kT) ltac:(lra)) as H1.
  replace (- w / kT) with (- (w / kT)) by (unfold Rdiv; ring). rewrite exp_Ropp. field. split; [lra|].
  pose proof (exp_pos (w / kT)). lra.
Qed.

Lemma inside_excl bins i j x : increasing bins -> (S i < length bins)%nat -> (S j < length bins)%nat -> i <> j ->
  inside (nth i bins 0) (nth (S i) bins 0) x = true -> inside (nth j bins 0) (nth (S j) bins 0) x = false.
Proof.
  intros Hinc Hi Hj Hn H. unfold inside in *. apply andb_true_iff in H. destruct H as [A B]. apply Rleb_iff in A. apply Rltb_iff in B.
  destruct (Nat.lt_ge_cases i j) as [L|L].
  - assert (nth (S i) bins 0 <= nth j bins 0) by (destruct (Nat.eq_dec (S i) j) as [E|E]; [subst; lra|left; apply Hinc; lia]).
    rewrite Rleb_false by lra. reflexivity.
  - assert (nth (S j) bins 0 <= nth i bins 0) by (destruct (Nat.eq_dec (S j) i) as [E|E]; [subst; lra|left; apply Hinc; lia]).
    rewrite (Rltb_false x) by lra. apply andb_false_r.
Qed.

Lemma Sum_single n m f : (m < n)%nat -> (forall m', (m' < n)%nat -> m' <> m -> f m' = 0) -> Sum (seq 0 n) f = f m.
Proof.
  intros Hm H. rewrite (Sum_ext _ _ (fun m' => if Nat.eqb m' m then f m else 0)).
  - pose proof (sumn_delta n m (fun _ => f m) Hm) as D. unfold sumn in D. exact D.
  - intros x Hx. apply in_seq in Hx. destruct (Nat.eqb_spec x m) as [->|N]; [reflexivity|]. apply H; [lia|exact N].
Qed.

Lemma lone_mode kB k c bins s cb given p q m i : 0 < k -> increasing bins -> (2 <= length bins)%nat ->
  sqw_map kB k c bins s cb given = Ok p -> (q < nq (sft s))%nat -> (m < nm (sft s))%nat -> (i < length bins - 1)%nat ->
  (forall m', (m' < nm (sft s))%nat -> m' <> m -> outside k s q m' (nth i bins 0) (nth (S i) bins 0)) ->
  nth i (nth q p []) 0 * (nth (S i) bins 0 - nth i bins 0) = c * mode_area kB k s (temp_of s cb given) q (nth i bins 0) (nth (S i) bins 0) m.
Proof.
  intros Hk Hinc Hlen H Hq Hm Hi Ho. destruct (sqw_map_spec kB k c bins s cb given p Hk Hinc Hlen H) as [_ S]. destruct (S q Hq) as [_ V].
  rewrite (V i Hi). f_equal. apply Sum_single; [exact Hm|]. intros m' Hm' Hn. destruct (Ho m' Hm' Hn) as [A B]. unfold mode_area. rewrite A, B. lra.
Qed.

Lemma detailed_balance kB k c bins s given T p q m i j : 0 < k -> increasing bins -> (2 <= length bins)%nat -> 0 < kB -> 0 < T ->
  temp_of s true given = Some T -> sqw_map kB k c bins s true given = Ok p ->
  (q < nq (sft s))%nat -> (m < nm (sft s))%nat -> 0 < freq (sft s) q m ->
  (i < length bins - 1)%nat -> (j < length bins - 1)%nat -> i <> j ->
  inside (nth i bins 0) (nth (S i) bins 0) (k * freq (sft s) q m) = true ->
  inside (nth j bins 0) (nth (S j) bins 0) (- (k * freq (sft s) q m)) = true ->
  (forall m', (m' < nm (sft s))%nat -> m' <> m ->
     outside k s q m' (nth i bins 0) (nth (S i) bins 0) /\ outside k s q m' (nth j bins 0) (nth (S j) bins 0)) ->
  let a_i := nth i (nth q p []) 0 * (nth (S i) bins 0 - nth i bins 0) in
  let a_j := nth j (nth q p []) 0 * (nth (S j) bins 0 - nth j bins 0) in
  a_j = exp (- freq (sft s) q m / (kB * T)) * a_i /\
  a_i = c * sf_val s q m * (1 + planck (kB * T) (freq (sft s) q m)) /\ a_j = c * sf_val s q m * planck (kB * T) (freq (sft s) q m).
Proof.
  intros Hk Hinc Hlen HkB HT ET Hp Hq Hm Hf Hi Hj Hij Ii Ij Ho. cbv zeta.
  rewrite (lone_mode kB k c bins s true given p q m i Hk Hinc Hlen Hp Hq Hm Hi (fun m' A B => proj1 (Ho m' A B))).
  rewrite (lone_mode kB k c bins s true given p q m j Hk Hinc Hlen Hp Hq Hm Hj (fun m' A B => proj2 (Ho m' A B))).
  unfold mode_area. rewrite Ii, Ij, ET. cbn [at_plus at_minus]. rewrite (inside_excl bins i j _ Hinc ltac:(lia) ltac:(lia) Hij Ii).
  rewrite (inside_excl bins j i _ Hinc ltac:(lia) ltac:(lia) (not_eq_sym Hij) Ij). rewrite occupation_pos by assumption.
  pose proof (detailed_balance_factor (kB * T) (freq (sft s) q m) ltac:(nra) Hf) as D.
  split; [|split; ring]. rewrite D at 1. ring.
Qed.

Lemma zero_temperature kB k c bins s given T p q i : 0 < k -> increasing bins -> (2 <= length bins)%nat -> T <= 0 ->
  temp_of s true given = Some T -> sqw_map kB k c bins s true given = Ok p ->
  (q < nq (sft s))%nat -> (forall m, (m < nm (sft s))%nat -> 0 <= freq (sft s) q m) ->
  (i < length bins - 1)%nat -> nth (S i) bins 0 <= 0 -> nth i (nth q p []) 0 = 0.
Proof.
  intros Hk Hinc Hlen HT ET Hp Hq Hf Hi Hb. destruct (sqw_map_spec kB k c bins s true given p Hk Hinc Hlen Hp) as [_ S]. destruct (S q Hq) as [_ V].
  assert (Hab : nth i bins 0 < nth (Datatypes.S i) bins 0) by (apply Hinc; lia).
  specialize (V i Hi). rewrite (Sum_ext _ _ (fun _ => 0)) in V.
  - rewrite Sum_zero in V. nra.
  - intros m Hm. apply in_seq in Hm. unfold mode_area. rewrite ET. cbn [at_plus at_minus]. unfold occupation. rewrite Rltb_false by lra.
    assert (0 <= k * freq (sft s) q m) by (apply Rmult_le_pos; [lra|apply Hf; lia]).
    unfold inside at 1. rewrite (Rltb_false (k * _)) by lra. rewrite andb_false_r. destruct (inside _ _ _); ring.
Qed.

Lemma average_spec kB k c bins s cb given w y p : sqw_map kB k c bins s cb given = Ok p ->
  calculate_1d_average kB k c bins s cb given w = Ok y ->
  let ww := match w with Some v => v | None => wt (sft s) end in
  forall i, (i < length bins - 1)%nat -> nth i y 0 = Sum (seq 0 (nq (sft s))) (fun q => ww q * nth i (nth q p []) 0) / Sum (seq 0 (nq (sft s))) ww.
Proof.
  intros Hp H ww i Hi. unfold calculate_1d_average in H. rewrite Hp in H. fold ww in H.
  destruct (Reqb _ 0); [discriminate|]. injection H as <-.
  rewrite (map_nth_indep _ _ _ 0%nat 0) by (rewrite seq_length; exact Hi). rewrite nth_seq_id by exact Hi. reflexivity.
Qed.

(** Witnesses. *)
Definition two_bins_pm : list R := [-2; 0; 2].
Lemma two_bins_pm_inc : increasing two_bins_pm.
Proof. intros i j Hij Hj; cbn in Hj; destruct i as [|[|[|]]], j as [|[|[|]]]; try lia; cbn; lra. Qed.
Definition one_sf (f : R) (T : option R) : sfactor := mkSF (mkF 1 1 (fun _ _ => f) (fun _ => 1)) (fun _ _ => 1) T.
Lemma one_sf_nozero f T : f <> 0 -> has_zero (sft (one_sf f T)) = false.
Proof.
  intros H. unfold has_zero. cbn [one_sf sft pairs nq nm seq list_prod map app existsb fst snd freq]. destruct (Reqb_spec f 0); [contradiction|reflexivity].
Qed.

Lemma no_temperature_both_signs : exists kB k c bins s p i j,
  0 < kB /\ 0 < k /\ 0 < c /\ increasing bins /\ sf_temp s = None /\ (forall q m, 0 < freq (sft s) q m /\ 0 < sf_val s q m) /\
  sqw_map kB k c bins s true None = Ok p /\ nth (S j) bins 0 <= 0 /\ (j < length bins - 1)%nat /\
  (i < length bins - 1)%nat /\ i <> j /\ 0 < nth j (nth 0 p []) 0 /\ nth j (nth 0 p []) 0 = nth i (nth 0 p []) 0.
Proof.
  destruct (sqw_map_ok 1 1 1 two_bins_pm (one_sf 1 None) true None ltac:(lra) two_bins_pm_inc (one_sf_nozero 1 None ltac:(lra)) I) as [p Hp].
  exists 1, 1, 1, two_bins_pm, (one_sf 1 None), p, 1%nat, 0%nat.
  pose proof (lone_mode 1 1 1 two_bins_pm (one_sf 1 None) true None p 0 0 0 ltac:(lra) two_bins_pm_inc ltac:(cbn; lia) Hp ltac:(cbn; lia) ltac:(cbn; lia) ltac:(cbn; lia) ltac:(cbn; intros; lia)) as V0.
  pose proof (lone_mode 1 1 1 two_bins_pm (one_sf 1 None) true None p 0 0 1 ltac:(lra) two_bins_pm_inc ltac:(cbn; lia) Hp ltac:(cbn; lia) ltac:(cbn; lia) ltac:(cbn; lia) ltac:(cbn; intros; lia)) as V1.
  unfold mode_area, inside in V0, V1. cbn [one_sf sft freq sf_val temp_of sf_temp at_plus at_minus two_bins_pm nth] in V0, V1.
  rewrite (Rltb_false (1 * 1) 0), (Rleb_true (-2) (1 * 1)), (Rleb_true (-2) (- (1 * 1))), (Rltb_true (- (1 * 1)) 0) in V0 by lra.
  rewrite (Rltb_true (1 * 1) 2), (Rleb_true 0 (1 * 1)), (Rleb_false 0 (- (1 * 1))) in V1 by lra. cbn [andb] in V0, V1.
  split; [lra|]. split; [lra|]. split; [lra|]. split; [exact two_bins_pm_inc|]. split; [reflexivity|]. split; [intros; cbn; lra|].
  split; [exact Hp|]. cbn [two_bins_pm nth length]. split; [lra|]. split; [lia|]. split; [lia|]. split; [lia|].
  split; lra.
Qed.

(** An imaginary mode (negative frequency) is put with its larger intensity on the
    negative side. *)
Lemma imaginary_inverted kB k c bins s given T p q m i j : 0 < k -> increasing bins -> (2 <= length bins)%nat -> 0 < kB -> 0 < T ->
  temp_of s true given = Some T -> sqw_map kB k c bins s true given = Ok p ->
  (q < nq (sft s))%nat -> (m < nm (sft s))%nat -> freq (sft s) q m < 0 ->
  (i < length bins - 1)%nat -> (j < length bins - 1)%nat -> i <> j ->
  inside (nth i bins 0) (nth (S i) bins 0) (- (k * freq (sft s) q m)) = true ->
  inside (nth j bins 0) (nth (S j) bins 0) (k * freq (sft s) q m) = true ->
  (forall m', (m' < nm (sft s))%nat -> m' <> m ->
     outside k s q m' (nth i bins 0) (nth (S i) bins 0) /\ outside k s q m' (nth j bins 0) (nth (S j) bins 0)) ->
  nth i (nth q p []) 0 * (nth (S i) bins 0 - nth i bins 0)
  = exp (freq (sft s) q m / (kB * T)) * (nth j (nth q p []) 0 * (nth (S j) bins 0 - nth j bins 0)).
Proof.
  intros Hk Hinc Hlen HkB HT ET Hp Hq Hm Hf Hi Hj Hij Ii Ij Ho.
  rewrite (lone_mode kB k c bins s true given p q m i Hk Hinc Hlen Hp Hq Hm Hi (fun m' A B => proj1 (Ho m' A B))).
  rewrite (lone_mode kB k c bins s true given p q m j Hk Hinc Hlen Hp Hq Hm Hj (fun m' A B => proj2 (Ho m' A B))).
  unfold mode_area. rewrite Ii, Ij, ET. cbn [at_plus at_minus]. rewrite (inside_excl bins i j _ Hinc ltac:(lia) ltac:(lia) Hij Ii).
  rewrite (inside_excl bins j i _ Hinc ltac:(lia) ltac:(lia) (not_eq_sym Hij) Ij).
  assert (E : occupation kB T (freq (sft s) q m) = planck (kB * T) (- freq (sft s) q m)).
  { unfold occupation. rewrite Rltb_true by exact HT. rewrite Rabs_left by exact Hf. reflexivity. }
  rewrite E. pose proof (detailed_balance_factor (kB * T) (- freq (sft s) q m) ltac:(nra) ltac:(lra)) as D.
  rewrite Ropp_involutive in D. rewrite D at 1. ring.
Qed.
