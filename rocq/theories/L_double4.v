(** Lemmas: the values a scan of dipole parameters tests, in double precision. *)
From Flocq Require Import Core.
From Verif Require Import Base Vec3 M_grid M_qpts L_util M_cell L_cell M_double S_double L_double L_double2.
From Coq Require Import Lra Lia.

#[local] Existing Instance prec53.
#[local] Existing Instance valid_exp.

Lemma fl_rel st x : / 2 ^ 100 <= st -> Rabs x <= 4096 * st -> Rabs (fl x - x) <= st / 2 ^ 40.
Proof.
  intros P B.
  assert (P0 : 0 < / 2 ^ 100) by (apply Rinv_0_lt_compat, pow_lt; lra).
  destruct (mag radix2 st) as [e He]. cbn in He. specialize (He ltac:(lra)).
  rewrite Rabs_pos_eq in He by lra. destruct He as [H1 H2].
  assert (E : (-100 <= e)%Z).
  { apply Z.lt_le_incl. apply (lt_bpow radix2). apply Rle_lt_trans with st; [|exact H2].
    apply Rle_trans with (2 := P). apply Req_le. cbn. lra. }
  assert (Q := fl_error x (e + 12) ltac:(lia)).
  rewrite bpow_plus in Q. change (bpow radix2 12) with 4096 in Q.
  specialize (Q ltac:(lra)). apply Rle_trans with (1 := Q).
  replace (e + 12 - 53)%Z with (e - 1 + -40)%Z by lia. rewrite bpow_plus.
  assert (K : bpow radix2 (-40) = / 2 ^ 40) by (cbn; lra). rewrite K.
  unfold Rdiv. apply Rmult_le_compat_r; [|exact H1].
  apply Rlt_le, Rinv_0_lt_compat, pow_lt. lra.
Qed.

Lemma ceil_between x k : IZR k < x <= IZR k + 1 -> Rceil x = (k + 1)%Z.
Proof.
  intros [A B]. pose proof (Rceil_bounds x) as [C D].
  assert (IZR k < IZR (Rceil x)) by lra. assert (IZR (Rceil x) < IZR (k + 2)).
  { rewrite plus_IZR. lra. }
  apply lt_IZR in H, H0. lia.
Qed.

Section Scan.
Variables lo hi st : R.
Variable k : nat.
Hypothesis small : / 2 ^ 100 <= st.
Hypothesis lo_b : Rabs lo <= 1024 * st.
Hypothesis k_b : (k <= 1024)%nat.
Hypothesis hi_lo : lo + (INR k - 9 / 1000) * st <= hi.
Hypothesis hi_hi : hi <= lo + (INR k + 989 / 1000) * st.

Let u := st / 2 ^ 40.

Lemma st_pos : 0 < st.
Proof. apply Rlt_le_trans with (2 := small). apply Rinv_0_lt_compat, pow_lt. lra. Qed.

Lemma u_small : 0 < u /\ u * 1000000000000 <= st.
Proof.
  pose proof st_pos. unfold u. split.
  - apply Rdiv_lt_0_compat; [lra|apply pow_lt; lra].
  - apply Rmult_le_reg_r with (2 ^ 40); [apply pow_lt; lra|]. unfold Rdiv.
    replace (st * / 2 ^ 40 * 1000000000000 * 2 ^ 40) with (st * 1000000000000) by (field; apply pow_nonzero; lra).
    apply Rmult_le_compat_l; lra.
Qed.

Lemma kk : 0 <= INR k <= 1024.
Proof.
  split; [apply pos_INR|]. replace 1024 with (INR 1024).
  - apply le_INR. exact k_b.
  - rewrite INR_IZR_INZ. reflexivity.
Qed.

Lemma flr x : Rabs x <= 4096 * st -> - u <= fl x - x <= u.
Proof. intros H. apply abs_bounds. exact (fl_rel st x small H). Qed.

Lemma scan_length : length (scan_d (fl lo) (fl hi) (fl st)) = S k.
Proof.
  pose proof st_pos as P. pose proof u_small as [U0 U1]. pose proof kk as [K0 K1].
  apply abs_bounds in lo_b as LB.
  assert (kst : 0 <= INR k * st <= 1024 * st) by (split; nra).
  assert (E1 := flr lo ltac:(apply Rabs_le; lra)).
  assert (E2 := flr hi ltac:(apply Rabs_le; nra)).
  assert (E3 := flr st ltac:(apply Rabs_le; lra)).
  assert (E4 := flr (fl st / 100) ltac:(apply Rabs_le; lra)).
  assert (E5 := flr (fl hi + fl (fl st / 100)) ltac:(apply Rabs_le; nra)).
  assert (E6 := flr (fl (fl hi + fl (fl st / 100)) - fl lo) ltac:(apply Rabs_le; nra)).
  unfold scan_d, arange_d. rewrite map_length, seq_length.
  set (d := fl (fl (fl hi + fl (fl st / 100)) - fl lo)) in *.
  assert (S0 : 0 < fl st) by lra.
  assert (D1 : (INR k + 1 / 2000) * fl st <= d) by nra.
  assert (D2 : d <= (INR k + 1 - 1 / 2000) * fl st) by nra.
  assert (Q1 : INR k + 1 / 2000 <= d / fl st).
  { apply Rmult_le_reg_r with (fl st); [exact S0|]. unfold Rdiv.
    rewrite Rmult_assoc, Rinv_l by lra. lra. }
  assert (Q2 : d / fl st <= INR k + 1 - 1 / 2000).
  { apply Rmult_le_reg_r with (fl st); [exact S0|]. unfold Rdiv at 1.
    rewrite Rmult_assoc, Rinv_l by lra. lra. }
  assert (E7 := fl_error (d / fl st) 11 ltac:(lia)).
  specialize (E7 ltac:(cbn; apply Rabs_le; lra)). apply abs_bounds in E7.
  assert (T : bpow radix2 (11 - 53) < / 2000) by (cbn; lra).
  rewrite (ceil_between _ (Z.of_nat k)); [lia|]. rewrite <- INR_IZR_INZ. lra.
Qed.

Lemma scan_value i : (i <= k)%nat ->
  exists v, nth_error (scan_d (fl lo) (fl hi) (fl st)) i = Some v /\
    Rabs (v - (lo + INR i * st)) <= st / 10 ^ 8.
Proof.
  intros Hi. pose proof st_pos as P. pose proof u_small as [U0 U1]. pose proof kk as [K0 K1].
  apply abs_bounds in lo_b as LB.
  assert (E1 := flr lo ltac:(apply Rabs_le; lra)).
  assert (E3 := flr st ltac:(apply Rabs_le; lra)).
  assert (E4 := flr (fl lo + fl st) ltac:(apply Rabs_le; lra)).
  assert (E5 := flr (fl (fl lo + fl st) - fl lo) ltac:(apply Rabs_le; lra)).
  pose proof scan_length as L. unfold scan_d, arange_d in L |- *.
  rewrite map_length, seq_length in L. rewrite L.
  set (dl := fl (fl (fl lo + fl st) - fl lo)) in *.
  assert (I1 : INR i <= INR k) by (apply le_INR; exact Hi). pose proof (pos_INR i) as I0.
  rewrite nth_error_map, (nth_error_nth' _ 0%nat) by (rewrite seq_length; lia).
  rewrite nth_seq_id by lia. cbn [option_map]. eexists. split; [reflexivity|].
  assert (T : u * 4000 <= st / 10 ^ 8) by lra.
  destruct i as [|[|i]].
  - cbn [INR]. apply Rabs_le. lra.
  - cbn [INR]. apply Rabs_le. lra.
  - rewrite <- INR_IZR_INZ. set (j := INR (S (S i))) in *.
    assert (J1 : - (3 * u) <= dl - st <= 3 * u) by lra.
    assert (J2 : - (3072 * u) <= j * dl - j * st <= 3072 * u).
    { rewrite <- Rmult_minus_distr_l. split; nra. }
    assert (J3 : 0 <= j * st <= 1024 * st) by (split; nra).
    assert (E6 := flr (j * dl) ltac:(apply Rabs_le; lra)).
    assert (E7 := flr (fl lo + fl (j * dl)) ltac:(apply Rabs_le; lra)).
    apply Rabs_le. lra.
Qed.
End Scan.
