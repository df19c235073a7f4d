(** What the setters leave behind (C64), and the warning given once only (C16). *)
From Coq Require Import FunctionalExtensionality.
From Verif Require Import Base Cpx Vec3 M_grid M_cell M_qpts M_dynmat M_dipole M_struct M_asr M_calc
  S_qpts S_dynmat S_dipole S_asr S_calc L_calc L_calc2.
Open Scope R_scope.

Section S.
Variable erfc : R -> R.
Variable reigh : real_eigh.
Variable ceigh : complex_eigh.
Variable argsort : list R -> list nat.
Variable chunk : nat.
Notation call := (call erfc reigh ceigh argsort chunk).
Notation result := (result erfc reigh ceigh argsort chunk).
Notation warnings := (warnings erfc reigh ceigh argsort chunk).
Notation next := (next erfc reigh ceigh argsort chunk).
Notation after := (after erfc reigh ceigh argsort chunk).

(** After a successful realspace call the corrected force constants are kept. *)
Lemma kept x junk o r : p_asr o = Some Realspace -> result junk o x = Ok r ->
  (exists fc, o_asr (next x (junk, o)) = Some fc) /\ (exists t, o_images (next x (junk, o)) = Some t).
Proof.
  intros Ha H. unfold M_calc.result, M_calc.next, M_calc.call in *. cbn [fst snd].
  destruct (weights_ok o); cbn [negb snd fst] in *; [|discriminate].
  destruct (the_q_dirs x o); [|discriminate].
  unfold asr_of in *. rewrite Ha in *. destruct (o_asr x) as [fc|].
  - cbn. split; eexists; reflexivity.
  - destruct (enforce_realspace_asr _ _ _ _) as [[b fc]|]; [|discriminate]. cbn. split; eexists; reflexivity.
Qed.
Lemma stale y fc t junk o fc' : o_asr y = Some fc -> o_images y = Some t -> p_asr o = Some Realspace ->
  result junk o (set_force_constants y fc') = result junk o y.
Proof.
  intros Hk Ht Ha. destruct y as [d mass born diel im dp asr]. cbn in Hk, Ht. subst asr im.
  unfold M_calc.result, M_calc.call, asr_of, set_force_constants. cbn [o_asr o_d o_mass o_born o_diel o_images o_dip images_of].
  rewrite Ha. destruct (weights_ok o); cbn [negb snd]; [|reflexivity].
  match goal with |- context [the_q_dirs ?x o] => change (the_q_dirs x o) with (the_q_dirs (mkObj d mass born diel (Some t) dp (Some fc)) o) end.
  destruct (the_q_dirs _ o); reflexivity.
Qed.
(** Once a call has enforced the sum rule in real space, no later call that asks for it sees
    force constants assigned afterwards. *)
Lemma setter_ignored x junk0 o0 r junk o fc' : p_asr o0 = Some Realspace -> result junk0 o0 x = Ok r -> p_asr o = Some Realspace ->
  result junk o (set_force_constants (next x (junk0, o0)) fc') = result junk o (next x (junk0, o0)).
Proof.
  intros H0 Hr Ha. destruct (kept x junk0 o0 r H0 Hr) as [[fc Hk] [t Ht]]. now apply (stale _ fc t).
Qed.
(** The warning: only while nothing is kept. *)
Lemma no_second_warning x junk0 o0 r junk o : p_asr o0 = Some Realspace -> result junk0 o0 x = Ok r -> p_asr o = Some Realspace ->
  warnings junk o (next x (junk0, o0)) = [].
Proof.
  intros H0 Hr Ha. destruct (kept x junk0 o0 r H0 Hr) as [[fc Hk] _]. generalize dependent (next x (junk0, o0)). intros y Hk.
  unfold M_calc.warnings, M_calc.call. destruct (weights_ok o); [|reflexivity]. cbn [negb]. destruct (the_q_dirs y o); [|reflexivity].
  unfold asr_of. rewrite Ha, Hk. reflexivity.
Qed.
End S.
