(** Lemmas for C17, C33 and C59. *)
From Coq Require Import String.
From Verif Require Import Base M_units S_units.
Open Scope R_scope.

Section U.
Variables h c : R.
Hypothesis Hh : 0 < h.
Hypothesis Hc : 0 < c.

Lemma kind_eqb_spec a b : kind_eqb a b = true <-> a = b.
Proof.
  destruct a, b; cbn; try (split; congruence). rewrite Nat.eqb_eq. split; congruence.
Qed.
Lemma in_recip_iff k : in_recip k = true <-> spectroscopic k.
Proof. destruct k; cbn; split; auto; try discriminate; intros []. Qed.

Lemma convert_compat u v x : (exists y, to_recip h c u v x = Some y) <-> compatible u v.
Proof.
  unfold to_recip, convert, compatible. destruct (kind_eqb (ukind u) (ukind v)) eqn:K.
  - apply kind_eqb_spec in K. split; [left; exact K|eauto].
  - assert (ukind u <> ukind v) by (intros E; apply kind_eqb_spec in E; congruence).
    destruct (in_recip (ukind u)) eqn:A; destruct (in_recip (ukind v)) eqn:B; cbn [andb].
    + split; [intros _; right; split; apply in_recip_iff; assumption|eauto].
    + split; [intros [y E]; discriminate|]. intros [E|[_ E]]; [contradiction|]. apply in_recip_iff in E. congruence.
    + split; [intros [y E]; discriminate|]. intros [E|[E _]]; [contradiction|]. apply in_recip_iff in E. congruence.
    + split; [intros [y E]; discriminate|]. intros [E|[E _]]; [contradiction|]. apply in_recip_iff in E. congruence.
Qed.
Lemma compat_refl u : compatible u u.
Proof. left. reflexivity. Qed.
Lemma compat_sym u v : compatible u v -> compatible v u.
Proof. intros [E|[A B]]; [left; congruence|right; tauto]. Qed.
Lemma compat_trans u v w : compatible u v -> compatible v w -> compatible u w.
Proof.
  intros [E|[A B]] [F|[C D]]; [left; congruence|right; split; [rewrite E|]; assumption|right; split; [|rewrite <- F]; assumption|right; tauto].
Qed.

(** Any conversion the model makes preserves the photon energy. *)
Lemma convert_photon con u v x y : proper u -> proper v -> convert h c con u v x = Some y -> (same_side u v \/ x <> 0) ->
  (forall k, con k = true -> spectroscopic k) -> same_value h c u x v y.
Proof.
  unfold convert, same_value, compatible, proper, same_side, photon. destruct u as [un uk uf], v as [vn vk vf]. cbn [ukind ufac].
  intros Pu Pv E Sd Co. destruct (kind_eqb uk vk) eqn:K.
  - apply kind_eqb_spec in K. subst vk. split; [left; reflexivity|]. injection E as <-. replace (x * uf / vf * vf) with (x * uf) by (field; lra). reflexivity.
  - destruct (con uk) eqn:A; [|discriminate]. destruct (con vk) eqn:B; [|discriminate]. cbn [andb] in E. injection E as <-.
    split; [right; split; apply Co; assumption|]. apply Co in A, B.
    destruct (Req_dec x 0) as [Zx|Zx].
    + subst x. destruct Sd as [Sd|Sd]; [|congruence].
      destruct uk, vk; cbn in A, B, Sd; try discriminate; try tauto; cbn [to_energy from_energy]; unfold Rdiv;
        rewrite ?Rmult_0_l, ?Rinv_0, ?Rmult_0_r, ?Rmult_0_l, ?Rinv_0, ?Rmult_0_r, ?Rmult_0_l, ?Rinv_0, ?Rmult_0_r; reflexivity.
    + destruct uk, vk; cbn in A, B; try tauto; cbn [to_energy from_energy]; try discriminate; field; repeat split; lra.
Qed.
End U.
