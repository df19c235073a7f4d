(** Small general lemmas. *)
From Verif Require Import Base.
Open Scope R_scope.
Lemma Rltb_iff x y : Rltb x y = true <-> x < y.
Proof. destruct (Rltb_spec x y); split; intros; try assumption; try reflexivity; try discriminate; contradiction. Qed.
Lemma Rleb_iff x y : Rleb x y = true <-> x <= y.
Proof. destruct (Rleb_spec x y); split; intros; try assumption; try reflexivity; try discriminate; contradiction. Qed.
Lemma Rltb_nf x y : Rltb x y = false <-> y <= x.
Proof. destruct (Rltb_spec x y); split; intros; try discriminate; try reflexivity; lra. Qed.
Lemma Rleb_nf x y : Rleb x y = false <-> y < x.
Proof. destruct (Rleb_spec x y); split; intros; try discriminate; try reflexivity; lra. Qed.
