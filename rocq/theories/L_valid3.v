(** The errors of the constructors (C19), and Born charges with the dielectric tensor (C52). *)
From Coq Require Import String.
From Verif Require Import Base M_qpts M_valid S_valid L_valid L_valid2.
Open Scope Z_scope.

Section Errors.
Context {U : Type}.
Variables (conv : U -> U -> bool).
Variables (bohr me hartree bohr2 kelvin fcu e diel : U).
Notation to := (to conv).

Lemma check_tells (cs : list (@check U)) x : check_inputs cs = Err x -> tells x.
Proof. intros H. apply check_first in H. destruct H as (pre & c & post & _ & _ & [[_ ->]|(_ & _ & ->)]); left; exists (c_name c); auto. Qed.
Lemma to_tells s u t x : to (Qty s u) t = Err x -> tells x.
Proof. cbn. destruct (conv u t); [discriminate|]. intros E. assert (x = Dimension) by congruence. subst. right. reflexivity. Qed.
Lemma qty_only ss (o : obj U) n : right_class (chk o [KQuantity] ss n) -> exists s u, o = Qty s u.
Proof. intros (k & [<-|[]] & H). destruct o; cbn in H; try discriminate H; try contradiction. eexists; eexists; reflexivity. Qed.
Lemma qf_tells (c q f w : obj U) x : new_qpoint_frequencies conv hartree c q f w = Err x -> tells x.
Proof.
  unfold new_qpoint_frequencies. destruct (check_inputs [_; _]) as [[]|y] eqn:A; cbn [andthen]; [|intros E; assert (x = y) by congruence; subst y; exact (check_tells _ _ A)].
  rewrite !check_cons_ok in A. destruct A as (_ & A & _). apply entry_arr in A. destruct A as (s & -> & M). inversion M as [|p d ps ds E1 F1]; subst. cbn [len len_of andthen].
  destruct (check_inputs [_; _]) as [[]|y] eqn:B; cbn [andthen]; [|intros E; assert (x = y) by congruence; subst y; exact (check_tells _ _ B)].
  rewrite !check_cons_ok in B. destruct B as ((B & _) & _). apply qty_only in B. destruct B as (s & u & ->). apply to_tells.
Qed.
Lemma qf_inv (c q f w : obj U) : new_qpoint_frequencies conv hartree c q f w = Ok tt -> exists a n l, c = Cry a /\ q = Arr (n :: l).
Proof.
  unfold new_qpoint_frequencies. rewrite andthen_unit, !check_cons_ok, crystal_entry, entry_arr. intros (((a & ->) & (s & -> & M) & _) & _). inversion M; subst. exists a, y, l'. split; reflexivity.
Qed.
Lemma qpm_tells (c q f ev w : obj U) x : new_qpoint_phonon_modes conv hartree c q f ev w = Err x -> tells x.
Proof.
  unfold new_qpoint_phonon_modes. destruct (new_qpoint_frequencies _ _ _ _ _ _) as [[]|y] eqn:A; cbn [andthen]; [|intros E; assert (x = y) by congruence; subst y; exact (qf_tells _ _ _ _ _ A)].
  destruct (qf_inv _ _ _ _ A) as (a & n & l & -> & ->). cbn [len len_of andthen n_atoms_of]. apply check_tells.
Qed.
Lemma sf_tells (c q f sf w t : obj U) x : new_structure_factor conv hartree bohr2 kelvin c q f sf w t = Err x -> tells x.
Proof.
  unfold new_structure_factor. destruct (new_qpoint_frequencies _ _ _ _ _ _) as [[]|y] eqn:A; cbn [andthen]; [|intros E; assert (x = y) by congruence; subst y; exact (qf_tells _ _ _ _ _ A)].
  destruct (qf_inv _ _ _ _ A) as (a & n & l & -> & ->). cbn [len len_of andthen n_atoms_of].
  destruct (check_inputs [_; _; _]) as [[]|y] eqn:B; cbn [andthen]; [|intros E; assert (x = y) by congruence; subst y; exact (check_tells _ _ B)].
  rewrite !check_cons_ok, temp_entry in B. destruct B as (_ & (B & _) & D & _). apply qty_only in B. destruct B as (s & u & ->).
  destruct (to (Qty s u) bohr2) as [[]|y] eqn:T; cbn [andthen]; [|intros E; assert (x = y) by congruence; subst y; exact (to_tells _ _ _ _ T)].
  destruct D as [->|(s' & u' & ->)]; [discriminate|]. apply to_tells.
Qed.
Lemma dw_tells (c d t : obj U) x : new_debye_waller conv bohr2 kelvin c d t = Err x -> tells x.
Proof.
  unfold new_debye_waller. destruct (check_inputs [_]) as [[]|y] eqn:A; cbn [andthen]; [|intros E; assert (x = y) by congruence; subst y; exact (check_tells _ _ A)].
  rewrite check_cons_ok, crystal_entry in A. destruct A as ((a & ->) & _). cbn [andthen n_atoms_of].
  destruct (check_inputs [_; _]) as [[]|y] eqn:B; cbn [andthen]; [|intros E; assert (x = y) by congruence; subst y; exact (check_tells _ _ B)].
  rewrite !check_cons_ok in B. destruct B as ((B & _) & (D & _) & _). apply qty_only in B. apply qty_only in D. destruct B as (s & u & ->), D as (s' & u' & ->).
  destruct (to (Qty s u) bohr2) as [[]|y] eqn:T; cbn [andthen]; [|intros E; assert (x = y) by congruence; subst y; exact (to_tells _ _ _ _ T)]. apply to_tells.
Qed.
(** For force constants the one silent case is Born charges without dielectric tensor. *)
Lemma fc_tells det (c f sc co b d : obj U) x : new_force_constants conv fcu e diel det c f sc co b d = Err x -> tells x \/ (x = NoAttr /\ b <> Non /\ d = Non).
Proof.
  unfold new_force_constants. destruct (check_inputs [_; _]) as [[]|y] eqn:A; cbn [andthen]; [|intros E; assert (x = y) by congruence; subst y; left; exact (check_tells _ _ A)].
  rewrite !check_cons_ok, crystal_entry in A. destruct A as ((a & ->) & _ & _). cbn [andthen n_atoms_of].
  destruct (check_inputs [_; _; _; _]) as [[]|y] eqn:B; cbn [andthen]; [|intros E; assert (x = y) by congruence; subst y; left; exact (check_tells _ _ B)].
  rewrite !check_cons_ok in B. destruct B as ((B & _) & _ & Bb & Bd & _). apply qty_only in B. destruct B as (s & u & ->). rewrite !entry_qty_none in *.
  destruct (to (Qty s u) fcu) as [[]|y] eqn:T; cbn [andthen]; [|intros E; assert (x = y) by congruence; subst y; left; exact (to_tells _ _ _ _ T)].
  destruct Bb as [->|Bb]; [discriminate|]. assert (Eb : exists s' u', b = Qty s' u') by (destruct Bb as (v & [->|(s' & -> & _)]); eexists; eexists; reflexivity). destruct Eb as (s' & u' & ->). clear Bb.
  destruct (to (Qty s' u') e) as [[]|y] eqn:T'; cbn [andthen]; [|intros E; assert (x = y) by congruence; subst y; left; exact (to_tells _ _ _ _ T')].
  destruct Bd as [->|Bd]; [cbn; intros E; right; split; [congruence|split; [discriminate|reflexivity]]|].
  assert (Ed : exists s' u', d = Qty s' u') by (destruct Bd as (v & [->|(s2 & -> & _)]); eexists; eexists; reflexivity). destruct Ed as (s2 & u2 & ->).
  destruct (to (Qty s2 u2) diel) as [[]|y] eqn:T2; cbn [andthen]; [discriminate|intros E; assert (x = y) by congruence; subst y; left; exact (to_tells _ _ _ _ T2)].
Qed.

Section Born.
Variables (umul : U -> U -> U) (det : R) (f : obj U) (a : Z).
Let n := rint (Rabs det).
Hypothesis (Ha : 0 <= a) (Hf : quantity' conv [n; 3 * a; 3 * a] fcu f).
Notation build b d := (new_force_constants conv fcu e diel det (Cry a) f (Arr [3; 3]) (Arr [n; 3]) b d).
Lemma tables b d : (b = Non \/ exists u, b = Qty (Some [a; 3; 3]) u) -> (d = Non \/ exists u, d = Qty (Some [3; 3]) u) ->
  check_inputs [chk b [KQuantity; KNone] [[a; 3; 3]] "born"; chk (U := U) d [KQuantity; KNone] [[3; 3]] "dielectric"] = Ok tt.
Proof.
  intros Hb Hd. rewrite !check_cons_ok, check_nil_ok, (qty_none_exact [a; 3; 3]), (qty_none_exact [3; 3]); [|intros x [<-|[<-|[]]]; lia|intros x [<-|[<-|[<-|[]]]]; lia].
  split; [destruct Hb as [Hb|(u & Hb)]; [left; exact Hb|right; exists u; left; exact Hb]|]. split; [destruct Hd as [Hd|(u & Hd)]; [left; exact Hd|right; exists u; left; exact Hd]|trivial].
Qed.
Lemma both u v : conv u e = true -> conv v diel = true ->
  exists o, build (Qty (Some [a; 3; 3]) u) (Qty (Some [3; 3]) v) = Ok o /\ get_kept umul (f_born o) = Some u /\ get_kept umul (f_diel o) = Some v.
Proof.
  intros C1 C2. rewrite (fc_step conv fcu e diel det (Cry a) f (Arr [3; 3]) (Arr [n; 3]) _ _ a eq_refl eq_refl Hf eq_refl). rewrite tables; [|right; exists u; reflexivity|right; exists v; reflexivity]. cbn. rewrite C1. cbn. rewrite C2. cbn. eexists. split; [reflexivity|]. split; reflexivity.
Qed.
Lemma neither : exists o, build Non Non = Ok o /\ get_kept umul (f_born o) = None /\ get_kept umul (f_diel o) = None.
Proof.
  rewrite (fc_step conv fcu e diel det (Cry a) f (Arr [3; 3]) (Arr [n; 3]) _ _ a eq_refl eq_refl Hf eq_refl). rewrite tables; [|left; reflexivity|left; reflexivity]. cbn. eexists. split; [reflexivity|]. split; reflexivity.
Qed.
Lemma born_only u : conv u e = true -> build (Qty (Some [a; 3; 3]) u) Non = Err NoAttr.
Proof.
  intros C1. rewrite (fc_step conv fcu e diel det (Cry a) f (Arr [3; 3]) (Arr [n; 3]) _ _ a eq_refl eq_refl Hf eq_refl). rewrite tables; [|right; exists u; reflexivity|left; reflexivity]. cbn. rewrite C1. reflexivity.
Qed.
Lemma diel_only v : exists o, build Non (Qty (Some [3; 3]) v) = Ok o /\ get_kept umul (f_born o) = None /\ get_kept umul (f_diel o) = Some (umul v diel).
Proof.
  rewrite (fc_step conv fcu e diel det (Cry a) f (Arr [3; 3]) (Arr [n; 3]) _ _ a eq_refl eq_refl Hf eq_refl). rewrite tables; [|left; reflexivity|right; exists v; reflexivity]. cbn. eexists. split; [reflexivity|]. split; reflexivity.
Qed.
End Born.
End Errors.
