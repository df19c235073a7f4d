(** Which arguments each constructor accepts (C19). *)
From Coq Require Import String.
From Verif Require Import Base M_qpts M_valid S_valid L_valid.
Open Scope Z_scope.

Lemma one_Qty {U} (s t : option (list Z)) (u v : U) : Qty s u = Qty t v -> s = t /\ u = v.
Proof. intros E. injection E. auto. Qed.
Lemma in1 {A} (x y : A) : In y [x] <-> y = x.
Proof. cbn. split; [intros [E|[]]; congruence|intros E; left; congruence]. Qed.

Section Classes.
Context {U : Type}.
Variables (conv : U -> U -> bool).
Variables (bohr me hartree bohr2 kelvin fcu e diel : U).
Notation quantity' := (quantity' conv).
Notation to := (to conv).

Lemma to_ok (o : obj U) t : to o t = Ok tt <-> exists s u, o = Qty s u /\ conv u t = true.
Proof.
  unfold M_valid.to. destruct o as [s|s u|n|n|k| |]; try (split; [discriminate|intros (s' & u' & E & _); discriminate]). destruct (conv u t) eqn:C.
  - split; [intros _; exists s, u; split; [reflexivity|exact C]|reflexivity].
  - split; [discriminate|]. intros (s' & u' & E & C'). apply one_Qty in E. destruct E as [_ <-]. congruence.
Qed.
(** A Quantity of an exact shape that can be converted *)
Lemma qty_exact p (o : obj U) t n : (forall x, In x p -> x <> -1) ->
  ((right_class (chk o [KQuantity] [p] n) /\ right_shape (chk o [KQuantity] [p] n)) /\ to o t = Ok tt <-> quantity' p t o).
Proof.
  intros N. rewrite entry_qty by discriminate. rewrite to_ok. split.
  - intros ((u & H) & (s & v & E & C)). exists v. split; [|exact C]. subst o. destruct H as [H|(s' & p' & H & I & M)]; apply one_Qty in H; destruct H as [-> ->]; [right; reflexivity|]. apply in1 in I. subst p'. apply matches_exact in M; [|exact N]. subst s'. left. reflexivity.
  - intros (u & [-> | ->] & C); (split; [exists u|eexists; exists u; split; [reflexivity|exact C]]); [|left; reflexivity]. right. exists p, p. split; [reflexivity|]. split; [left; reflexivity|apply matches_refl].
Qed.
Lemma qty_shape p (o : obj U) n : (forall x, In x p -> x <> -1) ->
  (right_class (chk o [KQuantity] [p] n) /\ right_shape (chk o [KQuantity] [p] n) <-> exists u, o = Qty (Some p) u \/ o = Qty None u).
Proof using.
  intros N. rewrite entry_qty by discriminate. split.
  - intros (u & H). exists u. destruct H as [H|(s' & p' & H & I & M)]; [right; exact H|]. apply in1 in I. subst p'. apply matches_exact in M; [|exact N]. subst s'. left. exact H.
  - intros (u & [-> | ->]); exists u; [right; exists p, p; split; [reflexivity|]; split; [left; reflexivity|apply matches_refl]|left; reflexivity].
Qed.
Lemma arr_exact p (o : obj U) n : (forall x, In x p -> x <> -1) ->
  (right_class (chk o [KArray] [p] n) /\ right_shape (chk o [KArray] [p] n) <-> o = Arr p).
Proof using. intros N. rewrite entry_arr. split; [intros (s & -> & M); apply matches_exact in M; [congruence|exact N]|intros ->; exists p; split; [reflexivity|apply matches_refl]]. Qed.
Lemma arr_none_exact p (o : obj U) n : (forall x, In x p -> x <> -1) ->
  (right_class (chk o [KArray; KNone] [p] n) /\ right_shape (chk o [KArray; KNone] [p] n) <-> o = Non \/ o = Arr p).
Proof using. intros N. rewrite entry_arr_none. split; [intros [->|(s & -> & M)]; [left; reflexivity|apply matches_exact in M; [right; congruence|exact N]]|intros [->| ->]; [left; reflexivity|right; exists p; split; [reflexivity|apply matches_refl]]]. Qed.
Lemma qty_none_exact p (o : obj U) n : (forall x, In x p -> x <> -1) ->
  (right_class (chk o [KQuantity; KNone] [p] n) /\ right_shape (chk o [KQuantity; KNone] [p] n) <-> o = Non \/ exists u, o = Qty (Some p) u \/ o = Qty None u).
Proof using.
  intros N. rewrite entry_qty_none. split.
  - intros [->|(u & [->|(s & -> & M)])]; [left; reflexivity|right; exists u; right; reflexivity|]. apply matches_exact in M; [|exact N]. subst s. right. exists u. left. reflexivity.
  - intros [->|(u & [->| ->])]; [left; reflexivity|right; exists u; right; exists p; split; [reflexivity|apply matches_refl]|right; exists u; left; reflexivity].
Qed.
Lemma axis_entry n0 (o : obj U) n : 0 <= n0 -> (right_class (chk o [KQuantity] [[n0]; [n0 + 1]] n) /\ right_shape (chk o [KQuantity] [[n0]; [n0 + 1]] n) <-> axis' n0 o).
Proof using.
  intros P. rewrite entry_qty by discriminate. unfold axis'. split.
  - intros (u & [->|(s & p & -> & I & M)]); exists u; [right; right; reflexivity|]. destruct I as [<-|[<-|[]]]; (apply matches_exact in M; [|intros x [<-|[]]; lia]); subst s; [left|right; left]; reflexivity.
  - intros (u & [->|[->| ->]]); exists u; [right; exists [n0], [n0]|right; exists [n0 + 1], [n0 + 1]|left; reflexivity]; (split; [reflexivity|]; split; [cbn; auto|apply matches_refl]).
Qed.
Lemma labels_entry (o : obj U) n : right_class (chk o [KList; KNone] [] n) /\ right_shape (chk o [KList; KNone] [] n) <-> labels o.
Proof using. rewrite entry_any2. unfold labels. destruct o; cbn; split; intros H; try (destruct H as [H|H]; try discriminate H; try contradiction); try (destruct H; discriminate); auto; right; eexists; reflexivity. Qed.
Lemma meta_entry (o : obj U) n : right_class (chk o [KDict; KNone] [] n) /\ right_shape (chk o [KDict; KNone] [] n) <-> meta o.
Proof using. rewrite entry_any2. unfold meta. destruct o; cbn; split; intros H; try (destruct H as [H|H]; try discriminate H; try contradiction); try (destruct H; discriminate); auto; right; eexists; reflexivity. Qed.
Lemma crystal_entry (o : obj U) n : right_class (chk o [KCrystal] [] n) /\ right_shape (chk o [KCrystal] [] n) <-> exists a, o = Cry a.
Proof using. rewrite entry_any. destruct o; cbn; split; intros H; try discriminate H; try contradiction; try (destruct H; discriminate); [eexists; reflexivity|reflexivity]. Qed.

Ltac ext := intros ? [<-|[<-|[<-|[<-|[]]]]] || intros ? [<-|[<-|[<-|[]]]] || intros ? [<-|[<-|[]]] || intros ? [<-|[]]; lia.

Definition empty_atoms (r t : obj U) : Prop := (r = Arr [0; 3] \/ shaped r [0]) /\ shaped t [0].
Lemma crystal_iff (c r t m : obj U) : real r ->
  (new_crystal conv bohr me c r t m = Ok tt <->
   exists n, 0 <= n /\ quantity' [3; 3] bohr c /\ quantity' [n] me m /\ ((r = Arr [n; 3] /\ t = Arr [n]) \/ (n = 0 /\ empty_atoms r t))).
Proof.
  intros Hr. unfold new_crystal. rewrite andthen_ok. unfold len.
  assert (N33 : forall x, In x [3; 3] -> x <> -1) by (intros x [<-|[<-|[]]]; lia).
  assert (Body : forall n r' t', 0 <= n -> (andthen (check_inputs [chk c [KQuantity] [[3; 3]] "cell_vectors"; chk r' [KArray] [[n; 3]] "atom_r"; chk t' [KArray] [[n]] "atom_type"; chk m [KQuantity] [[n]] "atom_mass"])
     (fun _ => andthen (to c bohr) (fun _ => to m me)) = Ok tt <-> quantity' [3; 3] bohr c /\ quantity' [n] me m /\ r' = Arr [n; 3] /\ t' = Arr [n])).
  { intros n r' t' Hn. rewrite !andthen_unit, !check_cons_ok, check_nil_ok. rewrite <- (qty_exact [3; 3] c bohr "cell_vectors" N33), <- (qty_exact [n] m me "atom_mass") by (intros x [<-|[]]; lia).
    rewrite (arr_exact [n; 3]) by (intros x [<-|[<-|[]]]; lia). rewrite (arr_exact [n]) by (intros x [<-|[]]; lia). tauto. }
  split.
  - intros (n & L & H). destruct (len_of r) as [k|] eqn:Lr; [|discriminate]. assert (k = n) by congruence. subst k. clear L.
    assert (Hn : 0 <= n).
    { destruct r as [[|d s]|[[|d s]|] u|a|a|a| |]; cbn in Lr, Hr; try discriminate Lr; injection Lr as <-; try exact Hr; inversion Hr; assumption. }
    exists n. split; [exact Hn|]. destruct (Z.eqb_spec n 0) as [->|N0].
    + destruct (shape_of r) as [s|] eqn:Sr; [|discriminate]. cbn [andthen] in H. destruct (shape_of t) as [st|] eqn:St; [|discriminate]. cbn [andthen] in H.
      apply (Body 0 _ _ Hn) in H. destruct H as (Hc & Hm & H1 & H2). split; [exact Hc|]. split; [exact Hm|].
      right. split; [reflexivity|]. split.
      * destruct (zeqb s [0]) eqn:E; [right; apply zeqb_spec in E; subst s; apply shaped_ok; exact Sr|left; exact H1].
      * destruct (zeqb st [0]) eqn:E; [apply zeqb_spec in E; subst st; apply shaped_ok; exact St|]. subst t. reflexivity.
    + cbn [andthen] in H. apply (Body n r t Hn) in H. destruct H as (Hc & Hm & H1 & H2). split; [exact Hc|]. split; [exact Hm|]. left. split; assumption.
  - intros (n & Hn & Hc & Hm & [(-> & ->)|(-> & E1 & E2)]); exists n || exists 0.
    + cbn [len_of]. split; [reflexivity|]. destruct (Z.eqb_spec n 0) as [->|N0]; cbn [andthen shape_of zeqb Z.eqb andb]; apply (Body _ _ _ Hn); repeat (split; [assumption || reflexivity|]); reflexivity.
    + assert (L : len_of r = Some 0).
      { destruct E1 as [->|E1]; [reflexivity|]. destruct r as [s|[s|] u|a|a|a| |]; cbn in E1; try contradiction; subst s; reflexivity. }
      rewrite L. split; [reflexivity|]. cbn [Z.eqb]. apply shaped_ok in E2. rewrite E2. cbn [andthen]. change (zeqb [0] [0]) with true. cbn iota.
      assert (Sr : exists s, shape_of r = Some s /\ (if zeqb s [0] then Arr [0; 3] else r) = Arr [0; 3]).
      { destruct E1 as [->|E1]; [exists [0; 3]; split; reflexivity|]. apply shaped_ok in E1. exists [0]. split; [exact E1|reflexivity]. }
      destruct Sr as (s & Sr & Er). rewrite Sr. cbn [andthen]. rewrite Er. apply (Body 0 _ _ Hn). repeat (split; [assumption || reflexivity|]). reflexivity.
Qed.

Lemma qf_iff (c q f w : obj U) : real q ->
  (new_qpoint_frequencies conv hartree c q f w = Ok tt <->
   exists a n, c = Cry a /\ q = Arr [n; 3] /\ (exists m, quantity' [n; m] hartree f) /\ (w = Non \/ w = Arr [n])).
Proof.
  intros Hq. unfold new_qpoint_frequencies. rewrite !andthen_unit, !check_cons_ok, check_nil_ok, crystal_entry, entry_arr. split.
  - intros (((a & ->) & (s & -> & M) & _) & H). inversion M as [|p d ps ds E1 F1 X1 X2]; subst. inversion F1 as [|p2 d2 ps2 ds2 E2 F2 X3 X4]; subst. inversion F2; subst. destruct E2 as [E2|<-]; [discriminate E2|].
    cbn [real] in Hq. assert (Hd : 0 <= d) by (inversion Hq; assumption). cbn [len len_of andthen] in H. rewrite andthen_unit, !check_cons_ok, check_nil_ok in H. rewrite (arr_none_exact [d]) in H by (intros x [<-|[]]; lia).
    destruct H as ((A & B & _) & T). exists a, d. split; [reflexivity|]. split; [reflexivity|]. split; [|exact B].
    apply entry_qty in A; [|discriminate]. apply to_ok in T. destruct T as (s & u & E & C). subst f. destruct A as (v & [A|(s' & p & A & I & M2)]); apply one_Qty in A; destruct A as [-> <-].
    + exists 0, u. split; [right; reflexivity|exact C].
    + apply in1 in I. subst p. inversion M2 as [|p2 d2 ps2 ds2 Q1 G1]; subst. inversion G1 as [|p3 d3 ps3 ds3 Q2 G2]; subst. inversion G2; subst. destruct Q1 as [Q1|<-]; [lia|]. exists d3, u. split; [left; reflexivity|exact C].
  - intros (a & n & -> & -> & (m & u & Hf & C) & Hw). cbn [real] in Hq. assert (Hn : 0 <= n) by (inversion Hq; assumption).
    split; [split; [exists a; reflexivity|split; [exists [n; 3]; split; [reflexivity|constructor; [left; reflexivity|constructor; [right; reflexivity|constructor]]]|trivial]]|].
    cbn [len len_of andthen]. rewrite andthen_unit, !check_cons_ok, check_nil_ok. rewrite (arr_none_exact [n]) by (intros x [<-|[]]; lia).
    split; [split; [|split; [exact Hw|trivial]]|].
    + apply entry_qty; [discriminate|]. exists u. destruct Hf as [->| ->]; [right; exists [n; m], [n; -1]; split; [reflexivity|]; split; [left; reflexivity|]; constructor; [right; reflexivity|constructor; [left; reflexivity|constructor]]|left; reflexivity].
    + apply to_ok. destruct Hf as [->| ->]; eexists; exists u; (split; [reflexivity|exact C]).
Qed.

Lemma freq_again (n m a : Z) (f : obj U) : 0 <= n -> 0 <= a -> quantity' [n; m] hartree f ->
  (right_class (chk f [KQuantity] [[n; 3 * a]] "frequencies") /\ right_shape (chk f [KQuantity] [[n; 3 * a]] "frequencies") <-> quantity' [n; 3 * a] hartree f).
Proof.
  intros Hn Ha (u & Hf & C). rewrite qty_shape by (intros x [<-|[<-|[]]]; lia). split.
  - intros (v & [->| ->]); exists v; (split; [tauto|]); destruct Hf as [E|E]; try (apply one_Qty in E; destruct E as [_ ->]; exact C).
  - intros (v & H & _). exists v. exact H.
Qed.
Lemma qpm_iff (c q f ev w : obj U) : real c -> real q ->
  (new_qpoint_phonon_modes conv hartree c q f ev w = Ok tt <->
   exists a n, c = Cry a /\ q = Arr [n; 3] /\ quantity' [n; 3 * a] hartree f /\ ev = Arr [n; 3 * a; a; 3] /\ (w = Non \/ w = Arr [n])).
Proof.
  intros Hc Hq. unfold new_qpoint_phonon_modes. rewrite andthen_unit, (qf_iff c q f w Hq). split.
  - intros ((a & n & -> & -> & (m & Hf) & Hw) & H). cbn [len len_of andthen n_atoms_of] in H. cbn [real] in Hc, Hq. assert (Hn : 0 <= n) by (inversion Hq; assumption).
    rewrite !check_cons_ok, check_nil_ok in H. rewrite (freq_again n m a f Hn Hc Hf) in H. rewrite (arr_exact [n; 3 * a; a; 3]) in H by (intros x [<-|[<-|[<-|[<-|[]]]]]; lia).
    destruct H as (A & B & _). exists a, n. repeat (split; [reflexivity || assumption|]). exact Hw.
  - intros (a & n & -> & -> & Hf & -> & Hw). cbn [real] in Hc, Hq. assert (Hn : 0 <= n) by (inversion Hq; assumption).
    split; [exists a, n; repeat (split; [reflexivity|]); split; [exists (3 * a); exact Hf|exact Hw]|]. cbn [len len_of andthen n_atoms_of]. rewrite !check_cons_ok, check_nil_ok. rewrite (freq_again n (3 * a) a f Hn Hc Hf). rewrite (arr_exact [n; 3 * a; a; 3]) by (intros x [<-|[<-|[<-|[<-|[]]]]]; lia). tauto.
Qed.
Lemma temp_entry (o : obj U) n : right_class (chk o [KQuantity; KNone] [] n) /\ right_shape (chk o [KQuantity; KNone] [] n) <-> o = Non \/ exists s u, o = Qty s u.
Proof using. rewrite entry_any2. destruct o; cbn; split; intros H; try (destruct H as [H|H]; try discriminate H; try contradiction); try (destruct H as (? & ? & ?); discriminate); auto; right; do 2 eexists; reflexivity. Qed.
Lemma sf_iff (c q f sf w t : obj U) : real c -> real q ->
  (new_structure_factor conv hartree bohr2 kelvin c q f sf w t = Ok tt <->
   exists a n, c = Cry a /\ q = Arr [n; 3] /\ quantity' [n; 3 * a] hartree f /\ quantity' [n; 3 * a] bohr2 sf /\ (w = Non \/ w = Arr [n]) /\ none_or (any_quantity conv kelvin) t).
Proof.
  intros Hc Hq. unfold new_structure_factor. rewrite andthen_unit, (qf_iff c q f w Hq).
  assert (T : forall o, ((o = Non \/ exists s u, o = Qty s u) /\ (match o with Non => Ok tt | _ => to o kelvin end) = Ok tt) <-> none_or (any_quantity conv kelvin) o).
  { intros o. unfold none_or, any_quantity. split.
    - intros ([->|(s & u & ->)] & H); [left; reflexivity|]. apply to_ok in H. right. exact H.
    - intros [->|(s & u & -> & C)]; [split; [left; reflexivity|reflexivity]|]. split; [right; exists s, u; reflexivity|]. apply to_ok. exists s, u. split; [reflexivity|exact C]. }
  split.
  - intros ((a & n & -> & -> & (m & Hf) & Hw) & H). cbn [len len_of andthen n_atoms_of] in H. cbn [real] in Hc, Hq. assert (Hn : 0 <= n) by (inversion Hq; assumption).
    rewrite !andthen_unit, !check_cons_ok, check_nil_ok in H. rewrite (freq_again n m a f Hn Hc Hf), temp_entry in H. destruct H as ((A & B & D & _) & E & G).
    exists a, n. repeat (split; [reflexivity || assumption|]). split; [apply (qty_exact [n; 3 * a] sf bohr2 "structure_factors"); [intros x [<-|[<-|[]]]; lia|split; assumption]|]. split; [exact Hw|]. apply T. split; assumption.
  - intros (a & n & -> & -> & Hf & Hs & Hw & Ht). cbn [real] in Hc, Hq. assert (Hn : 0 <= n) by (inversion Hq; assumption).
    split; [exists a, n; repeat (split; [reflexivity|]); split; [exists (3 * a); exact Hf|exact Hw]|]. cbn [len len_of andthen n_atoms_of]. rewrite !andthen_unit, !check_cons_ok, check_nil_ok. rewrite (freq_again n (3 * a) a f Hn Hc Hf), temp_entry.
    apply (qty_exact [n; 3 * a] sf bohr2 "structure_factors") in Hs; [|intros x [<-|[<-|[]]]; lia]. apply T in Ht. tauto.
Qed.
Lemma dw_iff (c d t : obj U) : real c ->
  (new_debye_waller conv bohr2 kelvin c d t = Ok tt <-> exists a, c = Cry a /\ quantity' [a; 3; 3] bohr2 d /\ any_quantity conv kelvin t).
Proof.
  intros Hc. unfold new_debye_waller. rewrite andthen_unit, check_cons_ok, check_nil_ok, crystal_entry.
  assert (T : forall o n, ((right_class (chk o [KQuantity] [] n) /\ right_shape (chk o [KQuantity] [] n)) /\ to o kelvin = Ok tt) <-> any_quantity conv kelvin o).
  { intros o n. rewrite entry_any, to_ok. unfold any_quantity. split; [intros (_ & H); exact H|]. intros (s & u & -> & C). split; [reflexivity|]. exists s, u. split; [reflexivity|exact C]. }
  split.
  - intros (((a & ->) & _) & H). cbn [n_atoms_of andthen] in H. rewrite !andthen_unit, !check_cons_ok, check_nil_ok in H. destruct H as ((A & B & _) & D & E). cbn [real] in Hc. exists a. split; [reflexivity|].
    split; [apply (qty_exact [a; 3; 3] d bohr2 "debye_waller"); [intros x [<-|[<-|[<-|[]]]]; lia|split; assumption]|]. apply (T t "temperature"%string). split; assumption.
  - intros (a & -> & Hd & Ht). cbn [real] in Hc. split; [split; [exists a; reflexivity|trivial]|]. cbn [n_atoms_of andthen]. rewrite !andthen_unit, !check_cons_ok, check_nil_ok.
    apply (qty_exact [a; 3; 3] d bohr2 "debye_waller") in Hd; [|intros x [<-|[<-|[<-|[]]]]; lia]. apply (T t "temperature"%string) in Ht. tauto.
Qed.
Lemma rint_nonneg x : (0 <= x)%R -> 0 <= rint x.
Proof.
  intros H. assert (F : 0 <= Int_part x).
  { destruct (base_Int_part x) as [_ B]. assert (G : (IZR (-1) < IZR (Int_part x))%R) by (change (IZR (-1)) with (-1)%R; lra). apply lt_IZR in G. lia. }
  unfold rint. destruct (Rlt_dec (x - IZR (Int_part x)) (1 / 2)); [exact F|]. destruct (Rlt_dec (1 / 2) (x - IZR (Int_part x))); [lia|]. destruct (Z.even (Int_part x)); lia.
Qed.
Section FC.
Variables (det : R) (c f sc co b d : obj U) (a : Z).
Let n := rint (Rabs det).
Hypothesis (Hc : c = Cry a) (Hsc : sc = Arr [3; 3]) (Hf : quantity' [n; 3 * a; 3 * a] fcu f) (Hco : co = Arr [n; 3]).
Lemma fc_step : new_force_constants conv fcu e diel det c f sc co b d =
  andthen (check_inputs [chk b [KQuantity; KNone] [[a; 3; 3]] "born"; chk d [KQuantity; KNone] [[3; 3]] "dielectric"]) (fun _ =>
  match b with
  | Non => Ok {| f_ncells := n; f_born := Nothing; f_diel := match d with Qty _ u => Whole u diel | _ => Nothing end |}
  | _ => andthen (to b e) (fun _ => andthen (to d diel) (fun _ => Ok {| f_ncells := n; f_born := match b with Qty _ u => Numbers u | _ => Nothing end; f_diel := match d with Qty _ u => Numbers u | _ => Nothing end |}))
  end).
Proof.
  assert (Hn : 0 <= n) by (apply rint_nonneg, Rabs_pos). unfold new_force_constants. subst c sc co.
  rewrite (proj2 (check_ok [chk (Cry a) [KCrystal] [] "crystal"; chk (Arr [3; 3]) [KArray] [[3; 3]] "sc_matrix"])).
  2:{ constructor; [apply crystal_entry; exists a; reflexivity|]. constructor; [apply arr_exact; [intros x [<-|[<-|[]]]; lia|reflexivity]|constructor]. }
  cbn [andthen n_atoms_of]. fold n. apply (qty_exact [n; 3 * a; 3 * a] f fcu "force_constants") in Hf; [|intros x [<-|[<-|[<-|[]]]]; lia]. destruct Hf as [[H1 H2] H3].
  rewrite (proj1 (check_cons _ _) H1 H2). assert (H4 : right_class (chk (Arr [n; 3]) [KArray] [[n; 3]] "cell_origins") /\ right_shape (chk (U := U) (Arr [n; 3]) [KArray] [[n; 3]] "cell_origins")) by (apply arr_exact; [intros x [<-|[<-|[]]]; lia|reflexivity]).
  destruct H4 as [H4 H5]. rewrite (proj1 (check_cons _ _) H4 H5). destruct (check_inputs _) as [[]|]; [|reflexivity]. cbn [andthen]. rewrite H3. reflexivity.
Qed.
End FC.
Lemma fc_iff det (c f sc co b d : obj U) : real c ->
  ((exists o, new_force_constants conv fcu e diel det c f sc co b d = Ok o) <->
   exists a, let n := rint (Rabs det) in c = Cry a /\ sc = Arr [3; 3] /\ quantity' [n; 3 * a; 3 * a] fcu f /\ co = Arr [n; 3] /\
     ((b = Non /\ (d = Non \/ exists u, d = Qty (Some [3; 3]) u \/ d = Qty None u)) \/ (quantity' [a; 3; 3] e b /\ quantity' [3; 3] diel d))).
Proof.
  intros Hc. set (n := rint (Rabs det)). assert (Hn : 0 <= n) by (apply rint_nonneg, Rabs_pos).
  assert (N3 : forall x, In x [3; 3] -> x <> -1) by (intros x [<-|[<-|[]]]; lia).
  split.
  - intros (o & H). assert (G : exists a, c = Cry a /\ sc = Arr [3; 3] /\ quantity' [n; 3 * a; 3 * a] fcu f /\ co = Arr [n; 3]).
    { unfold new_force_constants in H. rewrite andthen_unit, !check_cons_ok, check_nil_ok, crystal_entry in H. rewrite (arr_exact [3; 3] sc _ N3) in H. destruct H as (((a & ->) & -> & _) & H). cbn [n_atoms_of andthen] in H. cbn [real] in Hc.
      rewrite !andthen_unit, !check_cons_ok, check_nil_ok in H. destruct H as ((A & B & _ & _ & _) & D & _). exists a. split; [reflexivity|]. split; [reflexivity|]. fold n in A, B. split.
      - apply (qty_exact [n; 3 * a; 3 * a] f fcu "force_constants"); [intros x [<-|[<-|[<-|[]]]]; lia|split; assumption].
      - apply (arr_exact [n; 3] co "cell_origins"); [intros x [<-|[<-|[]]]; lia|exact B]. }
    destruct G as (a & Ec & Es & Ef & Eo). exists a. cbv zeta. fold n. repeat (split; [assumption|]). subst c. cbn [real] in Hc. rewrite (fc_step det (Cry a) f sc co b d a eq_refl Es Ef Eo) in H.
    rewrite andthen_unit, !check_cons_ok, check_nil_ok in H. assert (N4 : forall x, In x [a; 3; 3] -> x <> -1) by (intros x [<-|[<-|[<-|[]]]]; lia). rewrite (qty_none_exact [a; 3; 3] b "born" N4), (qty_none_exact [3; 3] d "dielectric" N3) in H.
    destruct H as ((Hb & Hd & _) & H). destruct Hb as [->|(u & Hb)]; [left; split; [reflexivity|exact Hd]|].
    assert (X : to b e = Ok tt /\ to d diel = Ok tt).
    { destruct Hb as [->| ->]; rewrite !andthen_unit in H; tauto. }
    destruct X as (X1 & X2). apply to_ok in X1. apply to_ok in X2. destruct X1 as (s1 & u1 & -> & C1), X2 as (s2 & u2 & -> & C2). right. split.
    + exists u1. split; [|exact C1]. destruct Hb as [Hb|Hb]; apply one_Qty in Hb; destruct Hb as [-> ->]; [left|right]; reflexivity.
    + exists u2. split; [|exact C2]. destruct Hd as [Hd|(v & [Hd|Hd])]; [discriminate Hd| |]; apply one_Qty in Hd; destruct Hd as [-> ->]; [left|right]; reflexivity.
  - intros (a & H). cbv zeta in H. fold n in H. destruct H as (Ec & Es & Ef & Eo & H). subst c. cbn [real] in Hc. rewrite (fc_step det (Cry a) f sc co b d a eq_refl Es Ef Eo).
    assert (N4 : forall x, In x [a; 3; 3] -> x <> -1) by (intros x [<-|[<-|[<-|[]]]]; lia).
    destruct H as [(-> & Hd)|((u & Hb & C1) & (v & Hd & C2))].
    + eexists. apply andthen_unit. split; [|reflexivity]. rewrite !check_cons_ok, check_nil_ok, (qty_none_exact [a; 3; 3] Non "born" N4), (qty_none_exact [3; 3] d "dielectric" N3). tauto.
    + assert (Q : check_inputs [chk b [KQuantity; KNone] [[a; 3; 3]] "born"; chk d [KQuantity; KNone] [[3; 3]] "dielectric"] = Ok tt).
      { rewrite !check_cons_ok, check_nil_ok, (qty_none_exact [a; 3; 3] b "born" N4), (qty_none_exact [3; 3] d "dielectric" N3). split; [right; exists u; exact Hb|]. split; [right; exists v; exact Hd|trivial]. }
      rewrite Q. cbn [andthen]. assert (T1 : to b e = Ok tt) by (apply to_ok; destruct Hb as [->| ->]; eexists; exists u; split; try reflexivity; exact C1). assert (T2 : to d diel = Ok tt) by (apply to_ok; destruct Hd as [->| ->]; eexists; exists v; split; try reflexivity; exact C2).
      rewrite T1, T2. destruct Hb as [->| ->]; cbn [andthen]; eexists; reflexivity.
Qed.
End Classes.

Section Spectra.
Context {U : Type}.
Lemma s1_iff (x y l m : obj U) : real y -> (new_spectrum1d x y l m = Ok tt <-> exists n u, y = Qty (Some [n]) u /\ axis' n x /\ labels l /\ meta m).
Proof.
  intros Hy. unfold new_spectrum1d. rewrite andthen_unit, !check_cons_ok, check_nil_ok, labels_entry, meta_entry. rewrite (entry_qty [[-1]]) by discriminate. split.
  - intros (((u & [->|(s & p & -> & I & M)]) & Hl & Hm & _) & H); [discriminate H|]. apply in1 in I. subst p. inversion M as [|p d ps ds E1 F1]; subst. inversion F1; subst. cbn [real] in Hy. assert (Hd : 0 <= d) by (inversion Hy; assumption).
    cbn [len len_of andthen] in H. rewrite check_cons_ok, check_nil_ok, (axis_entry d x "x_data" Hd) in H. exists d, u. tauto.
  - intros (n & u & -> & Hx & Hl & Hm). cbn [real] in Hy. assert (Hn : 0 <= n) by (inversion Hy; assumption). split.
    + split; [|tauto]. exists u. right. exists [n], [-1]. split; [reflexivity|]. split; [left; reflexivity|]. constructor; [left; reflexivity|constructor].
    + cbn [len len_of andthen]. rewrite check_cons_ok, check_nil_ok, (axis_entry n x "x_data" Hn). tauto.
Qed.
Lemma s2_iff (x y z l m : obj U) : real z -> (new_spectrum2d x y z l m = Ok tt <-> exists nx ny u, z = Qty (Some [nx; ny]) u /\ axis' nx x /\ axis' ny y /\ labels l /\ meta m).
Proof.
  intros Hz. unfold new_spectrum2d. rewrite andthen_unit, !check_cons_ok, check_nil_ok, labels_entry, meta_entry. rewrite (entry_qty [[-1; -1]]) by discriminate. split.
  - intros (((u & [->|(s & p & -> & I & M)]) & Hl & Hm & _) & H); [discriminate H|]. apply in1 in I. subst p. inversion M as [|p d ps ds E1 F1]; subst. inversion F1 as [|p2 d2 ps2 ds2 E2 F2]; subst. inversion F2; subst.
    cbn [real] in Hz. assert (Hd : 0 <= d) by (inversion Hz; assumption). assert (Hd2 : 0 <= d2) by (inversion Hz as [|? ? ? Q]; inversion Q; assumption).
    cbn [shape_of] in H. rewrite !check_cons_ok, check_nil_ok, (axis_entry d x "x_data" Hd), (axis_entry d2 y "y_data" Hd2) in H. exists d, d2, u. tauto.
  - intros (nx & ny & u & -> & Hx & Hy & Hl & Hm). cbn [real] in Hz. assert (Hd : 0 <= nx) by (inversion Hz; assumption). assert (Hd2 : 0 <= ny) by (inversion Hz as [|? ? ? Q]; inversion Q; assumption). split.
    + split; [|tauto]. exists u. right. exists [nx; ny], [-1; -1]. split; [reflexivity|]. split; [left; reflexivity|]. constructor; [left; reflexivity|constructor; [left; reflexivity|constructor]].
    + cbn [shape_of]. rewrite !check_cons_ok, check_nil_ok, (axis_entry nx x "x_data" Hd), (axis_entry ny y "y_data" Hd2). tauto.
Qed.
Lemma metadata_ok (m : obj U) k : meta m -> (check_metadata m k = Ok tt <-> meta_for k m).
Proof.
  unfold meta, meta_for. intros [->|([j|] & ->)]; cbn; [tauto| |tauto]. destruct (Z.eqb_spec j k) as [->|N]; [tauto|]. split; [discriminate|intros [H|[H|H]]; congruence].
Qed.
Lemma meta_for_meta k (m : obj U) : meta_for k m -> meta m.
Proof. intros [->|[->| ->]]; [left; reflexivity|right; eexists; reflexivity|right; eexists; reflexivity]. Qed.
Lemma c1_iff (x y l m : obj U) : real y -> (new_collection1d x y l m = Ok tt <-> exists k n u, y = Qty (Some [k; n]) u /\ k <> 0 /\ axis' n x /\ labels l /\ meta_for k m).
Proof.
  intros Hy. unfold new_collection1d. rewrite andthen_unit, !check_cons_ok, check_nil_ok, labels_entry, meta_entry. rewrite (entry_qty [[-1; -1]]) by discriminate. split.
  - intros (((u & [->|(s & p & -> & I & M)]) & Hl & Hm & _) & H); [discriminate H|]. apply in1 in I. subst p. inversion M as [|p d ps ds E1 F1]; subst. inversion F1 as [|p2 d2 ps2 ds2 E2 F2]; subst. inversion F2; subst.
    cbn [real] in Hy. assert (Hd2 : 0 <= d2) by (inversion Hy as [|? ? ? Q]; inversion Q; assumption).
    cbn [shape_of] in H. destruct (Z.eqb_spec d 0) as [->|N]; [discriminate|]. rewrite !andthen_unit, !check_cons_ok, check_nil_ok, (axis_entry d2 x "x_data" Hd2) in H. exists d, d2, u. rewrite <- (metadata_ok m d Hm). tauto.
  - intros (k & n & u & -> & K & Hx & Hl & Hm). cbn [real] in Hy. assert (Hd2 : 0 <= n) by (inversion Hy as [|? ? ? Q]; inversion Q; assumption). split.
    + split; [|pose proof (meta_for_meta k m Hm); tauto]. exists u. right. exists [k; n], [-1; -1]. split; [reflexivity|]. split; [left; reflexivity|]. constructor; [left; reflexivity|constructor; [left; reflexivity|constructor]].
    + cbn [shape_of]. rewrite (proj2 (Z.eqb_neq _ _) K). rewrite andthen_unit, !check_cons_ok, check_nil_ok, (axis_entry n x "x_data" Hd2). rewrite (metadata_ok m k (meta_for_meta k m Hm)). tauto.
Qed.
Lemma c2_iff (x y z l m : obj U) : real z ->
  (new_collection2d x y z l m = Ok tt <-> exists k nx ny u, z = Qty (Some [k; nx; ny]) u /\ axis' nx x /\ axis' ny y /\ labels l /\ meta_for k m).
Proof.
  intros Hz. unfold new_collection2d. rewrite andthen_unit, !check_cons_ok, check_nil_ok, labels_entry, meta_entry. rewrite (entry_qty [[-1; -1; -1]]) by discriminate. split.
  - intros (((u & [->|(s & p & -> & I & M)]) & Hl & Hm & _) & H); [discriminate H|]. apply in1 in I. subst p. inversion M as [|p d ps ds E1 F1]; subst. inversion F1 as [|p2 d2 ps2 ds2 E2 F2]; subst. inversion F2 as [|p3 d3 ps3 ds3 E3 F3]; subst. inversion F3; subst.
    cbn [real] in Hz. assert (Hd2 : 0 <= d2) by (inversion Hz as [|? ? ? Q]; inversion Q; assumption). assert (Hd3 : 0 <= d3) by (inversion Hz as [|? ? ? Q]; inversion Q as [|? ? ? Q2]; inversion Q2; assumption).
    cbn [shape_of] in H. rewrite !andthen_unit, !check_cons_ok, check_nil_ok, (axis_entry d2 x "x_data" Hd2), (axis_entry d3 y "y_data" Hd3) in H. exists d, d2, d3, u. rewrite <- (metadata_ok m d Hm). tauto.
  - intros (k & nx & ny & u & -> & Hx & Hy & Hl & Hm). cbn [real] in Hz. assert (Hd2 : 0 <= nx) by (inversion Hz as [|? ? ? Q]; inversion Q; assumption). assert (Hd3 : 0 <= ny) by (inversion Hz as [|? ? ? Q]; inversion Q as [|? ? ? Q2]; inversion Q2; assumption). split.
    + split; [|pose proof (meta_for_meta k m Hm); tauto]. exists u. right. exists [k; nx; ny], [-1; -1; -1]. split; [reflexivity|]. split; [left; reflexivity|]. constructor; [left; reflexivity|constructor; [left; reflexivity|constructor; [left; reflexivity|constructor]]].
    + cbn [shape_of]. rewrite andthen_unit, !check_cons_ok, check_nil_ok, (axis_entry nx x "x_data" Hd2), (axis_entry ny y "y_data" Hd3). rewrite (metadata_ok m k (meta_for_meta k m Hm)). tauto.
Qed.

End Spectra.
