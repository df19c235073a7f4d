(** Lemmas added after mutation testing of M_sample and M_calc (C39, C60, C65). *)
From Verif Require Import Base Cpx Vec3 M_grid M_cell M_qpts M_dynmat M_dipole M_struct M_asr M_calc S_qpts S_calc L_qpts L_insert L_calc2 M_sample S_sample L_sample.
Open Scope R_scope.

Lemma recurrence_values phi npts order n d : (n < npts)%nat -> (d < order)%nat ->
  exists k, nth d (nth n (recurrence_sequence phi npts order) []) 0 = INR n * (1 / phi) ^ (d + 1) - IZR k.
Proof.
  intros Hn Hd. unfold recurrence_sequence. rewrite (map_nth_indep _ _ _ 0%nat []) by (rewrite seq_length; exact Hn).
  rewrite seq_nth by exact Hn. rewrite (map_nth_indep _ _ _ 0%nat 0) by (rewrite seq_length; exact Hd). rewrite seq_nth by exact Hd.
  cbn [plus]. unfold mod1. eexists. rewrite Nat.add_1_r. unfold Rdiv. rewrite Rmult_1_l. reflexivity.
Qed.
Lemma recurrence_all phi npts order : length (recurrence_sequence phi npts order) = npts /\
  (forall p, In p (recurrence_sequence phi npts order) -> length p = order /\ forall x, In x p -> 0 <= x < 1) /\
  forall n d, (n < npts)%nat -> (d < order)%nat ->
    exists k, nth d (nth n (recurrence_sequence phi npts order) []) 0 = INR n * (1 / phi) ^ (d + 1) - IZR k.
Proof. destruct (recurrence_spec phi npts order) as [A B]. split; [exact A|]. split; [exact B|]. apply recurrence_values. Qed.

Lemma square_place x y : 0 <= x <= 1 -> at_place (square_to_sphere (x, y)) (2 * x - 1) (2 * PI * y).
Proof.
  intros H. unfold square_to_sphere, arccos. cbn [fst snd]. rewrite (proj2 (L_util.Rleb_iff _ _)) by lra. rewrite (proj2 (L_util.Rleb_iff _ _)) by lra. cbn [andb].
  pose proof (acos_bound (2 * x - 1)) as [A B]. exists (sin (acos (2 * x - 1))). split; [apply sin_ge_0; lra|].
  pose proof (sin2_cos2 (acos (2 * x - 1))) as S. unfold Rsqr in S. rewrite cos_acos in S by lra. split; [lra|].
  unfold polar_to_cart. rewrite cos_acos by lra. do 2 f_equal. f_equal; ring.
Qed.
Lemma place_turn p z t k : at_place p z (t - 2 * PI * IZR k) -> at_place p z t.
Proof.
  intros (s & A & B & E). exists s. split; [exact A|]. split; [exact B|]. rewrite E.
  pose proof (cis_period (t - 2 * PI * IZR k) k) as P. replace (t - 2 * PI * IZR k + 2 * PI * IZR k) with t in P by ring. unfold cis in P. injection P as Pc Ps. now rewrite Pc, Ps.
Qed.
Lemma golden_places npts : (0 < npts)%nat -> exists l, golden_sphere npts None = Ok l /\ length l = npts /\
  forall i, (i < npts)%nat -> at_place (nth i l None) ((2 * INR i + 1) / INR npts - 1) (2 * PI * (INR i / ((1 + sqrt 5) / 2))).
Proof.
  intros H. destruct (golden_square_spec npts true None (or_intror H)) as (l & E & L & I). unfold golden_sphere. rewrite E. cbn [map_ok].
  eexists. split; [reflexivity|]. rewrite map_length. split; [exact L|]. intros i Hi.
  rewrite (map_nth_indep _ _ _ (0, 0) None) by lia. pose proof (golden_square_x npts l i E Hi) as X.
  assert (J : in_square (nth i l (0, 0))) by (apply I, nth_In; lia). destruct J as [J _]. rewrite X in *. cbn [fst] in J.
  assert (P : 0 < INR npts) by (apply lt_0_INR; lia).
  apply (place_turn _ _ _ (Int_part (INR i / golden_ratio))).
  pose proof (square_place ((2 * INR i + 1) / (2 * INR npts)) (mod1 (INR i / golden_ratio)) ltac:(lra)) as G.
  replace (2 * ((2 * INR i + 1) / (2 * INR npts)) - 1) with ((2 * INR i + 1) / INR npts - 1) in G by (field; lra).
  replace (2 * PI * mod1 (INR i / golden_ratio)) with (2 * PI * (INR i / ((1 + sqrt 5) / 2)) - 2 * PI * IZR (Int_part (INR i / golden_ratio))) in G; [exact G|].
  unfold mod1, golden_ratio. ring.
Qed.
Lemma grid_places n_rows n_cols : (0 < n_rows)%nat -> (0 < n_cols)%nat -> exists l, sphere_from_square_grid n_rows n_cols None = Ok l /\ length l = (n_cols * n_rows)%nat /\
  forall i j, (i < n_cols)%nat -> (j < n_rows)%nat ->
    at_place (nth (i * n_rows + j) l None) ((2 * INR i + 1) / INR n_cols - 1) ((INR j + 1 / 2) * (2 * PI / INR n_rows)).
Proof.
  intros Hr Hc. destruct (regular_square_spec n_rows n_cols None Hr Hc I) as (l & E & L & H).
  destruct (regular_square_in n_rows n_cols None Hr Hc I) as (l' & E' & _ & Q). assert (l' = l) by congruence. subst l'.
  unfold sphere_from_square_grid. rewrite E. cbn [map_ok]. eexists. split; [reflexivity|]. rewrite map_length. split; [exact L|]. intros i j Hi Hj.
  assert (K : (i * n_rows + j < length l)%nat) by (rewrite L; nia).
  rewrite (map_nth_indep _ _ _ (0, 0) None) by exact K. pose proof (Q _ (nth_In l (0, 0) K)) as [J _].
  specialize (H i j Hi Hj). cbn zeta in H. destruct H as (_ & _ & H). destruct (H eq_refl) as [Hx Hy].
  destruct (nth (i * n_rows + j) l (0, 0)) as [x y]. cbn [fst snd] in *.
  pose proof (square_place x y ltac:(lra)) as G. assert (P : 0 < INR n_cols) by (apply lt_0_INR; lia). assert (P' : 0 < INR n_rows) by (apply lt_0_INR; lia).
  replace (2 * x - 1) with ((2 * INR i + 1) / INR n_cols - 1) in G by (rewrite Hx; field; lra).
  replace (2 * PI * y) with ((INR j + 1 / 2) * (2 * PI / INR n_rows)) in G by (rewrite Hy; field; lra). exact G.
Qed.
Lemma random_places npts r : (forall i, 0 <= fst (r i) < 1) -> exists l, random_sphere npts r = Ok l /\ length l = npts /\
  forall i, (i < npts)%nat -> at_place (nth i l None) (2 * fst (r i) - 1) (2 * PI * snd (r i)).
Proof.
  intros H. unfold random_sphere. eexists. split; [reflexivity|]. rewrite map_length, seq_length. split; [reflexivity|]. intros i Hi.
  rewrite (map_nth_indep _ _ _ 0%nat None) by (rewrite seq_length; exact Hi). rewrite seq_nth by exact Hi. cbn [plus].
  specialize (H i). destruct (r i) as [x y]. cbn [fst snd] in *. apply square_place. lra.
Qed.

(** Weights of whole calculations *)
Lemma inserts_spec x o : (use_splitting x o && p_insert o)%bool = inserts x o.
Proof. unfold use_splitting, use_dipole, inserts. destruct (o_born x), (p_dipole o), (p_splitting o), (p_insert o); reflexivity. Qed.
Lemma flat_nth (l : list R) n : length l = n -> concat (map (fun i => [nth i l 0]) (seq 0 n)) = l.
Proof.
  intros <-. induction l as [|a l IH]; [reflexivity|]. cbn [length seq map concat app nth]. f_equal. rewrite <- seq_shift, map_map. cbn [nth]. exact IH.
Qed.
Lemma map_concat_ints (g : nat -> list Z) l : map IZR (concat (map g l)) = concat (map (fun i => map IZR (g i)) l).
Proof. induction l as [|a l IH]; [reflexivity|]. cbn [map concat]. now rewrite map_app, IH. Qed.
Lemma result_weights erfc reigh ceigh argsort chunk junk o x qpts w ms :
  M_calc.result erfc reigh ceigh argsort chunk junk o x = Ok (qpts, w, ms) ->
  match p_weights o with
  | None => w = repeat (1 / INR (length qpts)) (length qpts)
  | Some (WFloat v) => length v = length (p_qpts o) /\
      w = concat (map (fun i => if (inserts x o && interior_gamma (p_qpts o) i)%bool then [nth i v 0 / 2; nth i v 0 / 2] else [nth i v 0]) (seq 0 (length v)))
  | Some (WInt v) => length v = length (p_qpts o) /\
      w = concat (map (fun i => if (inserts x o && interior_gamma (p_qpts o) i)%bool then [IZR (Z.quot (nth i v 0%Z) 2); IZR (Z.quot (nth i v 0%Z) 2)] else [IZR (nth i v 0%Z)]) (seq 0 (length v)))
  end.
Proof.
  intros H. unfold M_calc.result, M_calc.call in H. destruct (weights_ok o) eqn:Ew; cbn [negb snd] in H; [|discriminate].
  destruct (the_q_dirs x o); [|discriminate]. destruct (asr_of reigh argsort chunk x o) as [[[k fc] wn]|s]; cbn [snd] in H; [|discriminate].
  destruct (calculate _ _ _ _ _) as [l'|]; [|discriminate]. destruct (mapE _ l') as [ms'|]; [|discriminate].
  assert (Q : qpts = the_qpts x o) by congruence. assert (W : w = final_weights (length (the_qpts x o)) (the_weights x o)) by congruence.
  clear H. subst qpts. unfold the_weights in W. rewrite inserts_spec in W. unfold weights_ok in Ew.
  destruct (p_weights o) as [[v|v]|].
  - apply Nat.eqb_eq in Ew. split; [exact Ew|]. destruct (inserts x o); cbn [andb] in *.
    + cbn [option_map] in W. rewrite insert_float_weights in W by exact Ew. cbn [final_weights] in W. rewrite Ew. exact W.
    + cbn [final_weights] in W. subst w. symmetry. now apply flat_nth.
  - apply Nat.eqb_eq in Ew. split; [exact Ew|]. destruct (inserts x o); cbn [andb] in *.
    + cbn [option_map] in W. rewrite insert_int_weights in W by exact Ew. cbn [final_weights] in W. rewrite map_concat_ints in W. rewrite Ew, W. f_equal. apply map_ext. intros i.
      destruct (interior_gamma (p_qpts o) i); reflexivity.
    + cbn [final_weights] in W. subst w. rewrite <- (flat_nth (map IZR v) (length v)) at 1 by apply map_length. f_equal. apply map_ext. intros i. now rewrite (map_nth IZR).
  - destruct (inserts x o); exact W.
Qed.
Lemma wrong_weights erfc reigh ceigh argsort chunk junk o x v : p_weights o = Some v ->
  match v with WFloat l => length l | WInt l => length l end <> length (p_qpts o) ->
  M_calc.result erfc reigh ceigh argsort chunk junk o x = Err BadWeights.
Proof.
  intros E N. unfold M_calc.result, M_calc.call. replace (weights_ok o) with false; [reflexivity|]. unfold weights_ok. rewrite E.
  destruct v as [l|l]; symmetry; now apply Nat.eqb_neq.
Qed.
