(** Lemmas for the powder sampling wrappers (C38, C61, C62). *)
From Coq Require Import String.
From Verif Require Import Base Vec3 L_util M_qpts M_path M_sample S_sample L_path L_path2 L_qpts L_kin L_sample L_sample2 L_sample3.
Open Scope R_scope.

Lemma sphere_exact npts sampling rnd rnd2 always : (6 <= npts)%nat -> jitter_ok rnd -> unit_random always ->
  In sampling ["golden"; "spherical-polar-improved"; "random-sphere"]%string ->
  exists l, get_qpts_sphere npts sampling rnd rnd2 always = Ok l /\ length l = npts /\ forall p, In p l -> on_sphere p.
Proof.
  intros H J U I. destruct I as [<-|[<-|[<-|[]]]]; unfold get_qpts_sphere; cbn [String.eqb Ascii.eqb Bool.eqb].
  - apply golden_sphere_spec. lia.
  - apply improved_spec. exact H.
  - apply random_sphere_spec. exact U.
Qed.
Lemma sphere_exact_any npts sampling rnd rnd2 always : (1 <= npts)%nat -> unit_random always ->
  In sampling ["golden"; "random-sphere"]%string ->
  exists l, get_qpts_sphere npts sampling rnd rnd2 always = Ok l /\ length l = npts /\ forall p, In p l -> on_sphere p.
Proof.
  intros H U I. destruct I as [<-|[<-|[]]]; unfold get_qpts_sphere; cbn [String.eqb Ascii.eqb Bool.eqb]; [apply golden_sphere_spec; lia|apply random_sphere_spec; exact U].
Qed.
Lemma gridpts_pos npts : (1 <= npts)%nat -> (1 <= fst (check_gridpts npts))%nat.
Proof. intros H. destruct (gridpts_spec npts) as [A _]. destruct (fst (check_gridpts npts)); lia. Qed.
Lemma gridpts_two npts : (3 <= npts)%nat -> (2 <= fst (check_gridpts npts))%nat.
Proof. intros H. destruct (gridpts_spec npts) as [A _]. destruct (fst (check_gridpts npts)) as [|[|k]]; lia. Qed.
Lemma sphere_grid npts sampling rnd rnd2 always : (1 <= npts)%nat -> jitter_ok rnd ->
  sampling = "sphere-projected-grid"%string \/ (sampling = "spherical-polar-grid"%string /\ (3 <= npts)%nat) ->
  exists l n, get_qpts_sphere npts sampling rnd rnd2 always = Ok l /\ length l = (2 * n * n)%nat /\ (npts <= 2 * n * n)%nat /\
  (forall m, (npts <= 2 * m * m)%nat -> (n <= m)%nat) /\ forall p, In p l -> on_sphere p.
Proof.
  intros H J I. destruct (gridpts_spec npts) as [A B]. set (n := fst (check_gridpts npts)) in *. pose proof (gridpts_pos npts H) as P1.
  destruct I as [->|[-> H3]]; unfold get_qpts_sphere; cbn [String.eqb Ascii.eqb Bool.eqb]; fold n; fold n in P1.
  - destruct (grid_sphere_spec (n * 2) n rnd ltac:(lia) ltac:(lia) J) as (l & E & L & S). exists l, n. split; [exact E|]. split; [rewrite L; lia|]. split; [exact A|]. split; assumption.
  - pose proof (gridpts_two npts H3) as P2. fold n in P2. destruct (polar_grid_spec (n * 2) n rnd ltac:(lia) P2) as (l & E & L & S). exists l, n. split; [exact E|]. split; [rewrite L; lia|]. split; [exact A|]. split; assumption.
Qed.
Lemma gridpts_small npts : (1 <= npts <= 2)%nat -> fst (check_gridpts npts) = 1%nat.
Proof. intros H. destruct (gridpts_spec npts) as [A B]. specialize (B 1%nat ltac:(lia)). pose proof (gridpts_pos npts ltac:(lia)). lia. Qed.
Lemma sphere_polar_small npts rnd rnd2 always : (1 <= npts <= 2)%nat -> get_qpts_sphere npts "spherical-polar-grid" rnd rnd2 always = Err IndexErr.
Proof. intros H. unfold get_qpts_sphere. cbn [String.eqb Ascii.eqb Bool.eqb]. rewrite (gridpts_small npts H). apply polar_grid_small. right. reflexivity. Qed.
Lemma sphere_case npts rnd rnd2 always : get_qpts_sphere npts "Golden" rnd rnd2 always = Err UnknownSampling.
Proof. reflexivity. Qed.
Lemma sphere_unknown npts sampling rnd rnd2 always : ~ In sampling methods -> get_qpts_sphere npts sampling rnd rnd2 always = Err UnknownSampling.
Proof.
  intros N. unfold get_qpts_sphere. repeat match goal with |- context [String.eqb sampling ?t] => destruct (String.eqb_spec sampling t) as [Q|?]; [exfalso; apply N; rewrite Q; unfold methods; repeat (first [left; reflexivity|right])|] end. reflexivity.
Qed.
Lemma sphere_message npts : (forall n, npts <> (2 * n * n)%nat) -> exists k, snd (check_gridpts npts) = Some npts /\
  k = (2 * fst (check_gridpts npts) * fst (check_gridpts npts))%nat /\ (npts < k)%nat.
Proof.
  intros N. destruct (gridpts_spec npts) as [A _]. eexists. split; [|split; [reflexivity|specialize (N (fst (check_gridpts npts))); lia]].
  specialize (N (fst (check_gridpts npts))). unfold check_gridpts in *. cbn [fst snd] in *. set (n := Z.to_nat _) in *. destruct (Nat.eqb_spec (n ^ 2 * 2) npts) as [E|E]; [exfalso; apply N; rewrite <- E; cbn [Nat.pow]; lia|reflexivity].
Qed.

(** ** The q-points lie on the sphere of radius mod_q *)
Lemma det_transpose m : det3 (transpose m) = det3 m.
Proof. destruct m as [[[[a1 a2] a3] [[b1 b2] b3]] [[c1 c2] c3]]. unfold transpose, det3, row, comp, dot, cross. cbn. ring. Qed.
Lemma vmul_transpose v m : vmul v m = mulv (transpose m) v.
Proof. destruct m as [[[[a1 a2] a3] [[b1 b2] b3]] [[c1 c2] c3]], v as [[x y] z]. unfold transpose, vmul, mulv, row, comp, dot. cbn. apply V3_eq; ring. Qed.
Lemma norm_scal_unit k x y z : 0 <= k -> x ^ 2 + y ^ 2 + z ^ 2 = 1 -> norm (vscal k (x, y, z)) = k.
Proof.
  intros K H. unfold norm, vscal, dot. replace (k * x * (k * x) + k * y * (k * y) + k * z * (k * z)) with (k * k * (x ^ 2 + y ^ 2 + z ^ 2)) by ring.
  rewrite H, Rmult_1_r. apply sqrt_square. exact K.
Qed.
Lemma powder_shell solve recip mod_q npts sampling rnd rnd2 always l : solves solve -> det3 recip <> 0 -> 0 <= mod_q ->
  get_qpts_sphere npts sampling rnd rnd2 always = Ok l -> (forall p, In p l -> on_sphere p) ->
  exists qs, powder_qpts solve recip mod_q npts sampling rnd rnd2 always = Ok qs /\ length qs = length l /\
  forall i, (i < length l)%nat -> exists q p, nth i qs None = Some q /\ nth i l None = Some p /\ vmul q recip = vscal mod_q p /\ norm (vmul q recip) = mod_q.
Proof.
  intros S D M E P. unfold powder_qpts. rewrite E. cbn [map_ok]. eexists. split; [reflexivity|]. rewrite map_length. split; [reflexivity|].
  intros i Hi. rewrite (map_nth_indep _ _ _ None None) by exact Hi. destruct (P (nth i l None) (nth_In _ _ Hi)) as (x & y & z & E1 & N1).
  rewrite E1. cbn [option_map]. do 2 eexists. split; [reflexivity|]. split; [reflexivity|].
  assert (V : vmul (solve (transpose recip) (vscal mod_q (x, y, z))) recip = vscal mod_q (x, y, z)) by (rewrite vmul_transpose; apply S; rewrite det_transpose; exact D).
  split; [exact V|]. rewrite V. apply norm_scal_unit; assumption.
Qed.

(** ** Default energy bins *)
Lemma default_bins_cover freqs f0 nbins : (0 < nbins)%nat -> (exists f, In f (f0 :: freqs) /\ 0 < f) ->
  let e := default_bins freqs f0 nbins in length e = S nbins /\ nth 0 e 0 = 0 /\ (forall i, (i < nbins)%nat -> nth i e 0 < nth (S i) e 0) /\
  forall f, In f (f0 :: freqs) -> 0 <= f -> exists i, (i < nbins)%nat /\ nth i e 0 <= f < nth (S i) e 0.
Proof.
  intros Hn (g & Ig & Pg) e. set (m := Rmax_list f0 freqs).
  assert (Up : forall f, In f (f0 :: freqs) -> f <= m).
  { intros f I. apply Rmax_list_ge. exact I. }
  assert (Pm : 0 < m) by (specialize (Up g Ig); lra). assert (Pn : 0 < INR nbins) by (apply lt_0_INR; exact Hn).
  assert (N : forall i, (i <= nbins)%nat -> nth i e 0 = INR i * (m * (105 / 100) / INR nbins)).
  { intros i Hi. unfold e, default_bins. fold m. rewrite nth_linspace by lia. rewrite Nat.add_sub. field. lra. }
  assert (D : 0 < m * (105 / 100) / INR nbins) by (apply Rdiv_lt_0_compat; lra).
  split; [unfold e, default_bins; rewrite length_linspace; lia|]. split; [rewrite N by lia; cbn [INR]; ring|]. split.
  { intros i Hi. rewrite !N by lia. rewrite S_INR. nra. }
  intros f I F. destruct (find_bin (fun i => nth i e 0) f nbins) as (i & Hi & Q).
  - rewrite N by lia. cbn [INR]. lra.
  - rewrite N by lia. specialize (Up f I). replace (INR nbins * (m * (105 / 100) / INR nbins)) with (m * (105 / 100)) by (field; lra). lra.
  - exists i. split; assumption.
Qed.
Lemma default_bins_decreasing freqs f0 nbins : (0 < nbins)%nat -> (forall f, In f (f0 :: freqs) -> f < 0) ->
  forall i, (i < nbins)%nat -> nth (S i) (default_bins freqs f0 nbins) 0 < nth i (default_bins freqs f0 nbins) 0.
Proof.
  intros Hn H i Hi. unfold default_bins. set (m := Rmax_list f0 freqs). assert (Pm : m < 0) by (apply H, Rmax_list_in).
  assert (Pn : 0 < INR nbins) by (apply lt_0_INR; exact Hn). rewrite !nth_linspace by lia. rewrite Nat.add_sub, S_INR.
  assert (D : 0 < - (m * (105 / 100)) / INR nbins) by (apply Rdiv_lt_0_compat; lra). set (d := - (m * (105 / 100)) / INR nbins) in *.
  replace ((m * (105 / 100) - 0) / INR nbins) with (- d) by (unfold d; field; lra). lra.
Qed.
(** Cramer's rule is such a solver. *)
Lemma solver_exists : exists solve, solves solve.
Proof.
  exists (fun m b => let t := transpose m in let '(c1, c2, c3) := t in
    (dot b (cross c2 c3) / det3 m, dot c1 (cross b c3) / det3 m, dot c1 (cross c2 b) / det3 m)).
  intros m b D. destruct m as [[[[a1 a2] a3] [[b1 b2] b3]] [[c1 c2] c3]], b as [[x y] z].
  unfold det3, transpose, mulv, row, comp, dot, cross in *. cbn in *. apply V3_eq; field; exact D.
Qed.
