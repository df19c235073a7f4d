(** Lemmas for C38, C39, C60, C61. *)
From Coq Require Import String.
From Verif Require Import Base Vec3 L_util M_qpts M_path M_sample S_sample L_path L_path2 L_qpts.
Open Scope R_scope.

Lemma mod1_range x : 0 <= mod1 x < 1.
Proof. unfold mod1. destruct (base_Int_part x) as [A B]. lra. Qed.
Lemma mod1_id x : 0 <= x < 1 -> mod1 x = x.
Proof.
  intros H. unfold mod1. assert (E : Int_part x = 0%Z); [|rewrite E; lra].
  unfold Int_part. assert (up x = 1%Z); [symmetry; apply tech_up; lra|lia].
Qed.

Lemma golden_square_spec npts offset rnd : (offset = false \/ (0 < npts)%nat) -> exists l, golden_square npts offset rnd = Ok l /\
  length l = npts /\ forall p, In p l -> in_square p.
Proof.
  intros H. unfold golden_square. replace (offset && Nat.eqb npts 0)%bool with false.
  2:{ symmetry. destruct H as [->|H]; [reflexivity|]. apply andb_false_intro2. apply Nat.eqb_neq. lia. }
  eexists. split; [reflexivity|]. rewrite map_length, seq_length. split; [reflexivity|]. intros p I. apply in_map_iff in I.
  destruct I as (i & E & _). destruct (match rnd with Some r => _ | None => _ end) as [dx dy]. subst p. split; cbn [fst snd]; apply mod1_range.
Qed.
Lemma golden_square_zero rnd : golden_square 0 true rnd = Err ZeroDiv.
Proof. reflexivity. Qed.
(** The x coordinates without jitter are the midpoints of npts equal intervals. *)
Lemma golden_square_x npts l i : golden_square npts true None = Ok l -> (i < npts)%nat ->
  nth i l (0, 0) = ((2 * INR i + 1) / (2 * INR npts), mod1 (INR i / golden_ratio)).
Proof.
  intros E Hi. unfold golden_square in E. destruct npts as [|n]; [lia|]. cbn [andb Nat.eqb] in E.
  assert (Si : forall x y : list (R * R), @Ok _ serr x = Ok y -> x = y) by congruence. apply Si in E. rewrite <- E. clear E Si.
  rewrite (map_nth_indep _ (seq 0 (S n)) i 0%nat (0, 0)) by (rewrite seq_length; exact Hi). rewrite seq_nth by exact Hi. cbn [plus].
  assert (P : 0 < INR (S n)) by (apply lt_0_INR; lia). assert (Li : INR i + 1 <= INR (S n)) by (rewrite <- S_INR; apply le_INR; lia).
  pose proof (pos_INR i). set (N := INR (S n)) in *. 
  f_equal; [|f_equal; ring]. replace (INR i / N + 0 + 1 / (2 * N)) with ((2 * INR i + 1) / (2 * N)) by (field; lra).
  apply mod1_id. split; [apply Rmult_le_pos; [lra|left; apply Rinv_0_lt_compat; lra]|].
  apply (Rmult_lt_reg_r (2 * N)); [lra|]. unfold Rdiv. rewrite Rmult_assoc, Rinv_l by lra. lra.
Qed.

(** ** Regular grid *)
Lemma div_mod_index k n m : (0 < n)%nat -> (k < m * n)%nat -> (k / n < m)%nat /\ (k mod n < n)%nat.
Proof. intros Hn Hk. split; [apply Nat.div_lt_upper_bound; lia|apply Nat.mod_upper_bound; lia]. Qed.

Lemma cell i n d : (i < n)%nat -> - (1 / 2) <= d < 1 / 2 ->
  INR i * (1 / INR n) <= INR i * (1 / INR n) + 1 / INR n / 2 + d * (1 / INR n) < INR (S i) * (1 / INR n) /\
  0 <= INR i * (1 / INR n) /\ INR (S i) * (1 / INR n) <= 1.
Proof.
  intros Hi Hd. assert (P : 0 < INR n) by (apply lt_0_INR; lia). assert (Q : 0 < 1 / INR n) by (apply Rdiv_lt_0_compat; lra).
  pose proof (pos_INR i). rewrite S_INR. assert (L : INR i + 1 <= INR n) by (rewrite <- S_INR; apply le_INR; lia).
  assert (E : INR n * (1 / INR n) = 1) by (field; lra). set (x := 1 / INR n) in *. split; [split; nra|]. split; nra.
Qed.

Lemma regular_square_spec n_rows n_cols rnd : (0 < n_rows)%nat -> (0 < n_cols)%nat -> jitter_ok rnd ->
  exists l, regular_square n_rows n_cols true rnd = Ok l /\ length l = (n_cols * n_rows)%nat /\
  forall i j, (i < n_cols)%nat -> (j < n_rows)%nat -> let p := nth (i * n_rows + j) l (0, 0) in
  INR i / INR n_cols <= fst p < INR (S i) / INR n_cols /\ INR j / INR n_rows <= snd p < INR (S j) / INR n_rows /\
  (rnd = None -> fst p = (INR i + 1 / 2) / INR n_cols /\ snd p = (INR j + 1 / 2) / INR n_rows).
Proof.
  intros Hr Hc Hj. unfold regular_square. rewrite (proj2 (Nat.eqb_neq n_cols 0)) by lia. rewrite (proj2 (Nat.eqb_neq n_rows 0)) by lia. cbn [orb].
  eexists. split; [reflexivity|]. rewrite map_length, seq_length. split; [reflexivity|]. intros i j Hi Hjj. cbn zeta.
  assert (K : (i * n_rows + j < n_cols * n_rows)%nat) by nia.
  rewrite (map_nth_indep _ _ _ 0%nat (0, 0)) by (rewrite seq_length; exact K). rewrite seq_nth by exact K. cbn [plus].
  rewrite Nat.div_add_l by lia. rewrite (Nat.div_small j n_rows) by exact Hjj. rewrite Nat.add_0_r.
  rewrite Nat.add_comm, Nat.mod_add by lia. rewrite (Nat.mod_small j n_rows) by exact Hjj. rewrite (Nat.add_comm j).
  set (k := (i * n_rows + j)%nat).
  assert (D : exists dx dy, - (1 / 2) <= dx < 1 / 2 /\ - (1 / 2) <= dy < 1 / 2 /\
    (match rnd with Some r => ((fst (r k) - 1 / 2) * (1 / INR n_cols), (snd (r k) - 1 / 2) * (1 / INR n_rows)) | None => (0, 0) end) = (dx * (1 / INR n_cols), dy * (1 / INR n_rows)) /\
    (rnd = None -> dx = 0 /\ dy = 0)).
  { destruct rnd as [r|].
    - destruct (Hj k) as [A B]. exists (fst (r k) - 1 / 2), (snd (r k) - 1 / 2). split; [lra|]. split; [lra|]. split; [reflexivity|discriminate].
    - exists 0, 0. split; [lra|]. split; [lra|]. split; [f_equal; ring|auto]. }
  destruct D as (dx & dy & Bx & By & E & Z). rewrite E. cbn [fst snd].
  destruct (cell i n_cols dx Hi Bx) as (A & _ & _). destruct (cell j n_rows dy Hjj By) as (B & _ & _).
  unfold Rdiv in *. rewrite !Rmult_1_l in *. split; [exact A|]. split; [exact B|].
  intros N. destruct (Z N) as [-> ->]. split; ring.
Qed.
Lemma regular_square_in n_rows n_cols rnd : (0 < n_rows)%nat -> (0 < n_cols)%nat -> jitter_ok rnd ->
  exists l, regular_square n_rows n_cols true rnd = Ok l /\ length l = (n_cols * n_rows)%nat /\ forall p, In p l -> in_square p.
Proof.
  intros Hr Hc Hj. destruct (regular_square_spec n_rows n_cols rnd Hr Hc Hj) as (l & E & L & H). exists l. split; [exact E|]. split; [exact L|].
  intros p I. destruct (In_nth _ _ (0, 0) I) as (k & Hk & Ep). rewrite L in Hk. destruct (div_mod_index k n_rows n_cols Hr Hk) as [A B].
  specialize (H _ _ A B). cbn zeta in H. rewrite (Nat.mul_comm (k / n_rows)), <- (Nat.div_mod k n_rows) in H by lia. rewrite Ep in H. destruct H as (H1 & H2 & _).
  destruct (cell (k / n_rows) n_cols 0 A ltac:(lra)) as (_ & A1 & A2). destruct (cell (k mod n_rows) n_rows 0 B ltac:(lra)) as (_ & B1 & B2).
  unfold Rdiv in *. rewrite !Rmult_1_l in *. split; lra.
Qed.
Lemma regular_square_zero n_rows n_cols offset rnd : n_rows = 0%nat \/ n_cols = 0%nat -> regular_square n_rows n_cols offset rnd = Err ZeroDiv.
Proof. unfold regular_square. intros [->| ->]; [destruct (Nat.eqb n_cols 0)|]; reflexivity. Qed.

Lemma regular_square_escapes n_rows n_cols : (0 < n_rows)%nat -> (0 < n_cols)%nat -> exists r l p,
  unit_random r /\ regular_square n_rows n_cols false (Some r) = Ok l /\ In p l /\ fst p < 0 /\ snd p < 0.
Proof.
  intros Hr Hc. exists (fun _ => (0, 0)). unfold regular_square. rewrite (proj2 (Nat.eqb_neq n_cols 0)) by lia. rewrite (proj2 (Nat.eqb_neq n_rows 0)) by lia. cbn [orb].
  eexists. eexists. split; [intros i; cbn; lra|]. split; [reflexivity|]. split; [apply in_map_iff; exists 0%nat; split; [reflexivity|apply in_seq; nia]|].
  rewrite Nat.div_0_l, Nat.mod_0_l by lia. cbn [fst snd INR].
  assert (P : 0 < / INR n_cols) by (apply Rinv_0_lt_compat, lt_0_INR; lia). assert (Q : 0 < / INR n_rows) by (apply Rinv_0_lt_compat, lt_0_INR; lia).
  unfold Rdiv. split; lra.
Qed.

Lemma recurrence_spec phi npts order : length (recurrence_sequence phi npts order) = npts /\
  forall p, In p (recurrence_sequence phi npts order) -> length p = order /\ forall x, In x p -> 0 <= x < 1.
Proof.
  unfold recurrence_sequence. rewrite map_length, seq_length. split; [reflexivity|]. intros p I. apply in_map_iff in I. destruct I as (n & <- & _).
  rewrite map_length, seq_length. split; [reflexivity|]. intros x J. apply in_map_iff in J. destruct J as (d & <- & _). apply mod1_range.
Qed.

(** ** Spheres *)
Lemma polar_on_sphere phi theta : on_sphere (Some (polar_to_cart phi theta)).
Proof.
  unfold polar_to_cart. do 3 eexists. split; [reflexivity|]. pose proof (sin2_cos2 phi) as A. pose proof (sin2_cos2 theta) as B. unfold Rsqr in A, B.
  replace ((cos phi * sin theta) ^ 2 + (sin phi * sin theta) ^ 2 + cos theta ^ 2) with ((sin phi * sin phi + cos phi * cos phi) * (sin theta * sin theta) + cos theta * cos theta) by ring.
  rewrite A, Rmult_1_l. exact B.
Qed.
Lemma square_on_sphere p : in_square p -> on_sphere (square_to_sphere p) /\ height (square_to_sphere p) (2 * fst p - 1).
Proof.
  intros [A B]. unfold square_to_sphere, arccos. rewrite (proj2 (Rleb_iff _ _)) by lra. rewrite (proj2 (Rleb_iff _ _)) by lra. cbn [andb].
  split; [apply polar_on_sphere|]. unfold polar_to_cart. rewrite cos_acos by lra. do 2 eexists. reflexivity.
Qed.

Lemma golden_sphere_spec npts rnd : (0 < npts)%nat -> exists l, golden_sphere npts rnd = Ok l /\ length l = npts /\ forall p, In p l -> on_sphere p.
Proof.
  intros H. destruct (golden_square_spec npts true rnd (or_intror H)) as (l & E & L & I). unfold golden_sphere. rewrite E. cbn [map_ok].
  eexists. split; [reflexivity|]. rewrite map_length. split; [exact L|]. intros p J. apply in_map_iff in J. destruct J as (q & <- & J). apply square_on_sphere, I, J.
Qed.
(** Equal-area zones: point i has the middle height of zone i of npts. *)
Lemma golden_sphere_heights npts : (0 < npts)%nat -> exists l, golden_sphere npts None = Ok l /\ length l = npts /\
  forall i, (i < npts)%nat -> height (nth i l None) ((2 * INR i + 1) / INR npts - 1).
Proof.
  intros H. destruct (golden_square_spec npts true None (or_intror H)) as (l & E & L & I). unfold golden_sphere. rewrite E. cbn [map_ok].
  eexists. split; [reflexivity|]. rewrite map_length. split; [exact L|]. intros i Hi.
  rewrite (map_nth_indep _ _ _ (0, 0) None) by lia. pose proof (golden_square_x npts l i E Hi) as X.
  assert (J : in_square (nth i l (0, 0))) by (apply I, nth_In; lia). destruct (square_on_sphere _ J) as [_ G].
  rewrite X in G at 2. cbn [fst] in G. assert (P : 0 < INR npts) by (apply lt_0_INR; lia).
  replace (2 * ((2 * INR i + 1) / (2 * INR npts)) - 1) with ((2 * INR i + 1) / INR npts - 1) in G by (field; lra). exact G.
Qed.
Lemma grid_sphere_spec n_rows n_cols rnd : (0 < n_rows)%nat -> (0 < n_cols)%nat -> jitter_ok rnd ->
  exists l, sphere_from_square_grid n_rows n_cols rnd = Ok l /\ length l = (n_cols * n_rows)%nat /\ forall p, In p l -> on_sphere p.
Proof.
  intros Hr Hc Hj. destruct (regular_square_in n_rows n_cols rnd Hr Hc Hj) as (l & E & L & I). unfold sphere_from_square_grid. rewrite E. cbn [map_ok].
  eexists. split; [reflexivity|]. rewrite map_length. split; [exact L|]. intros p J. apply in_map_iff in J. destruct J as (q & <- & J). apply square_on_sphere, I, J.
Qed.
(** Also with jitter, row i of the projected grid stays in zone i of n_cols equal-area zones. *)
Lemma grid_sphere_zones n_rows n_cols rnd : (0 < n_rows)%nat -> (0 < n_cols)%nat -> jitter_ok rnd ->
  exists l, sphere_from_square_grid n_rows n_cols rnd = Ok l /\
  forall i j, (i < n_cols)%nat -> (j < n_rows)%nat -> exists z, height (nth (i * n_rows + j) l None) z /\
  2 * INR i / INR n_cols - 1 <= z < 2 * INR (S i) / INR n_cols - 1.
Proof.
  intros Hr Hc Hj. destruct (regular_square_spec n_rows n_cols rnd Hr Hc Hj) as (l & E & L & H).
  destruct (regular_square_in n_rows n_cols rnd Hr Hc Hj) as (l' & E' & _ & I). assert (l' = l) by congruence. subst l'.
  unfold sphere_from_square_grid. rewrite E. cbn [map_ok]. eexists. split; [reflexivity|]. intros i j Hi Hjj.
  assert (K : (i * n_rows + j < length l)%nat) by (rewrite L; nia).
  rewrite (map_nth_indep _ _ _ (0, 0) None) by exact K. destruct (square_on_sphere _ (I _ (nth_In l (0, 0) K))) as [_ G].
  eexists. split; [exact G|]. destruct (H i j Hi Hjj) as (A & _). cbn zeta in A. unfold Rdiv in *. lra.
Qed.
Lemma random_sphere_spec npts r : unit_random r -> exists l, random_sphere npts r = Ok l /\ length l = npts /\ forall p, In p l -> on_sphere p.
Proof.
  intros H. eexists. split; [reflexivity|]. rewrite map_length, seq_length. split; [reflexivity|]. intros p I. apply in_map_iff in I.
  destruct I as (i & <- & _). apply square_on_sphere. exact (H i).
Qed.

(** ** Polar grids *)
Lemma length_open a b n : length (open_linspace a b n) = n.
Proof. unfold open_linspace. rewrite removelast_firstn_len, firstn_length, length_linspace. lia. Qed.
Lemma nth_open a b n i : (i < n)%nat -> nth i (open_linspace a b n) 0 = a + INR i * ((b - a) / INR n).
Proof. intros H. unfold open_linspace. rewrite nth_removelast by (rewrite length_linspace; lia). rewrite nth_linspace by lia. rewrite Nat.add_sub. reflexivity. Qed.
Lemma spacing_spec s : spacing s = (if Nat.leb 2 (length s) then Ok (nth 1 s 0 - nth 0 s 0) else Err IndexErr).
Proof. destruct s as [|a [|b s]]; reflexivity. Qed.
Lemma length_theta n : length (theta_sequence n) = n.
Proof. unfold theta_sequence. rewrite map_length. apply length_open. Qed.
Lemma nth_theta n i : (i < n)%nat -> nth i (theta_sequence n) 0 = (2 * INR i + 1) * (PI / (2 * INR n)).
Proof.
  intros H. unfold theta_sequence. rewrite (map_nth_indep _ _ _ 0 0) by (rewrite length_open; exact H). rewrite nth_open by exact H.
  assert (P : 0 < INR n) by (apply lt_0_INR; lia). field. lra.
Qed.

Lemma polar_grid_spec n_phi n_theta rnd : (2 <= n_phi)%nat -> (2 <= n_theta)%nat ->
  exists l, spherical_polar_grid n_phi n_theta rnd = Ok l /\ length l = (n_phi * n_theta)%nat /\ forall p, In p l -> on_sphere p.
Proof.
  intros H1 H2. unfold spherical_polar_grid. rewrite !spacing_spec, length_open, length_theta. rewrite (proj2 (Nat.leb_le _ _) H1), (proj2 (Nat.leb_le _ _) H2).
  rewrite (proj2 (Nat.eqb_neq n_theta 0)) by lia. eexists. split; [reflexivity|]. rewrite map_length, seq_length. split; [reflexivity|].
  intros p I. apply in_map_iff in I. destruct I as (k & <- & _). destruct rnd; apply polar_on_sphere.
Qed.
(** Each ring k of the grid without jitter has polar angle (k + 1/2) pi / n_theta. *)
Lemma polar_grid_heights n_phi n_theta : (2 <= n_phi)%nat -> (2 <= n_theta)%nat ->
  exists l, spherical_polar_grid n_phi n_theta None = Ok l /\
  forall i j, (i < n_phi)%nat -> (j < n_theta)%nat -> height (nth (i * n_theta + j) l None) (cos ((2 * INR j + 1) * (PI / (2 * INR n_theta)))).
Proof.
  intros H1 H2. unfold spherical_polar_grid. rewrite !spacing_spec, length_open, length_theta. rewrite (proj2 (Nat.leb_le _ _) H1), (proj2 (Nat.leb_le _ _) H2).
  rewrite (proj2 (Nat.eqb_neq n_theta 0)) by lia. eexists. split; [reflexivity|]. intros i j Hi Hj.
  assert (K : (i * n_theta + j < n_phi * n_theta)%nat) by nia.
  rewrite (map_nth_indep _ _ _ 0%nat None) by (rewrite seq_length; exact K). rewrite seq_nth by exact K. cbn [plus].
  rewrite (Nat.add_comm (i * n_theta)), Nat.mod_add by lia. rewrite (Nat.mod_small j) by exact Hj. rewrite nth_theta by exact Hj.
  unfold polar_to_cart. do 2 eexists. reflexivity.
Qed.
Lemma polar_grid_small n_phi n_theta rnd : n_phi = 1%nat \/ n_theta = 1%nat -> spherical_polar_grid n_phi n_theta rnd = Err IndexErr.
Proof.
  intros H. unfold spherical_polar_grid. rewrite !spacing_spec, length_open, length_theta.
  destruct (Nat.leb_spec 2 n_phi) as [A|A]; [|reflexivity]. destruct H as [->| ->]; [lia|reflexivity].
Qed.

(** ** The number of points of a projected or polar grid *)
Lemma gridpts_spec npts : let n := fst (check_gridpts npts) in (npts <= 2 * n * n)%nat /\ forall m, (npts <= 2 * m * m)%nat -> (n <= m)%nat.
Proof.
  cbn zeta. unfold check_gridpts. cbn [fst]. set (r := sqrt (INR npts / 2)). pose proof (pos_INR npts) as PN.
  assert (R0 : 0 <= r) by apply sqrt_pos. assert (R2 : r * r = INR npts / 2) by (apply sqrt_sqrt; lra).
  destruct (base_Int_part (- r)) as [A B]. set (z := Int_part (- r)) in *. clearbody z.
  assert (Z0 : (0 <= - z)%Z) by (apply le_IZR; rewrite opp_IZR; lra).
  set (n := Z.to_nat (- z)). assert (En : INR n = - IZR z) by (unfold n; rewrite INR_IZR_INZ, Z2Nat.id by exact Z0; apply opp_IZR).
  split.
  - apply INR_le. rewrite !mult_INR. change (INR 2) with 2. assert (r <= INR n) by lra. nra.
  - intros m Hm. apply le_INR in Hm. rewrite !mult_INR in Hm. change (INR 2) with 2 in Hm. pose proof (pos_INR m) as PM.
    assert (r <= INR m) by (apply Rsqr_incr_0; unfold Rsqr; lra).
    assert (L : INR n < INR (S m)) by (rewrite S_INR; lra). apply INR_lt in L. lia.
Qed.
Lemma gridpts_message npts k : snd (check_gridpts npts) = Some k -> k = npts /\ (k < 2 * fst (check_gridpts npts) * fst (check_gridpts npts))%nat.
Proof.
  destruct (gridpts_spec npts) as [A _]. unfold check_gridpts in *. cbn [fst snd] in *. set (n := Z.to_nat _) in *. destruct (Nat.eqb_spec (n ^ 2 * 2) npts) as [E|E]; [discriminate|].
  intros F. injection F as <-. split; [reflexivity|]. cbn [Nat.pow] in E. lia.
Qed.
