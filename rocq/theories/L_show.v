From Coq Require Import String.
From Verif Require Import Base Vec3 L_util M_qpts M_path M_sample S_sample L_sample L_sample2 M_show S_show.
Open Scope R_scope.

Lemma scatter_some {A} (draw : list A -> drawing) l : (0 < length l)%nat -> scatter draw (Ok l) = Ok (draw l).
Proof. destruct l; [cbn; lia|reflexivity]. Qed.
Lemma ranged_nat {A} npts (f : nat -> res (list A) serr) : (0 <= npts)%Z -> ranged npts f = f (Z.to_nat npts).
Proof. intros H. unfold ranged. rewrite (proj2 (Z.ltb_ge npts 0) H). reflexivity. Qed.
Lemma ceil_sqrt_spec c k : (0 < c)%nat -> exists n, ceil_sqrt (INR k / INR c) = Ok n /\ least_grid c k n.
Proof.
  intros Hc. pose proof (pos_INR k) as PK. assert (PC : 0 < INR c) by (apply lt_0_INR; exact Hc).
  assert (Q : 0 <= INR k / INR c) by (apply Rmult_le_pos; [exact PK|left; apply Rinv_0_lt_compat; exact PC]).
  unfold ceil_sqrt. destruct (Rltb_spec (INR k / INR c) 0) as [H|_]; [lra|]. eexists. split; [reflexivity|].
  set (r := sqrt (INR k / INR c)). assert (R0 : 0 <= r) by apply sqrt_pos. assert (R2 : r * r = INR k / INR c) by (apply sqrt_sqrt; exact Q).
  assert (R3 : INR c * (r * r) = INR k) by (rewrite R2; field; lra).
  destruct (base_Int_part (- r)) as [A B]. set (z := Int_part (- r)) in *. clearbody z.
  assert (Z0 : (0 <= - z)%Z) by (apply le_IZR; rewrite opp_IZR; lra).
  set (n := Z.to_nat (- z)). assert (En : INR n = - IZR z) by (unfold n; rewrite INR_IZR_INZ, Z2Nat.id by exact Z0; apply opp_IZR).
  split.
  - apply INR_le. rewrite !mult_INR. rewrite <- R3, Rmult_assoc. apply Rmult_le_compat_l; [lra|]. assert (r <= INR n) by lra. nra.
  - intros m Hm. apply le_INR in Hm. rewrite !mult_INR in Hm. rewrite <- R3, Rmult_assoc in Hm. apply Rmult_le_reg_l in Hm; [|exact PC]. pose proof (pos_INR m) as PM.
    assert (r <= INR m) by (apply Rsqr_incr_0; unfold Rsqr; lra).
    assert (L : INR n < INR (S m)) by (rewrite S_INR; lra). apply INR_lt in L. lia.
Qed.
Lemma div_one x : x / INR 1 = x.
Proof. change (INR 1) with 1. field. Qed.
Lemma grid_pos c k n : (0 < k)%nat -> least_grid c k n -> (0 < n)%nat.
Proof. intros H [A _]. destruct n; [lia|lia]. Qed.
Lemma npts_real npts : (0 <= npts)%Z -> IZR npts = INR (Z.to_nat npts).
Proof. intros H. rewrite INR_IZR_INZ, Z2Nat.id by exact H. reflexivity. Qed.
Lemma gridded_run c npts (count : nat -> nat) f (P : nat -> drawing -> Prop) : (0 < c)%nat -> (0 < npts)%Z ->
  (forall n, least_grid c (Z.to_nat npts) n -> count n = (c * n * n)%nat /\ exists d, f n = Ok d /\ P n d) ->
  exists n d msg, gridded npts (IZR npts / INR c) count f = Ok (msg, d) /\ least_grid c (Z.to_nat npts) n /\ P n d /\
  (msg = None <-> npts = Z.of_nat (c * n * n)) /\ forall m, msg = Some m -> m = (c * n * n)%nat.
Proof.
  intros Hc Hn H. unfold gridded. rewrite npts_real by lia. destruct (ceil_sqrt_spec c (Z.to_nat npts) Hc) as (n & -> & G). destruct (H n G) as (Ec & d & -> & Pd).
  exists n, d. eexists. split; [reflexivity|]. split; [exact G|]. split; [exact Pd|]. rewrite Ec. destruct (Z.eqb_spec (Z.of_nat (c * n * n)) npts) as [E|E].
  - split; [split; [intros _; lia|reflexivity]|discriminate].
  - split; [split; [discriminate|intros F; exfalso; apply E; lia]|intros m F; congruence].
Qed.

Section R.
Variables (r : nat -> R * R) (r2 : nat -> nat -> R * R) (always : nat -> R * R) (phi : nat -> R).
Let show := show_sampling r r2 always phi.
Hypotheses (Hr : unit_random r) (Ha : unit_random always).
Lemma jit (j : bool) : jitter_ok (if j then Some r else None).
Proof. destruct j; [exact Hr|exact I]. Qed.

(** On the sphere *)
Lemma show_sphere npts sampling j : (1 <= npts)%Z -> sampling = "golden-sphere"%string \/ sampling = "random-sphere"%string \/ (sampling = "spherical-polar-improved"%string /\ (6 <= npts)%Z) ->
  exists l, show npts sampling j = Ok (None, Solid l) /\ Z.of_nat (length l) = npts /\ forall p, In p l -> on_sphere p.
Proof.
  intros Hn C. assert (K : (1 <= Z.to_nat npts)%nat) by lia. destruct C as [-> | [-> | [-> H6]]]; unfold show, show_sampling; cbn [String.eqb Ascii.eqb Bool.eqb].
  - destruct (golden_sphere_spec (Z.to_nat npts) (if j then Some r else None) ltac:(lia)) as (l & E & L & S1). rewrite ranged_nat by lia. rewrite E, scatter_some by lia.
    exists l. split; [reflexivity|]. split; [lia|exact S1].
  - destruct (random_sphere_spec (Z.to_nat npts) always Ha) as (l & E & L & S1). rewrite ranged_nat by lia. rewrite E, scatter_some by lia.
    exists l. split; [reflexivity|]. split; [lia|exact S1].
  - destruct (improved_spec (Z.to_nat npts) (if j then Some r2 else None) ltac:(lia)) as (l & E & L & S1). rewrite E, scatter_some by lia.
    exists l. split; [reflexivity|]. split; [lia|exact S1].
Qed.
Lemma show_grids npts sampling j : (1 <= npts)%Z -> sampling = "sphere-from-square-grid"%string \/ (sampling = "spherical-polar-grid"%string /\ (3 <= npts)%Z) ->
  exists n msg l, show npts sampling j = Ok (msg, Solid l) /\ least_grid 2 (Z.to_nat npts) n /\ length l = (2 * n * n)%nat /\ (forall p, In p l -> on_sphere p) /\
  (msg = None <-> npts = Z.of_nat (length l)) /\ forall m, msg = Some m -> m = length l.
Proof.
  intros Hn C.
  assert (G : forall f, show npts sampling j = gridded npts (IZR npts / INR 2) (fun n => n ^ 2 * 2)%nat f ->
    (forall n, (1 <= n)%nat -> ((3 <= npts)%Z -> (2 <= n)%nat) -> exists l, f n = Ok (Solid l) /\ length l = (2 * n * n)%nat /\ forall p, In p l -> on_sphere p) ->
    exists n msg l, show npts sampling j = Ok (msg, Solid l) /\ least_grid 2 (Z.to_nat npts) n /\ length l = (2 * n * n)%nat /\ (forall p, In p l -> on_sphere p) /\
    (msg = None <-> npts = Z.of_nat (length l)) /\ forall m, msg = Some m -> m = length l).
  { intros f -> Hf. destruct (gridded_run 2 npts (fun n => n ^ 2 * 2)%nat f (fun n d => exists l, d = Solid l /\ length l = (2 * n * n)%nat /\ forall p, In p l -> on_sphere p)) as (n & d & msg & E & L & (l & -> & Ll & S1) & M1 & M2); [lia|lia| |].
    - intros n L. split; [cbn [Nat.pow]; lia|]. assert (N0 : (0 < Z.to_nat npts)%nat) by lia; pose proof (grid_pos _ _ _ N0 L) as P.
      destruct (Hf n P) as (l & E & Ll & S1); [|exists (Solid l); split; [exact E|exists l; split; [reflexivity|split; [exact Ll|exact S1]]]].
      intros H3. destruct L as [L1 _]. destruct n as [|[|n]]; [lia| |lia]. lia.
    - exists n, msg, l. rewrite Ll. split; [exact E|]. split; [exact L|]. split; [reflexivity|]. split; [exact S1|]. split; [exact M1|exact M2]. }
  destruct C as [-> | [-> H3]].
  - apply (G (fun n => scatter Solid (sphere_from_square_grid (n * 2) n (if j then Some r else None)))); [reflexivity|]. intros n P _.
    destruct (regular_square_in (n * 2) n (if j then Some r else None) ltac:(lia) P (jit j)) as (l & E & Ll & I0). unfold sphere_from_square_grid. rewrite E. cbn [map_ok].
    rewrite scatter_some by (rewrite map_length; lia). eexists. split; [reflexivity|]. rewrite map_length. split; [lia|]. intros p I1. apply in_map_iff in I1. destruct I1 as (q & <- & I1). apply square_on_sphere, I0, I1.
  - apply (G (fun n => scatter Solid (spherical_polar_grid (n * 2) n (if j then Some r else None)))); [reflexivity|]. intros n P P3.
    destruct (polar_grid_spec (n * 2) n (if j then Some r else None) ltac:(lia) (P3 H3)) as (l & E & Ll & S1). rewrite E. specialize (P3 H3). rewrite scatter_some by (rewrite Ll; nia).
    exists l. split; [reflexivity|]. split; [lia|exact S1].
Qed.

(** In the square and the cube *)
Lemma show_square npts sampling j : (1 <= npts)%Z -> sampling = "golden-square"%string \/ sampling = "recurrence-square"%string ->
  exists l, show npts sampling j = Ok (None, Flat l) /\ Z.of_nat (length l) = npts /\ forall p, In p l -> in_square p.
Proof.
  intros Hn [-> | ->]; unfold show, show_sampling; cbn [String.eqb Ascii.eqb Bool.eqb]; rewrite ranged_nat by lia.
  - assert (N0 : (0 < Z.to_nat npts)%nat) by lia. destruct (golden_square_spec (Z.to_nat npts) true (if j then Some r else None) (or_intror N0)) as (l & E & L & S1). rewrite E, scatter_some by lia.
    exists l. split; [reflexivity|]. split; [lia|exact S1].
  - destruct (recurrence_spec (phi 2%nat) (Z.to_nat npts) 2) as [L S1]. rewrite scatter_some by (rewrite map_length; lia). eexists. split; [reflexivity|].
    rewrite map_length, L. split; [lia|]. intros p I0. apply in_map_iff in I0. destruct I0 as (q & <- & I0). destruct (S1 q I0) as [Lq V].
    split; unfold pair_of; cbn [fst snd]; apply V, nth_In; lia.
Qed.
Lemma show_cube npts j : (1 <= npts)%Z ->
  exists l, show npts "recurrence-cube" j = Ok (None, Solid l) /\ Z.of_nat (length l) = npts /\ forall p, In p l -> in_cube p.
Proof.
  intros Hn. unfold show, show_sampling; cbn [String.eqb Ascii.eqb Bool.eqb]; rewrite ranged_nat by lia.
  destruct (recurrence_spec (phi 3%nat) (Z.to_nat npts) 3) as [L S1]. rewrite scatter_some by (rewrite map_length; lia). eexists. split; [reflexivity|].
  rewrite map_length, L. split; [lia|]. intros p I0. apply in_map_iff in I0. destruct I0 as (q & <- & I0). destruct (S1 q I0) as [Lq V].
  exists (nth 0 q 0), (nth 1 q 0), (nth 2 q 0). split; [reflexivity|]. split; [|split]; apply V, nth_In; lia.
Qed.
Lemma show_regular npts j : (1 <= npts)%Z ->
  exists n msg l, show npts "regular-square" j = Ok (msg, Flat l) /\ least_grid 1 (Z.to_nat npts) n /\ length l = (n * n)%nat /\ (forall p, In p l -> in_square p) /\
  (msg = None <-> npts = Z.of_nat (length l)) /\ forall m, msg = Some m -> m = length l.
Proof.
  intros Hn. unfold show, show_sampling; cbn [String.eqb Ascii.eqb Bool.eqb].
  destruct (gridded_run 1 npts (fun n => n ^ 2)%nat (fun n => scatter Flat (regular_square n n true (if j then Some r else None)))
    (fun n d => exists l, d = Flat l /\ length l = (n * n)%nat /\ forall p, In p l -> in_square p)) as (n & d & msg & E & L & (l & -> & Ll & S1) & M1 & M2); [lia|lia| |].
  - intros n L. split; [cbn [Nat.pow]; lia|]. assert (N0 : (0 < Z.to_nat npts)%nat) by lia; pose proof (grid_pos _ _ _ N0 L) as P.
    destruct (regular_square_in n n (if j then Some r else None) P P (jit j)) as (l & -> & Ll & I0). rewrite scatter_some by (rewrite Ll; nia). exists (Flat l). split; [reflexivity|]. exists l. split; [reflexivity|]. split; [exact Ll|exact I0].
  - rewrite div_one in E. exists n, msg, l. rewrite Ll. split; [exact E|]. split; [exact L|]. split; [reflexivity|]. split; [exact S1|].
    rewrite !Nat.mul_1_l in M1, M2. split; [exact M1|exact M2].
Qed.
End R.

(** What is refused *)
Lemma show_unknown r r2 always phi npts sampling j : ~ In sampling (choices_2d ++ choices_3d) -> show_sampling r r2 always phi npts sampling j = Err BadChoice.
Proof.
  intros H. unfold show_sampling. cbn in H.
  repeat match goal with |- context [String.eqb sampling ?s] => destruct (String.eqb_spec sampling s) as [E|_]; [exfalso; subst; tauto|] end. reflexivity.
Qed.
Lemma ceil_zero c : (0 < c)%nat -> ceil_sqrt (0 / INR c) = Ok 0%nat.
Proof. intros H. destruct (ceil_sqrt_spec c 0 H) as (n & E & _ & M). specialize (M 0%nat ltac:(lia)). change (INR 0) with 0 in E. rewrite E. f_equal. lia. Qed.
Lemma ceil_negative x : x < 0 -> ceil_sqrt x = Err NanToInt.
Proof. intros H. unfold ceil_sqrt. rewrite (proj2 (Rltb_iff x 0) H). reflexivity. Qed.
Lemma show_none r r2 always phi npts sampling j d : (npts <= 0)%Z -> show_sampling r r2 always phi npts sampling j <> Ok d.
Proof.
  intros H. assert (T : Z.to_nat npts = 0%nat) by lia.
  assert (RN : forall A (f : nat -> res (list A) serr) dr, f 0%nat = Ok [] \/ (exists e, f 0%nat = Err e) -> quiet (scatter dr (ranged npts f)) <> Ok d).
  { intros A f dr Hf. unfold ranged. destruct (Z.ltb_spec npts 0); [discriminate|]. rewrite T. destruct Hf as [-> | [e ->]]; discriminate. }
  assert (GN : forall c count f, (0 < c)%nat -> (forall d', f 0%nat <> Ok d') -> gridded npts (IZR npts / INR c) count f <> Ok d).
  { intros c count f Hc Hf. unfold gridded. assert (PC : 0 < INR c) by (apply lt_0_INR; exact Hc). destruct (Z.eq_dec npts 0) as [-> | N].
    - rewrite ceil_zero by exact Hc. specialize (Hf). destruct (f 0%nat) eqn:E; [exfalso; exact (Hf _ eq_refl)|discriminate].
    - rewrite ceil_negative; [discriminate|]. assert (L : IZR npts < 0) by (apply IZR_lt; lia). unfold Rdiv. apply Ropp_lt_cancel. rewrite Ropp_0, Ropp_mult_distr_l.
      apply Rmult_lt_0_compat; [lra|apply Rinv_0_lt_compat; exact PC]. }
  unfold show_sampling. cbv zeta.
  destruct (String.eqb sampling "golden-square"); [apply RN; right; eexists; reflexivity|].
  destruct (String.eqb sampling "regular-square"); [rewrite <- (div_one (IZR npts)); apply (GN 1%nat); [lia|intros d'; cbn; discriminate]|].
  destruct (String.eqb sampling "golden-sphere"); [apply RN; right; eexists; reflexivity|].
  destruct (String.eqb sampling "recurrence-square"); [apply RN; left; reflexivity|].
  destruct (String.eqb sampling "spherical-polar-grid"); [apply (GN 2%nat); [lia|]; intros d'; unfold spherical_polar_grid; rewrite spacing_spec, length_open; cbn; discriminate|].
  destruct (String.eqb sampling "sphere-from-square-grid"); [apply (GN 2%nat); [lia|intros d'; cbn; discriminate]|].
  destruct (String.eqb sampling "spherical-polar-improved"); [rewrite T, improved_few by lia; discriminate|].
  destruct (String.eqb sampling "random-sphere"); [apply RN; left; reflexivity|].
  destruct (String.eqb sampling "recurrence-cube"); [apply RN; left; reflexivity|discriminate].
Qed.
Lemma show_small r r2 always phi npts j :
  ((1 <= npts <= 2)%Z -> show_sampling r r2 always phi npts "spherical-polar-grid" j = Err (Sampling IndexErr)) /\
  ((npts < 6)%Z -> show_sampling r r2 always phi npts "spherical-polar-improved" j = Err (Sampling TooFew)).
Proof.
  split; intros H; unfold show_sampling; cbn [String.eqb Ascii.eqb Bool.eqb].
  - unfold gridded. change 2 with (INR 2). rewrite npts_real by lia. destruct (ceil_sqrt_spec 2 (Z.to_nat npts) ltac:(lia)) as (n & -> & L).
    assert (n = 1%nat) as ->. { assert (N0 : (0 < Z.to_nat npts)%nat) by lia; pose proof (grid_pos _ _ _ N0 L). destruct L as [_ L]. specialize (L 1%nat ltac:(lia)). lia. }
    rewrite polar_grid_small by (right; reflexivity). reflexivity.
  - rewrite improved_few by lia. reflexivity.
Qed.

(** The same points as in the powder functions *)
Lemma show_powder r r2 always phi npts powder shown (j : bool) l : same_method powder shown -> (1 <= npts)%nat ->
  get_qpts_sphere npts powder (if j then Some r else None) (if j then Some r2 else None) always = Ok l -> (0 < length l)%nat ->
  exists msg, show_sampling r r2 always phi (Z.of_nat npts) shown j = Ok (msg, Solid l).
Proof.
  intros M Hn E H0. assert (C : fst (check_gridpts npts) = match ceil_sqrt (INR npts / 2) with Ok n => n | Err _ => 0%nat end).
  { unfold check_gridpts, ceil_sqrt. cbn [fst]. pose proof (pos_INR npts). destruct (Rltb_spec (INR npts / 2) 0); [lra|reflexivity]. }
  assert (RN : IZR (Z.of_nat npts) = INR npts) by (rewrite npts_real by lia; rewrite Nat2Z.id; reflexivity).
  destruct (ceil_sqrt_spec 2 npts ltac:(lia)) as (n & En & _). change (INR 2) with 2 in En. rewrite En in C.
  unfold same_method in M. cbn [In] in M.
  destruct M as [M | [M | [M | [M | [M | []]]]]]; injection M as <- <-; unfold show_sampling; cbn [String.eqb Ascii.eqb Bool.eqb];
    unfold get_qpts_sphere in E; cbn [String.eqb Ascii.eqb Bool.eqb] in E; rewrite ?C in E.
  - rewrite ranged_nat, Nat2Z.id, E, scatter_some by (try exact H0; lia). exists None. reflexivity.
  - unfold gridded. rewrite RN, En, E, scatter_some by exact H0. eexists. reflexivity.
  - unfold gridded. rewrite RN, En, E, scatter_some by exact H0. eexists. reflexivity.
  - rewrite Nat2Z.id, E, scatter_some by exact H0. exists None. reflexivity.
  - rewrite ranged_nat, Nat2Z.id, E, scatter_some by (try exact H0; lia). exists None. reflexivity.
Qed.
(** --jitter does nothing for some *)
Lemma show_no_jitter r r2 always phi npts sampling : In sampling ["recurrence-square"; "recurrence-cube"]%string -> (1 <= npts)%Z ->
  show_sampling r r2 always phi npts sampling true = show_sampling r r2 always phi npts sampling false /\ exists d, show_sampling r r2 always phi npts sampling true = Ok (None, d).
Proof.
  intros H Hn. cbn [In] in H. destruct H as [<- | [<- | []]]; (split; [reflexivity|]); unfold show_sampling; cbn [String.eqb Ascii.eqb Bool.eqb]; rewrite ranged_nat by lia.
  - rewrite scatter_some; [eexists; reflexivity|]. rewrite map_length, (proj1 (recurrence_spec _ _ _)). lia.
  - rewrite scatter_some; [eexists; reflexivity|]. rewrite map_length, (proj1 (recurrence_spec _ _ _)). lia.
Qed.
