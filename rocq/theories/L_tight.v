(** Lemmas for theorems added after mutation tests: widths (C56), neutron weights (C22),
    matched steps (C28). *)
From Verif Require Import Base Cpx Vec3 M_qpts M_path M_cell M_broad M_dos M_sf M_reorder S_broad S_dos S_reorder L_util L_qpts L_path L_broad L_broad2 L_broad3 L_dos L_dos2 L_reorder L_reorder2.
Open Scope R_scope.

(** ** Widths *)
Lemma half_maximum shape w s x : sigma_function Fwhm shape w = Ok s -> 0 < w x ->
  kernel_fun shape (s x) (w x / 2) = kernel_fun shape (s x) 0 / 2.
Proof.
  pose proof PI_RGT_0 as Hpi. destruct shape; cbn [sigma_function kernel_fun]; intros E Hw; injection E as <-.
  - unfold norm_pdf. assert (L2 : 0 < ln 2) by (rewrite <- ln_1; apply ln_increasing; lra).
    assert (H8 : 0 < sqrt (8 * ln 2)) by (apply sqrt_lt_R0; lra).
    assert (H2 : 0 < sqrt (2 * PI)) by (apply sqrt_lt_R0; lra).
    replace (- (w x / 2 / (w x / sqrt (8 * ln 2))) ^ 2 / 2) with (- ln 2).
    2:{ replace (w x / 2 / (w x / sqrt (8 * ln 2))) with (sqrt (8 * ln 2) / 2) by (field; split; lra).
        replace ((sqrt (8 * ln 2) / 2) ^ 2) with (sqrt (8 * ln 2) * sqrt (8 * ln 2) / 4) by field. rewrite sqrt_sqrt by lra. field. }
    replace (- (0 / (w x / sqrt (8 * ln 2))) ^ 2 / 2) with 0 by (field; split; lra).
    rewrite exp_0, exp_Ropp, exp_ln by lra. field. repeat split; apply Rgt_not_eq; lra.
  - unfold lorentzian. assert (0 < w x * w x) by (apply Rmult_lt_0_compat; exact Hw). field. repeat split; apply Rgt_not_eq; lra.
Qed.

Lemma widths_floor coeffs bins xw w (lower : option R) lim conv error shape fit sp s : 0 < error ->
  get_spacing error shape fit = Ok sp -> xw <> [] -> increasing bins -> (2 <= length bins)%nat ->
  sigma_function conv shape (fun _ => w) = Ok s -> 0 < Rmax (s 0) lim ->
  (lower = Some lim \/ lower = None /\ is_max lim (map (fun i => nth (S i) bins 0 - nth i bins 0) (seq 0 (length bins - 1)))) ->
  exists y, variable_width_broadening coeffs bins xw (fun _ => w) lower conv error shape fit = Ok y /\ length y = (length bins - 1)%nat /\
  forall i, (i < length bins - 1)%nat ->
    nth i y 0 = Sum xw (fun p => snd p * peak shape bins (nth 1 bins 0 - nth 0 bins 0) (Rmax (s 0) lim) (fst p) i).
Proof.
  intros He Hs Hx Hb Hl Es Hp Hlim. unfold variable_width_broadening. rewrite Es.
  assert (Hc : forall x y, s x = s y).
  { intros x y. destruct conv, shape; cbn in Es; try discriminate; injection Es as <-; reflexivity. }
  assert (El : match lower with Some l => l | None => max_list (np_diffR bins) end = lim).
  { destruct Hlim as [->|[-> H]]; [reflexivity|].
    assert (Eq : np_diffR bins = map (fun i => nth (S i) bins 0 - nth i bins 0) (seq 0 (length bins - 1))).
    { apply (nth_ext _ _ 0 0); [rewrite length_np_diffR, map_length, seq_length; reflexivity|].
      intros i Hi. rewrite length_np_diffR in Hi. rewrite nth_np_diffR by lia.
      rewrite (map_nth_indep _ _ _ 0%nat 0) by (rewrite seq_length; lia). rewrite nth_seq_id by lia. reflexivity. }
    rewrite <- Eq in H. destruct (max_list_spec (np_diffR bins)) as [M1 M2].
    { intros E. apply (f_equal (@length R)) in E. rewrite length_np_diffR in E. cbn in E. lia. }
    destruct H as [H1 H2]. apply Rle_antisym; [apply H2; exact M1|apply M2; exact H1]. }
  rewrite El.
  destruct (single_width coeffs bins (map (fun p => (fst p, Rmax (s (fst p)) lim, snd p)) xw) error shape fit sp (Rmax (s 0) lim) He Hs)
    as (y & Ey & Ly & Ny); try assumption.
  - intros E. apply Hx. destruct xw; [reflexivity|discriminate].
  - intros p I. apply in_map_iff in I. destruct I as (q & <- & _). cbn. rewrite (Hc (fst q) 0). reflexivity.
  - exists y. split; [exact Ey|]. split; [exact Ly|]. intros i Hi. rewrite (Ny i Hi), Sum_map. apply Sum_ext. intros p _. reflexivity.
Qed.

(** ** Neutron weighting *)
Lemma neutron_weights k bins e widths wmin meth sigma mass p : calculate_pdos k bins e widths wmin meth None = Ok p ->
  exists p', calculate_pdos k bins e widths wmin meth (Some (sigma, mass)) = Ok p' /\
  forall a j, (a < n_atoms e)%nat ->
    nth j (nth a p' []) 0 = nth j (nth a p []) 0 * sigma a * (Sum (seq 0 (n_atoms e)) mass / INR (n_atoms e)) / mass a.
Proof.
  unfold calculate_pdos. intros H. destruct (mapE_inv _ _ _ H) as [L N]. rewrite seq_length in *.
  pose (row := fun a => match calculate_dos_data k bins (et e) (Some (evec_weight e a)) widths wmin meth with Ok x => x | Err _ => [] end).
  assert (Hrow : forall a, (a < n_atoms e)%nat -> calculate_dos_data k bins (et e) (Some (evec_weight e a)) widths wmin meth = Ok (row a)).
  { intros a Ha. specialize (N a 0%nat [] Ha). rewrite nth_seq_id in N by exact Ha. unfold row. destruct (calculate_dos_data _ _ _ _ _ _ _); [reflexivity|discriminate]. }
  eexists. split.
  - apply (mapE_list _ (fun a => map (fun x => x * pdos_scale e (Some (sigma, mass)) a) (row a))).
    intros a Ha. apply in_seq in Ha. rewrite Hrow by lia. reflexivity.
  - intros a j Ha. rewrite (map_nth_indep _ _ _ 0%nat []) by (rewrite seq_length; exact Ha). rewrite nth_seq_id by exact Ha.
    specialize (N a 0%nat [] Ha). rewrite nth_seq_id in N by exact Ha. rewrite Hrow in N by exact Ha. injection N as <-.
    destruct (Nat.lt_ge_cases j (length (row a))) as [Lj|Lj].
    + rewrite !(map_nth_indep _ _ _ 0 0) by exact Lj. unfold pdos_scale. unfold Rdiv. ring.
    + rewrite !nth_overflow by (rewrite map_length; exact Lj). unfold Rdiv. ring.
Qed.

(** ** Matched steps *)
Lemma nth_cleared (f : nat -> nat) is : forall c i, (i < length c)%nat ->
  nth i (fold_left (fun c k => set_nth c (f k) false) is c) false = true <-> nth i c false = true /\ ~ In i (map f is).
Proof.
  induction is as [|k is IH]; intros c i Hi; cbn [fold_left map In].
  - tauto.
  - rewrite IH by (rewrite length_set_nth; exact Hi). rewrite L_dos.nth_set_nth by exact Hi.
    destruct (Nat.eqb_spec (f k) i); [|tauto]. split; [intros [A _]; discriminate|]. tauto.
Qed.
Lemma length_cleared (f : nat -> nat) is : forall c, length (fold_left (fun c k => set_nth c (f k) false) is c) = length c.
Proof. induction is as [|k is IH]; intros c; cbn [fold_left]; [reflexivity|]. rewrite IH. apply length_set_nth. Qed.

Lemma matched_steps tol rg qpts i : (S i < length qpts)%nat ->
  nth i (calc_reorder tol rg qpts) false = true <->
  (i = 0%nat \/ exists j, i = S j /\ nth j (direction_changed tol qpts) false = false) /\
  (rg = false -> is_gamma (nth i qpts vzero) = false /\ is_gamma (nth (S i) qpts vzero) = false).
Proof.
  intros Hi. unfold calc_reorder. set (c := true :: map negb (direction_changed tol qpts)).
  assert (Lc : length c = (length qpts - 1)%nat) by (unfold c; cbn [length]; rewrite map_length, length_direction_changed; lia).
  assert (Nc : nth i c false = true <-> (i = 0%nat \/ exists j, i = S j /\ nth j (direction_changed tol qpts) false = false)).
  { unfold c. destruct i as [|i]; cbn [nth]; [tauto|].
    rewrite (map_nth_indep _ _ _ false false) by (rewrite length_direction_changed; lia). rewrite negb_true_iff. split.
    - intros E. right. exists i. split; [reflexivity|exact E].
    - intros [E|(j & E & F)]; [discriminate|]. injection E as <-. exact F. }
  destruct rg.
  - rewrite Nc. split; [intros A; split; [exact A|discriminate]|]. intros [A _]. exact A.
  - set (g := where_true (map is_gamma qpts)).
    assert (Ig : forall k, In k g <-> (k < length qpts)%nat /\ is_gamma (nth k qpts vzero) = true).
    { intros k. unfold g. rewrite in_where_true, map_length. split; intros [A B]; split; try exact A.
      - rewrite (map_nth_indep _ _ _ vzero false) in B by exact A. exact B.
      - rewrite (map_nth_indep _ _ _ vzero false) by exact A. exact B. }
    rewrite (nth_cleared (fun k => k)) by (rewrite length_cleared; lia). rewrite (nth_cleared (fun k => (k - 1)%nat)) by lia. rewrite map_id, Nc.
    split.
    + intros [[A B] D]. split; [exact A|]. intros _. split.
      * destruct (is_gamma (nth i qpts vzero)) eqn:G; [|reflexivity]. exfalso. apply D. apply filter_In. split; [apply Ig; split; [lia|exact G]|].
        apply Nat.ltb_lt. lia.
      * destruct (is_gamma (nth (S i) qpts vzero)) eqn:G; [|reflexivity]. exfalso. apply B. apply in_map_iff. exists (S i). split; [lia|].
        apply filter_In. split; [apply Ig; split; [lia|exact G]|reflexivity].
    + intros [A B]. destruct (B eq_refl) as [B1 B2]. split; [split; [exact A|]|].
      * intros I. apply in_map_iff in I. destruct I as (k & E & I). apply filter_In in I. destruct I as [I K]. apply Nat.ltb_lt in K.
        apply Ig in I. assert (k = S i) by lia. subst k. destruct I. congruence.
      * intros I. apply filter_In in I. destruct I as [I _]. apply Ig in I. destruct I. congruence.
Qed.

Lemma maps_keep N flags ev : forall k i pm ms, (0 < i)%nat -> mode_maps N flags ev i k pm = Ok ms ->
  forall t, (t < k)%nat -> nth (i + t - 1) flags false = false -> nth (S t) (pm :: ms) [] = nth t (pm :: ms) [].
Proof.
  induction k as [|k IH]; intros i pm ms Hi H t Ht F; [lia|]. cbn [mode_maps] in H.
  destruct (next_map N (nth (i - 1) flags false) (ev (i - 1)%nat) (ev i) pm) as [mp|] eqn:En; [|discriminate].
  destruct (mode_maps N flags ev (S i) k mp) as [r|] eqn:Er; [|discriminate]. injection H as <-.
  destruct t as [|t].
  - rewrite Nat.add_0_r in F. rewrite F in En. unfold next_map in En. injection En as <-. reflexivity.
  - change (nth (S t) (mp :: r) [] = nth t (mp :: r) []). apply (IH (S i) mp r); [lia|exact Er|lia|]. replace (S i + t - 1)%nat with (i + S t - 1)%nat by lia. exact F.
Qed.
Lemma unmatched_kept tol rg qpts e e' t : reorder_frequencies tol rg qpts e = Ok e' -> (1 <= t < nq (et e))%nat ->
  nth (t - 1) (calc_reorder tol rg qpts) false = false ->
  exists perm : list nat, forall b, 
    freq (et e') (t - 1) b = freq (et e) (t - 1) (nth b perm 0%nat) /\ freq (et e') t b = freq (et e) t (nth b perm 0%nat) /\
    forall a l, evec e' (t - 1)%nat b a l = evec e (t - 1)%nat (nth b perm 0%nat) a l /\ evec e' t b a l = evec e t (nth b perm 0%nat) a l.
Proof.
  unfold reorder_frequencies, reorder_maps. intros H Ht F.
  destruct (mode_maps _ _ _ _ _ _) as [ms|] eqn:Em; [|discriminate].
  assert (Si : forall x y : etable, @Ok _ rerr x = Ok y -> x = y) by congruence. apply Si in H. subst e'. clear Si.
  assert (H1 : (t - 1 < nq (et e) - 1)%nat) by lia. assert (F' : nth (1 + (t - 1) - 1) (calc_reorder tol rg qpts) false = false)
    by (replace (1 + (t - 1) - 1)%nat with (t - 1)%nat by lia; exact F).
  pose proof (maps_keep _ _ _ _ _ _ _ (Nat.lt_0_1) Em (t - 1)%nat H1 F') as K.
  replace (S (t - 1)) with t in K by lia.
  set (M := seq 0 (3 * n_atoms e) :: ms) in *. clearbody M. cbn [et freq evec].
  exists (nth t M []). intros b. rewrite <- K. repeat split; reflexivity.
Qed.
