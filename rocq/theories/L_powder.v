(** Lemmas for C80: the powder map tool. *)
From Coq Require Import String.
From Verif Require Import Base Cpx Vec3 M_cell M_qpts M_path M_broad S_broad M_dos M_bins M_sample M_kin M_fixed M_clidos M_powder
  S_dos S_sample S_fixed S_clidos S_powder L_util L_qpts L_cell L_dos L_dos2 L_path L_path2 L_sample L_sample2 L_sample3 L_sample4 L_conv L_clidos2.
Open Scope R_scope.

Lemma linspace_even lo hi n : (1 <= n)%nat -> even_bins lo hi n (linspace lo hi (n + 1)).
Proof.
  intros Hn. split; [apply length_linspace|]. intros i Hi. rewrite nth_linspace by lia. replace (n + 1 - 1)%nat with n by lia. reflexivity.
Qed.
Lemma ceil_nat x : 0 <= x -> rounded_up x (Z.to_nat (Rceil x)).
Proof.
  intros Hx. pose proof (Rceil_bounds x) as [B1 B2].
  assert (H0 : (0 <= Rceil x)%Z) by (apply le_IZR; lra). split.
  - rewrite INR_IZR_INZ, Z2Nat.id by exact H0. exact B1.
  - intros m Hm. rewrite INR_IZR_INZ in Hm. pose proof (Rceil_least x _ Hm). lia.
Qed.
Lemma shells a : 0 < q_spacing a -> q_min a < q_max a -> (0 < n_q_bins a)%Z.
Proof.
  intros Hs Hq. unfold n_q_bins. pose proof (Rceil_bounds ((q_max a - q_min a) / q_spacing a)) as [B _].
  apply lt_IZR. apply Rlt_le_trans with ((q_max a - q_min a) / q_spacing a); [|exact B]. apply Rdiv_lt_0_compat; lra.
Qed.
Lemma q_axis a : 0 < q_spacing a -> q_min a < q_max a -> let n := Z.to_nat (n_q_bins a) in
  (1 <= n)%nat /\ even_bins (q_min a) (q_max a) n (q_edges a) /\ (q_max a - q_min a) / INR n <= q_spacing a /\
  forall m, (1 <= m)%nat -> (q_max a - q_min a) / INR m <= q_spacing a -> (n <= m)%nat.
Proof.
  intros Hs Hq n. pose proof (shells a Hs Hq) as Hp. assert (Hn : (1 <= n)%nat) by (unfold n; lia).
  assert (N0 : 0 < INR n) by (apply lt_0_INR; lia).
  assert (X0 : 0 <= (q_max a - q_min a) / q_spacing a) by (apply Rlt_le, Rdiv_lt_0_compat; lra).
  destruct (ceil_nat _ X0) as [C1 C2]. fold (n_q_bins a) in C1, C2. fold n in C1, C2.
  split; [exact Hn|]. split; [apply linspace_even, Hn|]. split.
  - apply (Rmult_le_reg_r (INR n)); [exact N0|]. unfold Rdiv at 1. rewrite Rmult_assoc, Rinv_l, Rmult_1_r by lra.
    apply (Rmult_le_compat_r (q_spacing a)) in C1; [|lra]. unfold Rdiv in C1. rewrite Rmult_assoc, Rinv_l, Rmult_1_r in C1 by lra. lra.
  - intros m Hm Hw. apply C2. assert (M0 : 0 < INR m) by (apply lt_0_INR; lia).
    apply (Rmult_le_reg_r (q_spacing a)); [exact Hs|]. unfold Rdiv at 1. rewrite Rmult_assoc, Rinv_l, Rmult_1_r by lra.
    apply (Rmult_le_compat_r (INR m)) in Hw; [|lra]. unfold Rdiv in Hw. rewrite Rmult_assoc, Rinv_l, Rmult_1_r in Hw by lra. lra.
Qed.
Lemma length_qc a : (1 <= length (q_edges a))%nat -> length (q_centres a) = (length (q_edges a) - 1)%nat.
Proof. intros H. unfold q_centres. rewrite map_length, combine_length, length_tl. lia. Qed.
Lemma nth_comb {A B} (l : list A) (l' : list B) i a b : (i < length l)%nat -> (i < length l')%nat -> nth i (combine l l') (a, b) = (nth i l a, nth i l' b).
Proof.
  revert l' i. induction l as [|x l IH]; intros [|y l'] [|i]; cbn; intros H1 H2; try lia; [reflexivity|]. apply IH; lia.
Qed.
Lemma nth_qc a i d : (S i < length (q_edges a))%nat -> nth i (q_centres a) d = bin_middle (q_edges a) i.
Proof.
  intros H. unfold q_centres, bin_middle. rewrite (map_nth_indep _ _ _ (0, 0) d) by (rewrite combine_length, length_tl; lia).
  rewrite nth_comb by (rewrite ?length_tl; lia). cbn [fst snd]. rewrite nth_tl. reflexivity.
Qed.

Lemma npts_spec a q : 0 <= q -> (npts_density a = None -> shell_npts a q = p_npts a) /\
  (forall d, npts_density a = Some d -> 0 <= d -> exists w, rounded_up (d * q ^ 2) w /\
     ((w <= npts_min a)%nat -> shell_npts a q = npts_min a) /\
     ((npts_max a <= w)%nat -> (npts_min a <= npts_max a)%nat -> shell_npts a q = npts_max a) /\
     ((npts_min a <= w <= npts_max a)%nat -> shell_npts a q = w) /\
     ((npts_max a < npts_min a)%nat -> shell_npts a q = npts_min a)).
Proof.
  intros Hq. unfold shell_npts. split; [intros ->; reflexivity|]. intros d -> Hd. exists (Z.to_nat (Rceil (d * q ^ 2))).
  split; [apply ceil_nat, Rmult_le_pos; [exact Hd|apply pow_le, Hq]|]. repeat split; intros; lia.
Qed.

(** The rows *)
Lemma Sum_seq_nth {A} (l : list A) d f : Sum (seq 0 (length l)) (fun i => f (nth i l d)) = Sum l f.
Proof. rewrite <- (map_nth_seq' l d) at 2. rewrite Sum_map. reflexivity. Qed.
Lemma modes_in_at k omega nm ps lo hi w i : modes_in k (mkF (length ps) nm (fun i m => omega (nth i ps vzero) m) w) lo hi i = modes_at k omega nm lo hi (nth i ps vzero).
Proof.
  unfold modes_in, modes_at, inside. cbn [freq M_dos.nm]. unfold sumn. induction (seq 0 nm) as [|m l IH]; [reflexivity|].
  cbn [filter]. rewrite Sum_cons. destruct (_ && _)%bool; cbn [length]; [rewrite S_INR|]; rewrite IH; lra.
Qed.
Lemma dos_row_spec solve recip omega nm k wmin sampling rnd rnd2 always bins q n l : solves solve -> det3 recip <> 0 -> 0 <= q ->
  get_qpts_sphere n sampling rnd rnd2 always = Ok l -> l <> [] -> (forall p, In p l -> on_sphere p) ->
  0 < k -> increasing bins -> (2 <= length bins)%nat ->
  exists ps d, dos_row solve recip omega nm k wmin sampling rnd rnd2 always bins q n = Ok d /\ length ps = length l /\
  (forall p, In p ps -> norm (vmul p recip) = q) /\ length d = (length bins - 1)%nat /\
  forall j, (j < length bins - 1)%nat -> nth j d 0 * (nth (S j) bins 0 - nth j bins 0)
    = 3 / INR nm * average ps (modes_at k omega nm (nth j bins 0) (nth (S j) bins 0)).
Proof.
  intros So De Hq El Nl On Hk Inc L2. destruct (powder_shell solve recip q n sampling rnd rnd2 always l So De Hq El On) as (qs & Eq & Lq & Nq).
  set (ps := map (fun o => match o with Some p => p | None => vzero end) qs).
  assert (Ep : mapE (fun o : option V3 => match o with Some p => Ok p | None => Err NotFinite end) qs = Ok ps).
  { apply mapE_list. intros o I. destruct (In_nth _ _ None I) as (i & Hi & <-). rewrite Lq in Hi. destruct (Nq i Hi) as (x & p & -> & _). reflexivity. }
  assert (Lp : length ps = length l) by (unfold ps; rewrite map_length; exact Lq).
  assert (P0 : 0 < INR (length ps)) by (apply lt_0_INR; rewrite Lp; destruct l; [congruence|cbn; lia]).
  unfold dos_row. rewrite Eq, Ep. set (t := mkF (length ps) nm (fun i m => omega (nth i ps vzero) m) (fun _ => 1 / INR (length ps))).
  assert (Tw : total_weight t = 1).
  { unfold total_weight, t. cbn [nq wt]. rewrite Sum_const, seq_length. field. lra. }
  destruct (dos_bins_count k bins t wmin Reference Hk Inc L2) as (d & Ed & Ld & Nd & _); [rewrite Tw; lra|].
  exists ps, d. rewrite Ed. split; [reflexivity|]. split; [exact Lp|]. split; [|split; [exact Ld|]].
  - intros p I. unfold ps in I. apply in_map_iff in I. destruct I as (o & <- & I). destruct (In_nth _ _ None I) as (i & Hi & <-).
    rewrite Lq in Hi. destruct (Nq i Hi) as (x & p' & -> & _ & _ & E). exact E.
  - intros j Hj. rewrite (Nd j Hj). change (M_dos.nm t) with nm. f_equal. unfold wmean, average. rewrite Tw.
    rewrite <- (Sum_seq_nth ps vzero). unfold Rdiv at 1 2. rewrite Rinv_1, Rmult_1_r, <- Sum_scal_r. apply Sum_ext. intros i _.
    unfold t at 1. cbn [wt]. unfold t. rewrite modes_in_at. field. lra.
Qed.
Lemma pbins_inc a f0 fs room bins : p_energy_bins a f0 fs room = Ok bins -> length bins = (p_ebins a + 1)%nat /\ increasing bins.
Proof.
  unfold p_energy_bins, get_energy_bins. set (lo := match p_emin a with Some e => e | None => _ end). cbv zeta.
  set (hi := match _ with Some e => e | None => Rmax_list f0 fs * _ end).
  destruct (Rleb_spec hi lo) as [H|H]; [discriminate|]. intros E. injection E as <-. split; [apply length_linspace|].
  apply incr_of_steps. intros i Hi. rewrite length_linspace in Hi. apply linspace_step; [exact Hi|lra].
Qed.

Lemma mapE_each {A B E} (f : A -> res B E) l : (forall a, In a l -> exists b, f a = Ok b) -> exists r, mapE f l = Ok r.
Proof.
  induction l as [|a l IH]; intros H; [exists []; reflexivity|]. destruct (H a (or_introl eq_refl)) as [b Eb].
  destruct IH as [r Er]; [intros x I; apply H; right; exact I|]. exists (b :: r). cbn [mapE]. rewrite Eb, Er. reflexivity.
Qed.
Lemma middle_nonneg a i : 0 <= q_min a -> q_min a < q_max a -> 0 < q_spacing a -> (i < Z.to_nat (n_q_bins a))%nat -> 0 <= bin_middle (q_edges a) i.
Proof.
  intros H0 Hq Hs Hi. destruct (q_axis a Hs Hq) as (Hn & [Le Ne] & _). unfold bin_middle. rewrite !Ne by lia.
  assert (0 < INR (Z.to_nat (n_q_bins a))) by (apply lt_0_INR; lia).
  assert (W : 0 < (q_max a - q_min a) / INR (Z.to_nat (n_q_bins a))) by (apply Rdiv_lt_0_compat; lra).
  pose proof (pos_INR i). pose proof (pos_INR (S i)). assert (0 <= INR i * ((q_max a - q_min a) / INR (Z.to_nat (n_q_bins a)))) by (apply Rmult_le_pos; lra).
  assert (0 <= INR (S i) * ((q_max a - q_min a) / INR (Z.to_nat (n_q_bins a)))) by (apply Rmult_le_pos; lra). lra.
Qed.
Lemma tool_rows coeffs hm room row f0 fs a bins : 0 < q_spacing a -> q_min a < q_max a -> p_energy_bins a f0 fs room = Ok bins ->
  p_qb a = None -> p_eb a = None -> p_ei a = None -> p_ef a = None ->
  (forall i, (i < Z.to_nat (n_q_bins a))%nat -> exists d, row bins (bin_middle (q_edges a) i) (shell_npts a (bin_middle (q_edges a) i)) = Ok d) ->
  exists z, powder_tool coeffs hm room row f0 fs a = Ok (q_edges a, bins, z) /\
  forall i d, (i < Z.to_nat (n_q_bins a))%nat -> row bins (bin_middle (q_edges a) i) (shell_npts a (bin_middle (q_edges a) i)) = Ok d ->
  forall j, z i j = Some (p_factor a * nth j d 0).
Proof.
  intros Hs Hq Eb Wq We Ki Kf Hr. destruct (q_axis a Hs Hq) as (Hn & [Le Ne] & _). pose proof (shells a Hs Hq) as Hp.
  assert (Lc : length (q_centres a) = Z.to_nat (n_q_bins a)) by (rewrite length_qc; lia).
  destruct (mapE_each (fun q => row bins q (shell_npts a q)) (q_centres a)) as [z Ez].
  { intros q I. destruct (In_nth _ _ 0 I) as (i & Hi & <-). rewrite nth_qc by lia. apply Hr. lia. }
  unfold powder_tool. destruct (Reqb_spec (q_spacing a) 0) as [Z|_]; [lra|]. destruct (Z.leb_spec (n_q_bins a) 0) as [Z|_]; [lia|].
  rewrite Eb, Ez. unfold p_broaden. rewrite We, Wq. unfold p_constrain. rewrite Ki, Kf. eexists. split; [reflexivity|].
  intros i d Hi Ed j. destruct (mapE_inv _ _ _ Ez) as [Lz Nz]. specialize (Nz i 0 [] ltac:(lia)). cbv beta in Nz. rewrite nth_qc in Nz by lia.
  rewrite Ed in Nz. injection Nz as Ez'. unfold p_scaled, entries, option_map, p_factor. rewrite <- Ez'. destruct (p_scale a); f_equal; lra.
Qed.
Lemma dos_map coeffs hm room solve recip omega nm k wmin sampling rnd rnd2 always f0 fs a bins :
  solves solve -> det3 recip <> 0 -> 0 <= q_min a -> q_min a < q_max a -> 0 < q_spacing a -> 0 < k -> (1 <= p_ebins a)%nat ->
  p_qb a = None -> p_eb a = None -> p_ei a = None -> p_ef a = None -> p_energy_bins a f0 fs room = Ok bins ->
  (forall q, 0 <= q -> exists l, get_qpts_sphere (shell_npts a q) sampling rnd rnd2 always = Ok l /\ l <> [] /\ forall p, In p l -> on_sphere p) ->
  exists z, powder_tool coeffs hm room (dos_row solve recip omega nm k wmin sampling rnd rnd2 always) f0 fs a = Ok (q_edges a, bins, z) /\
  forall i, (i < Z.to_nat (n_q_bins a))%nat -> let q := bin_middle (q_edges a) i in
  exists ps, (forall l, get_qpts_sphere (shell_npts a q) sampling rnd rnd2 always = Ok l -> length ps = length l) /\
    (forall p, In p ps -> norm (vmul p recip) = q) /\
    forall j, (j < p_ebins a)%nat -> exists v, z i j = Some v /\
      v * (nth (S j) bins 0 - nth j bins 0) = p_factor a * (3 / INR nm * average ps (modes_at k omega nm (nth j bins 0) (nth (S j) bins 0))).
Proof.
  intros So De H0 Hq Hs Hk Hb Wq We Ki Kf Eb Hsp. destruct (pbins_inc _ _ _ _ _ Eb) as [Lb Ib].
  set (row := dos_row solve recip omega nm k wmin sampling rnd rnd2 always).
  assert (Rs : forall i, (i < Z.to_nat (n_q_bins a))%nat -> let q := bin_middle (q_edges a) i in exists l ps d,
     get_qpts_sphere (shell_npts a q) sampling rnd rnd2 always = Ok l /\ row bins q (shell_npts a q) = Ok d /\ length ps = length l /\
     (forall p, In p ps -> norm (vmul p recip) = q) /\
     forall j, (j < length bins - 1)%nat -> nth j d 0 * (nth (S j) bins 0 - nth j bins 0)
       = 3 / INR nm * average ps (modes_at k omega nm (nth j bins 0) (nth (S j) bins 0))).
  { intros i Hi q. pose proof (middle_nonneg a i H0 Hq Hs Hi) as Q0. fold q in Q0. destruct (Hsp q Q0) as (l & El & Nl & On).
    destruct (dos_row_spec solve recip omega nm k wmin sampling rnd rnd2 always bins q (shell_npts a q) l So De Q0 El Nl On Hk Ib ltac:(lia))
      as (ps & d & E1 & E2 & E3 & _ & E5). exists l, ps, d. repeat (split; [assumption|]). exact E5. }
  destruct (tool_rows coeffs hm room row f0 fs a bins Hs Hq Eb Wq We Ki Kf) as (z & Ez & Nz).
  { intros i Hi. destruct (Rs i Hi) as (l & ps & d & _ & E & _). exists d. exact E. }
  exists z. split; [exact Ez|]. intros i Hi q. destruct (Rs i Hi) as (l & ps & d & El & Ed & Lp & Np & Nd). fold q in El, Ed, Np.
  exists ps. split; [intros l' El'; congruence|]. split; [exact Np|]. intros j Hj. exists (p_factor a * nth j d 0). split; [apply Nz; assumption|].
  rewrite Rmult_assoc, Nd by lia. reflexivity.
Qed.

(** The energy axis *)
Lemma energy_axis a f0 fs room bins : (1 <= p_ebins a)%nat -> p_energy_bins a f0 fs room = Ok bins ->
  exists lo hi, lo < hi /\ even_bins lo hi (p_ebins a) bins /\ (forall e, p_emin a = Some e -> lo = e) /\ (forall e, p_emax a = Some e -> hi = e) /\
  (forall e, p_emax a = None -> p_ei a = Some e -> hi = e) /\
  (p_emax a = None -> p_ei a = None -> hi = 12 / 10 * Rmax_list f0 fs) /\ (p_emin a = None -> lo = Rmin (Rmin_list f0 fs - room) 0).
Proof.
  intros Hn. unfold p_energy_bins, get_energy_bins. set (lo := match p_emin a with Some e => e | None => _ end). cbv zeta.
  set (hi := match _ with Some e => e | None => Rmax_list f0 fs * _ end).
  destruct (Rleb_spec hi lo) as [H|H]; [discriminate|]. intros E. injection E as <-. exists lo, hi. split; [lra|]. split; [apply linspace_even, Hn|].
  unfold lo, hi. repeat split; intros; destruct (p_emin a), (p_emax a), (p_ei a); try congruence; lra.
Qed.

(** Nothing is drawn if all modes are above the range estimated at one q-point. *)
Definition far_omega (p : V3) (m : nat) : R := let '(x, y, z) := p in if (Reqb x 0 && Reqb y 0 && Reqb z (1 / 2))%bool then 1 else 2.
Definition plain_args : pargs := mkPA 1 2 1 10 None 100 1000 5 None None None None (0, 180) None None "gauss" None.
Definition unit_cell : M3 := ((1, 0, 0), (0, 1, 0), (0, 0, 1)).
Lemma far_bins room : 0 < room -> exists bins, p_energy_bins plain_args 1 [1; 1] room = Ok bins /\ length bins = 6%nat /\ nth 5 bins 0 = 12 / 10.
Proof.
  intros Hr. unfold p_energy_bins, get_energy_bins, Rmin_list, Rmax_list. cbn [fold_left plain_args p_emin p_emax p_ei p_ebins plus].
  replace (Rmax 1 1) with 1 by (symmetry; apply Rmax_left; lra). replace (Rmax 1 1) with 1 by (symmetry; apply Rmax_left; lra).
  replace (Rmin 1 1) with 1 by (symmetry; apply Rmin_left; lra). replace (Rmin 1 1) with 1 by (symmetry; apply Rmin_left; lra).
  assert (Rmin (1 - room) 0 <= 0) by apply Rmin_r.
  destruct (Rleb_spec (1 * (12 / 10)) (Rmin (1 - room) 0)) as [H1|H1]; [lra|]. eexists. split; [reflexivity|]. split; [apply length_linspace|].
  destruct (linspace_ends (Rmin (1 - room) 0) (1 * (12 / 10)) 6 ltac:(lia)) as [_ T]. eapply eq_trans; [exact T|lra].
Qed.
Lemma all_missed coeffs hm room solve wmin : 0 < room -> solves solve -> exists bins z,
  powder_tool coeffs hm room (dos_row solve unit_cell far_omega 3 1 wmin "golden" None None (fun _ => (0, 0))) 1 [1; 1] plain_args
    = Ok (q_edges plain_args, bins, z) /\ n_q_bins plain_args = 1%Z /\ length bins = 6%nat /\
  (forall m, far_omega (0, 0, 1 / 2) m = 1) /\ (forall p m, norm (vmul p unit_cell) = 3 / 2 -> far_omega p m = 2) /\
  bin_middle (q_edges plain_args) 0 = 3 / 2 /\ forall j, (j < 5)%nat -> z 0%nat j = Some 0.
Proof.
  intros Hr So. destruct (far_bins room Hr) as (bins & Eb & Lb & Tb).
  assert (Fx : forall m, far_omega (0, 0, 1 / 2) m = 1).
  { intros m. unfold far_omega. destruct (Reqb_spec 0 0); [|congruence]. destruct (Reqb_spec (1 / 2) (1 / 2)); [reflexivity|congruence]. }
  assert (Fo : forall p m, norm (vmul p unit_cell) = 3 / 2 -> far_omega p m = 2).
  { intros [[x y] z] m Hn. unfold far_omega. destruct (Reqb_spec x 0) as [-> |]; [|reflexivity]. destruct (Reqb_spec y 0) as [-> |]; [|reflexivity].
    destruct (Reqb_spec z (1 / 2)) as [-> |]; [|reflexivity]. exfalso. revert Hn. unfold norm, vmul, unit_cell, dot. cbn.
    match goal with |- sqrt ?e = _ -> _ => replace e with ((1 / 2) * (1 / 2)) by lra end. rewrite sqrt_square by lra. lra. }
  assert (Nq : n_q_bins plain_args = 1%Z).
  { unfold n_q_bins. cbn [plain_args q_max q_min q_spacing]. replace ((2 - 1) / 1) with 1 by lra.
    pose proof (Rceil_bounds 1) as [B1 B2]. apply Z.le_antisymm; [apply Rceil_least; lra|]. apply le_IZR. lra. }
  assert (Mi : bin_middle (q_edges plain_args) 0 = 3 / 2).
  { unfold q_edges. rewrite Nq. change (Z.to_nat 1 + 1)%nat with 2%nat. unfold bin_middle. rewrite !nth_linspace by lia. cbn [INR q_min q_max plain_args Nat.sub]. lra. }
  destruct (dos_map coeffs hm room solve unit_cell far_omega 3 1 wmin "golden" None None (fun _ => (0, 0)) 1 [1; 1] plain_args bins) as (z & Ez & Nz);
    try reflexivity; try assumption; try (cbn; lra).
  - cbn. lia.
  - intros q _. destruct (sphere_exact_any 10 "golden" None None (fun _ => (0, 0)) ltac:(lia)) as (l & El & Ll & On); [intros i; cbn; lra|left; reflexivity|].
    exists l. split; [exact El|]. split; [destruct l; [cbn in Ll; lia|discriminate]|exact On].
  - exists bins, z. split; [exact Ez|]. split; [exact Nq|]. split; [exact Lb|]. split; [exact Fx|]. split; [exact Fo|]. split; [exact Mi|].
    intros j Hj. destruct (Nz 0%nat ltac:(rewrite Nq; cbn; lia)) as (ps & _ & On & V). rewrite Mi in On. destruct (V j Hj) as (v & Ev & Hv). rewrite Ev. f_equal.
    destruct (pbins_inc _ _ _ _ _ Eb) as [_ Ib].
    assert (Bj : nth (S j) bins 0 <= 12 / 10).
    { rewrite <- Tb. destruct (Nat.eq_dec (S j) 5) as [-> |N]; [lra|]. apply Rlt_le, Ib; lia. }
    assert (Z0 : average ps (modes_at 1 far_omega 3 (nth j bins 0) (nth (S j) bins 0)) = 0).
    { unfold average. rewrite Sum_zero_ext; [lra|]. intros p Ip. unfold modes_at, sumn. apply Sum_zero_ext. intros m _.
      rewrite (Fo p m (On p Ip)). destruct (Rltb_spec (1 * 2) (nth (S j) bins 0)) as [C|C]; [lra|]. rewrite andb_false_r. reflexivity. }
    rewrite Z0 in Hv. assert (W : nth j bins 0 < nth (S j) bins 0) by (apply Ib; lia).
    assert (P : v * (nth (S j) bins 0 - nth j bins 0) = 0) by lra. apply Rmult_integral in P. destruct P; [assumption|lra].
Qed.
