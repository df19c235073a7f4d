(** Lemmas for C78 and C79: the options of euphonic-dos. *)
From Coq Require Import String.
From Verif Require Import Base Cpx Vec3 M_cell M_qpts M_path M_broad M_dos M_bins M_coll M_fixed M_clidos S_coll S_dos S_fixed S_clidos
  L_util L_qpts L_dos L_dos2 L_path2 L_bins2 L_coll L_coll2 L_coll3 L_fixed L_fixed2 L_path L_broad L_clidos.
Open Scope R_scope.
Open Scope string_scope.

Lemma bins_made k room a t bins : energy_bins k room a t = Ok bins -> exists lo hi, lo < hi /\ bins = linspace lo hi (a_ebins a + 1).
Proof.
  unfold energy_bins. destruct (all_freqs k t) as [|f0 fs]; [discriminate|]. unfold get_energy_bins.
  set (lo := match a_emin a with Some e => e | None => _ end). set (hi := match a_emax a with Some e => e | None => _ end).
  destruct (Rleb_spec hi lo) as [H|H]; [discriminate|]. intros E. injection E as <-. exists lo, hi. split; [lra|reflexivity].
Qed.
Lemma bins_inc k room a t bins : energy_bins k room a t = Ok bins ->
  length bins = (a_ebins a + 1)%nat /\ (forall i, (S i < length bins)%nat -> nth i bins 0 < nth (S i) bins 0).
Proof.
  intros E. destruct (bins_made _ _ _ _ _ E) as (lo & hi & L & ->). rewrite length_linspace. split; [reflexivity|].
  intros i Hi. apply linspace_step; [exact Hi|exact L].
Qed.

Lemma incr_of_steps l : (forall i, (S i < length l)%nat -> nth i l 0 < nth (S i) l 0) -> S_broad.increasing l.
Proof.
  intros H i j Hij. induction Hij as [|j Hij IH]; intros Hj; [apply H, Hj|]. apply Rlt_trans with (nth j l 0); [apply IH; lia|apply H, Hj].
Qed.

(** The aliases of --energy-broadening *)
Lemma eb_scale coeffs k wmin room src a d w : a_adaptive a = true -> a_ascale a = None -> a_eb a = None ->
  dos_tool coeffs k wmin room src (set_eb a (Some [w])) d = dos_tool coeffs k wmin room src (set_ascale a (Some w)) d.
Proof.
  destruct a as [wg pd gr sp ad me er sc ins eb sh nb lo hi fc]. cbn. intros -> -> ->. unfold dos_tool, resolve, set_eb, set_ascale. cbn. reflexivity.
Qed.
Lemma eb_inst coeffs k wmin room src a d l : l <> [] -> a_adaptive a = false \/ (2 <= length l)%nat -> a_inst a = None -> a_eb a = None ->
  dos_tool coeffs k wmin room src (set_eb a (Some l)) d = dos_tool coeffs k wmin room src (set_inst a (Some l)) d.
Proof.
  destruct a as [wg pd gr sp ad me er sc ins eb sh nb lo hi fc]. cbn. intros N C -> ->. unfold dos_tool, resolve, set_eb, set_inst. cbn [a_eb a_adaptive a_ascale a_inst a_weighting a_pdos].
  destruct l as [|w r]; [congruence|].
  assert (E : (ad && Nat.eqb (List.length (w :: r)) 1)%bool = false).
  { destruct C as [-> | C]; [reflexivity|]. destruct r; [cbn in C; lia|]. cbn. apply andb_false_r. }
  rewrite E. reflexivity.
Qed.
Lemma eb_twice coeffs k wmin room src a d w r : a_eb a = Some (w :: r) -> is_force d = true ->
  (a_adaptive a = true -> r = [] -> a_ascale a <> None -> dos_tool coeffs k wmin room src a d = Err ScaleTwice) /\
  (a_adaptive a = false \/ r <> [] -> a_inst a <> None -> dos_tool coeffs k wmin room src a d = Err WidthTwice).
Proof.
  intros E F. assert (Hv : has_evecs d = true) by (destruct d; [discriminate|discriminate|reflexivity]). unfold dos_tool, resolve. rewrite E, F, Hv, !andb_false_r. split.
  - intros A R S. rewrite A, R. cbn. destruct (a_ascale a); [reflexivity|congruence].
  - intros C S. assert (Q : (a_adaptive a && Nat.eqb (List.length (w :: r)) 1)%bool = false).
    { destruct C as [-> | C]; [reflexivity|]. destruct r; [congruence|]. cbn. apply andb_false_r. }
    rewrite Q. destruct (a_inst a); [reflexivity|congruence].
Qed.

(** --adaptive-scale 0 *)
Lemma zero_scale coeffs k wmin room src a d : a_eb a = None ->
  dos_tool coeffs k wmin room src (set_ascale a (Some 0)) d = dos_tool coeffs k wmin room src (set_ascale a None) d.
Proof.
  destruct a as [wg pd gr sp ad me er sc ins eb sh nb lo hi fc]. cbn. intros ->. unfold dos_tool, resolve, set_ascale. cbn [a_eb a_adaptive a_ascale a_inst a_weighting a_pdos].
  destruct (_ && _)%bool; [reflexivity|]. destruct (_ && _)%bool; [reflexivity|].
  replace (modes_of k _ (Some 0) ins d) with (modes_of k (mkArgs wg pd gr sp ad me er None ins None sh nb lo hi fc) None ins d); [reflexivity|].
  unfold modes_of. destruct d as [t|e|cl g wd]; try reflexivity. cbn [a_grid a_spacing]. destruct (grid_spec cl gr sp); [|reflexivity].
  cbn [a_adaptive a_shape]. unfold combined_width, with_scale. destruct (Reqb_spec 0 0) as [_|N]; [reflexivity|congruence].
Qed.

(** The standard deviation drawn *)
Lemma sumn_S_first n (f : nat -> R) : sumn (S n) f = f 0%nat + sumn n (fun i => f (S i)).
Proof. unfold sumn. cbn [seq]. rewrite Sum_cons. f_equal. rewrite <- seq_shift. apply Sum_map. Qed.
Lemma polynomial_poly c x : polynomial c x = poly c x.
Proof.
  unfold poly. induction c as [|a c IH]; [reflexivity|]. cbn [polynomial fold_right]. change (fold_right _ 0 c) with (polynomial c x). rewrite IH.
  cbn [List.length]. rewrite sumn_S_first. cbn [nth pow]. rewrite Rmult_1_r. f_equal. unfold sumn. rewrite <- Sum_scal. apply Sum_ext. intros i _. ring.
Qed.
Lemma sd_drawn k s inst t w q m wmin c : 0 < k -> s = match c with Some x => if Reqb x 0 then 1 else x | None => 1 end ->
  k * Rmax (combined_width k c inst "gauss" t w q m) wmin = drawn_sd s inst (k * wmin) (k * w q m) (k * freq t q m).
Proof.
  intros Hk Es. unfold drawn_sd, combined_width. rewrite <- RmaxRmult by lra. f_equal.
  assert (E : with_scale c (w q m) = s * w q m) by (subst s; unfold with_scale; destruct c as [x|]; [destruct (Reqb x 0)|]; lra).
  rewrite E. destruct inst as [p|]; [|lra]. cbn [String.eqb Ascii.eqb Bool.eqb]. change ((if "gauss" =? "gauss" then ?a else ?b)) with a. cbn.
  rewrite <- (sqrt_Rsqr k) at 1 by lra. rewrite <- sqrt_mult_alt by apply Rle_0_sqr. f_equal. rewrite polynomial_poly. unfold Rsqr.
  replace (freq t q m * k) with (k * freq t q m) by ring. field. lra.
Qed.
Lemma pdf_scaled k s x : 0 < k -> 0 < s -> norm_pdf s x / k = gaussian (k * s) (k * x).
Proof.
  intros Hk Hs. unfold norm_pdf, gaussian. assert (P : 0 < sqrt (2 * PI)) by (apply sqrt_lt_R0; pose proof PI_RGT_0; lra).
  replace (- (k * x) ^ 2 / (2 * (k * s) ^ 2)) with (- (x / s) ^ 2 / 2) by (field; lra). field. lra.
Qed.

Lemma adaptive_line coeffs k wmin room src a cell on_grid widths bins ls : 0 < k -> 0 < wmin -> (1 <= a_ebins a)%nat ->
  a_weighting a = "dos" -> a_pdos a = None -> a_adaptive a = true -> a_method a = Reference -> a_shape a = "gauss" -> a_eb a = None ->
  dos_tool coeffs k wmin room src a (ForceConsts cell on_grid widths) = Ok (bins, ls) ->
  exists g y, grid_spec cell (a_grid a) (a_spacing a) = Some g /\ ls = [Some y] /\ length bins = (a_ebins a + 1)%nat /\ length y = a_ebins a /\
  let t := et (on_grid g) in
  forall i, (i < a_ebins a)%nat -> nth i y 0 = factor (a_scale a) * wmean t (fun q => Sum (seq 0 (nm t)) (fun m =>
    3 / INR (nm t) * gaussian (drawn_sd (match a_ascale a with Some x => if Reqb x 0 then 1 else x | None => 1 end) (a_inst a) (k * wmin)
      (k * widths g q m) (k * freq t q m)) (middle bins i - k * freq t q m))).
Proof.
  intros Hk Hw Hn Ew Ep Ea Em Es Ee. unfold dos_tool, resolve. rewrite Ew, Ep, Ea, Ee. cbn [String.eqb Ascii.eqb Bool.eqb andb negb has_evecs is_force].
  unfold modes_of. destruct (grid_spec cell (a_grid a) (a_spacing a)) as [g|]; [|discriminate]. rewrite Ea. cbv zeta.
  destruct (energy_bins k room a (et (on_grid g))) as [b|] eqn:Eb; [|discriminate]. destruct (bins_inc _ _ _ _ _ Eb) as [Lb _].
  unfold dos_lines. rewrite Ew, Ep. cbn [String.eqb Ascii.eqb Bool.eqb andb]. unfold calculate_dos, calculate_dos_data. rewrite Em, Es.
  set (t := et (on_grid g)). set (cw := fun q m => Rmax (combined_width k (a_ascale a) (a_inst a) "gauss" t (widths g) q m) wmin).
  set (mw := fun _ _ : nat => 3 / INR (nm t)). set (bc := map (fun b => b / k) b).
  assert (Lc : length bc = length b) by apply map_length.
  destruct (ref_linear t mw cw bc ltac:(lia)) as [Lr Nr].
  assert (Bs : forall l, broaden_stage coeffs a (a_inst a) b (lines_of (OneSpectrum (mkS [b] l None []))) = Ok [Some l]).
  { intros l. unfold broaden_stage. rewrite Es, Ea. cbn. destruct (a_inst a) as [[|c0 r]|]; reflexivity. }
  fold (total_weight t).
  destruct (Reqb_spec (total_weight t) 0) as [Z|Z]; [discriminate|]. rewrite Bs. cbn [map]. intros E. injection E as <- <-.
  exists g. eexists. split; [reflexivity|]. split; [|split; [exact Lb|]].
  { instantiate (1 := map (fun v => v * factor (a_scale a)) (map (fun x => x / total_weight t / k) (dos_reference t mw cw bc))).
    unfold scaled. destruct (a_scale a); cbn [factor]; [reflexivity|]. do 2 f_equal. rewrite map_map. apply map_ext. intros; lra. }
  split; [rewrite !map_length, Lr; lia|]. fold t. intros i Hi.
  rewrite (map_nth_indep _ _ _ 0 0) by (rewrite map_length, Lr; lia). rewrite (map_nth_indep _ _ _ 0 0) by (rewrite Lr; lia).
  rewrite Nr by lia. unfold pairs. rewrite Sum_list_prod. cbn [fst snd].
  match goal with |- ?S / ?T / k * ?F = _ => replace (S / T / k * F) with (F * (S * / k / T)) by (unfold Rdiv; ring) end.
  unfold wmean. f_equal. f_equal. rewrite <- Sum_scal_r. apply Sum_ext. intros q _. rewrite <- Sum_scal_r, <- Sum_scal. apply Sum_ext. intros m _.
  unfold ref_shape. rewrite <- (sd_drawn k _ (a_inst a) t (widths g) q m wmin (a_ascale a) Hk eq_refl). fold (cw q m).
  assert (C0 : 0 < cw q m) by (unfold cw; pose proof (Rmax_r (combined_width k (a_ascale a) (a_inst a) "gauss" t (widths g) q m) wmin); lra).
  replace (middle b i - k * freq t q m) with (k * ((nth i bc 0 + nth (S i) bc 0) / 2 - freq t q m)).
  - rewrite <- pdf_scaled by assumption. unfold mw, Rdiv. ring.
  - unfold middle, bc. rewrite !(map_nth_indep _ b _ 0 0) by lia. field. lra.
Qed.

(** Without options: the modes of each bin are counted. *)
Lemma plain_line coeffs k wmin room src a d bins ls : 0 < k -> (1 <= a_ebins a)%nat ->
  a_weighting a = "dos" -> a_pdos a = None -> a_adaptive a = false -> a_inst a = None -> a_eb a = None ->
  dos_tool coeffs k wmin room src a d = Ok (bins, ls) ->
  exists t y, (match d with Frequencies t' => t = t' | Modes e => t = et e
               | ForceConsts cell on_grid _ => exists g, grid_spec cell (a_grid a) (a_spacing a) = Some g /\ t = et (on_grid g) end) /\
  ls = [Some y] /\ length bins = (a_ebins a + 1)%nat /\ length y = a_ebins a /\
  forall i, (i < a_ebins a)%nat -> nth i bins 0 < nth (S i) bins 0 /\ nth i y 0 * (nth (S i) bins 0 - nth i bins 0)
    = factor (a_scale a) * (3 / INR (nm t) * wmean t (modes_in k t (nth i bins 0) (nth (S i) bins 0))).
Proof.
  intros Hk Hn Ew Ep Ea Ei Ee. unfold dos_tool, resolve. rewrite Ew, Ep, Ea, Ee. cbn [String.eqb Ascii.eqb Bool.eqb andb negb]. rewrite Ei.
  destruct (modes_of k a (a_ascale a) None d) as [[e w]|] eqn:Em; [|discriminate].
  assert (W : w = None /\ match d with Frequencies t' => et e = t' | Modes e' => et e = et e'
               | ForceConsts cell on_grid _ => exists g, grid_spec cell (a_grid a) (a_spacing a) = Some g /\ et e = et (on_grid g) end).
  { unfold modes_of in Em. destruct d as [t|e'|cl gr wd].
    - injection Em as <- <-. split; reflexivity.
    - injection Em as <- <-. split; reflexivity.
    - destruct (grid_spec cl (a_grid a) (a_spacing a)) as [g|]; [|discriminate]. rewrite Ea in Em. injection Em as <- <-. split; [reflexivity|].
      exists g. split; reflexivity. }
  destruct W as [-> Ht].
  destruct (energy_bins k room a (et e)) as [b|] eqn:Eb; [|discriminate]. destruct (bins_inc _ _ _ _ _ Eb) as [Lb Ib].
  unfold dos_lines. rewrite Ew, Ep. cbn [String.eqb Ascii.eqb Bool.eqb andb].
  destruct (Req_dec (total_weight (et e)) 0) as [Z|Z].
  { unfold calculate_dos, calculate_dos_data. fold (total_weight (et e)). destruct (dos_hist _ _ _); [|discriminate].
    destruct (Reqb_spec (total_weight (et e)) 0) as [_|N]; [discriminate|congruence]. }
  destruct (dos_bins_count k b (et e) wmin (a_method a) Hk) as (y & Ey & Ly & Ny & _); [|lia|exact Z|].
  { exact (incr_of_steps b Ib). }
  rewrite Ey. cbn. intros E. injection E as <- <-.
  exists (et e), (map (fun v => v * factor (a_scale a)) y). split; [exact Ht|]. split; [|split; [exact Lb|split; [rewrite map_length; lia|]]].
  { unfold scaled. destruct (a_scale a); cbn [factor]; [reflexivity|]. do 2 f_equal. rewrite <- (map_id y) at 1. apply map_ext. intros; lra. }
  intros i Hi. split; [apply Ib; lia|]. rewrite (map_nth_indep _ _ _ 0 0) by lia. rewrite <- Ny by lia. ring.
Qed.

(** A fixed instrument width *)
Lemma bins_even k room a t bins : energy_bins k room a t = Ok bins -> (2 <= a_ebins a)%nat ->
  0 < nth 1 bins 0 - nth 0 bins 0 /\ even_axis (nth 1 bins 0 - nth 0 bins 0) (a_ebins a) bins.
Proof.
  intros E H2. destruct (bins_made _ _ _ _ _ E) as (lo & hi & L & ->). set (n := a_ebins a) in *.
  assert (St : nth 1 (linspace lo hi (n + 1)) 0 - nth 0 (linspace lo hi (n + 1)) 0 = (hi - lo) / INR (n + 1 - 1)).
  { rewrite !nth_linspace by lia. cbn [INR]. ring. }
  rewrite St. split.
  - apply Rdiv_lt_0_compat; [lra|]. apply lt_0_INR. lia.
  - exists lo. rewrite length_linspace. split; [right; reflexivity|]. intros i Hi. rewrite nth_linspace by exact Hi. reflexivity.
Qed.
Lemma spread_scaled K y c i : spread K (map (fun v => v * c) y) i = spread K y i * c.
Proof.
  unfold spread. rewrite map_length. unfold sumn. rewrite <- Sum_scal_r. apply Sum_ext. intros j Hj. apply in_seq in Hj.
  rewrite (map_nth_indep _ _ _ 0 0) by lia. ring.
Qed.
Lemma fixed_line coeffs k wmin room src a d W : 0 < k -> (2 <= a_ebins a)%nat -> 0 < W ->
  a_weighting a = "dos" -> a_pdos a = None -> a_adaptive a = false -> a_inst a = None -> a_eb a = None -> a_shape a = "gauss" ->
  forall bins y, dos_tool coeffs k wmin room src a d = Ok (bins, [Some y]) -> nth 1 bins 0 - nth 0 bins 0 < 10 ^ 14 * W ->
  exists K M z, dos_tool coeffs k wmin room src (set_inst a (Some [W])) d = Ok (bins, [Some z]) /\ length z = length y /\ shares K M /\
  gaussian_of_fwhm W (nth 1 bins 0 - nth 0 bins 0) K M /\ forall i, (i < length y)%nat -> nth i z 0 = spread K y i.
Proof.
  intros Hk Hn HW Ew Ep Ea Ei Ee Es bins y T Hb.
  destruct (plain_line coeffs k wmin room src a d bins _ Hk ltac:(lia) Ew Ep Ea Ei Ee T) as (t0 & y0 & _ & E0 & Lb & Ly & _). injection E0 as <-.
  destruct a as [wg pd gr sp ad me er sc ins eb sh nb lo hi fc].
  cbn [a_weighting a_pdos a_adaptive a_inst a_eb a_shape a_ebins] in Ew, Ep, Ea, Ei, Ee, Es, Hn, Lb, Ly. subst wg pd ad ins eb sh.
  revert T. unfold dos_tool, resolve, set_inst. cbn [a_eb a_adaptive a_ascale a_inst a_weighting a_pdos a_grid a_spacing a_method a_error a_shape a_ebins a_emin a_emax a_scale].
  cbn [String.eqb Ascii.eqb Bool.eqb andb negb].
  replace (modes_of k (mkArgs "dos" None gr sp false me er sc (Some [W]) None "gauss" nb lo hi fc) sc (Some [W]) d)
    with (modes_of k (mkArgs "dos" None gr sp false me er sc None None "gauss" nb lo hi fc) sc None d) by (destruct d; reflexivity).
  destruct (modes_of _ _ _ _ _) as [[e w]|]; [|discriminate].
  change (energy_bins k room (mkArgs "dos" None gr sp false me er sc (Some [W]) None "gauss" nb lo hi fc) (et e))
    with (energy_bins k room (mkArgs "dos" None gr sp false me er sc None None "gauss" nb lo hi fc) (et e)).
  destruct (energy_bins _ _ _ _) as [b|] eqn:Eb; [|discriminate].
  change (dos_lines k wmin src (mkArgs "dos" None gr sp false me er sc (Some [W]) None "gauss" nb lo hi fc))
    with (dos_lines k wmin src (mkArgs "dos" None gr sp false me er sc None None "gauss" nb lo hi fc)).
  unfold dos_lines. cbn [a_weighting a_pdos String.eqb Ascii.eqb Bool.eqb andb]. destruct (calculate_dos _ _ _ _ _ _) as [u|]; [|discriminate].
  cbn [lines_of s_data broaden_stage map]. intros E. injection E as <- Ey.
  assert (Lu : length u = nb) by (rewrite <- Ly; destruct fc; cbn in Ey; injection Ey as <-; [symmetry; apply map_length|reflexivity]).
  destruct (bins_even _ _ _ _ _ Eb Hn) as [Hp He]. cbn [a_ebins] in He.
  destruct (gauss_1d coeffs b u W (nth 1 b 0 - nth 0 b 0) None None Fwhm er ChebyLog Hp) as (K & M & out & Eo & Lo & Sh & Ga & _ & Nx);
    [rewrite Lu; exact He|lia|exact HW|exact Hb|reflexivity|].
  unfold broaden_stage. cbn [a_shape a_adaptive a_error andb String.eqb Ascii.eqb Bool.eqb List.length Nat.ltb Nat.leb].
  unfold broaden_lines. cbn [lines_broadened]. rewrite Eo. cbn [map].
  exists K, M, (map (fun v => v * factor fc) out).
  assert (Yf : y = map (fun v => v * factor fc) u).
  { destruct fc; cbn in Ey; injection Ey as <-; cbn [factor]; [reflexivity|]. rewrite <- (map_id u) at 1. apply map_ext. intros; lra. }
  split; [|split; [|split; [exact Sh|split; [exact Ga|]]]].
  - unfold scaled. destruct fc; cbn [factor]; [reflexivity|]. do 4 f_equal. rewrite <- (map_id out) at 1. apply map_ext. intros; lra.
  - rewrite map_length. lia.
  - intros i Hi. rewrite Yf, spread_scaled. rewrite (map_nth_indep _ _ _ 0 0) by lia. rewrite Nx by lia. reflexivity.
Qed.

(** An adaptive run that succeeds *)
Lemma adaptive_runs coeffs k wmin room src a cell on_grid widths g bins :
  a_weighting a = "dos" -> a_pdos a = None -> a_adaptive a = true -> a_method a = Reference -> a_shape a = "gauss" -> a_eb a = None ->
  grid_spec cell (a_grid a) (a_spacing a) = Some g -> energy_bins k room a (et (on_grid g)) = Ok bins -> total_weight (et (on_grid g)) <> 0 ->
  exists ls, dos_tool coeffs k wmin room src a (ForceConsts cell on_grid widths) = Ok (bins, ls).
Proof.
  intros Ew Ep Ea Em Es Ee Eg Eb Z. unfold dos_tool, resolve. rewrite Ew, Ep, Ea, Ee. cbn [String.eqb Ascii.eqb Bool.eqb andb negb has_evecs is_force].
  unfold modes_of. rewrite Eg, Ea. cbv zeta. rewrite Eb. unfold dos_lines. rewrite Ew, Ep. cbn [String.eqb Ascii.eqb Bool.eqb andb].
  unfold calculate_dos, calculate_dos_data. rewrite Em. fold (total_weight (et (on_grid g))).
  destruct (Reqb_spec (total_weight (et (on_grid g))) 0) as [N|_]; [contradiction|].
  unfold broaden_stage. rewrite Es, Ea. cbn. destruct (a_inst a) as [[|c0 r]|]; eexists; reflexivity.
Qed.

Definition one_peak : etable := mkE (mkF 1 3 (fun _ _ => 1) (fun _ => 1)) 1 (fun _ _ _ _ => Czero).
Definition half_width_args : dargs :=
  mkArgs "dos" None (Some (1, 1, 1)%Z) 1 true Reference (1 / 100) None (Some [1]) None "gauss" 2 (Some (3 / 4)) (Some (7 / 4)) None.
Lemma half_width_bins room : energy_bins 1 room half_width_args (et one_peak) = Ok (linspace (3 / 4) (7 / 4) 3).
Proof.
  unfold energy_bins, all_freqs, pairs. cbn [one_peak et nq nm seq list_prod map app fst snd freq].
  unfold get_energy_bins. cbn [half_width_args a_emin a_emax a_ebins plus]. destruct (Rleb_spec (7 / 4) (3 / 4)); [lra|reflexivity].
Qed.
Lemma wide_peak coeffs wmin room src cell : 0 < wmin -> wmin <= 1 -> exists bins y,
  dos_tool coeffs 1 wmin room src half_width_args (ForceConsts cell (fun _ => one_peak) (fun _ _ _ => 0)) = Ok (bins, [Some y]) /\
  middle bins 0 = 1 /\ middle bins 1 = 1 + 1 / 2 /\ 0 < nth 0 y 0 /\ nth 1 y 0 = exp (- 1 / 8) * nth 0 y 0.
Proof.
  intros H0 H1.
  destruct (adaptive_runs coeffs 1 wmin room src half_width_args cell (fun _ => one_peak) (fun _ _ _ => 0) (1, 1, 1)%Z
    (linspace (3 / 4) (7 / 4) 3) eq_refl eq_refl eq_refl eq_refl eq_refl eq_refl eq_refl (half_width_bins room)) as (ls & E).
  { unfold total_weight. cbn. unfold Sum. cbn. lra. }
  destruct (adaptive_line coeffs 1 wmin room src half_width_args cell (fun _ => one_peak) (fun _ _ _ => 0) _ _ Rlt_0_1 H0 ltac:(cbn; lia)
    eq_refl eq_refl eq_refl eq_refl eq_refl eq_refl E) as (g & y & _ & -> & _ & Ly & N). cbv zeta in N.
  exists (linspace (3 / 4) (7 / 4) 3), y. split; [exact E|].
  assert (Mi : forall i, (i < 2)%nat -> middle (linspace (3 / 4) (7 / 4) 3) i = 1 + INR i / 2).
  { intros i Hi. unfold middle. rewrite !nth_linspace by lia. rewrite S_INR. change (INR (3 - 1)) with 2. field. }
  assert (M0 : middle (linspace (3 / 4) (7 / 4) 3) 0 = 1) by (rewrite Mi by lia; cbn [INR]; lra).
  assert (M1 : middle (linspace (3 / 4) (7 / 4) 3) 1 = 1 + 1 / 2) by (rewrite Mi by lia; cbn [INR]; lra).
  assert (Sd : drawn_sd 1 (Some [1]) (1 * wmin) (1 * 0) (1 * 1) = 1).
  { unfold drawn_sd, poly, sumn. cbn [List.length seq]. rewrite Sum_cons, Sum_nil. cbn [nth].
    replace ((1 * (1 * 0)) ^ 2 + (1 * (1 * 1) ^ 0 + 0) ^ 2) with 1 by ring. rewrite sqrt_1. apply Rmax_left. lra. }
  assert (V : forall i, (i < 2)%nat -> nth i y 0 = 3 * gaussian 1 (middle (linspace (3 / 4) (7 / 4) 3) i - 1)).
  { intros i Hi. rewrite N by exact Hi. unfold wmean, total_weight. cbn [one_peak et nq nm freq wt half_width_args a_ascale a_inst a_scale factor seq].
    rewrite !Sum_cons, !Sum_nil. rewrite Sd, Rmult_1_r. change (INR 3) with (1 + 1 + 1). field. }
  split; [exact M0|]. split; [exact M1|].
  assert (P : 0 < sqrt (2 * PI)) by (apply sqrt_lt_R0; pose proof PI_RGT_0; lra).
  split.
  - rewrite V by lia. apply Rmult_lt_0_compat; [lra|]. unfold gaussian. apply Rdiv_lt_0_compat; [apply exp_pos|lra].
  - rewrite !V by lia. rewrite M0, M1. unfold gaussian. replace (- (1 + 1 / 2 - 1) ^ 2 / (2 * 1 ^ 2)) with (- 1 / 8) by field.
    replace (- (1 - 1) ^ 2 / (2 * 1 ^ 2)) with 0 by field. rewrite exp_0. field. lra.
Qed.
Lemma above_half : 7 / 8 < exp (- 1 / 8).
Proof. pose proof (exp_ineq1 (- 1 / 8) ltac:(lra)). lra. Qed.

(** All lines have the same length. *)
Lemma length_dos_data k bins t mws w wmin meth d : (1 <= length bins)%nat -> calculate_dos_data k bins t mws w wmin meth = Ok d -> length d = (length bins - 1)%nat.
Proof.
  intros Hl. unfold calculate_dos_data. set (bc := map (fun b => b / k) bins). assert (Lc : length bc = length bins) by apply map_length.
  set (mw := match mws with Some w => w | None => _ end). cbv zeta.
  assert (H : forall r, match w with
    | Some w0 => match meth with Reference => Ok (dos_reference t mw (fun q m => Rmax (w0 q m) wmin) bc) | Fast coeffs error fit => dos_fast coeffs error fit t mw (fun q m => Rmax (w0 q m) wmin) bc end
    | None => dos_hist t mw bc end = Ok r -> length r = (length bins - 1)%nat).
  { intros r. destruct w as [w0|].
    - destruct meth as [|co er fi].
      + intros E. injection E as <-. destruct (Nat.leb_spec 2 (length bc)) as [H2|H2]; [rewrite (proj1 (ref_linear t mw _ bc H2)); lia|].
        unfold dos_reference. cbv zeta. destruct bc as [|b0 [|b1 r']]; [cbn in Lc; lia| |cbn in H2; lia].
        cbn in Lc. rewrite <- Lc. cbn. unfold edges_to_centres. cbn. induction (pairs t) as [|[q m] l IH]; [reflexivity|exact IH].
      + unfold dos_fast, interpolated_broadening. destruct (get_spacing er Gauss fi); [|discriminate].
        destruct (map _ (pairs t)) as [|p ps]; [discriminate|]. cbv zeta. destruct (nondecreasing bc); [|discriminate]. intros E. injection E as <-.
        rewrite <- Lc. match goal with |- length (snd (fold_left ?F ?l ?st)) = _ => set (FF := F); generalize l; intros is;
          assert (G : forall st', length (snd st') = (length bc - 1)%nat -> length (snd (fold_left FF is st')) = (length bc - 1)%nat) end.
        * induction is as [|i is IH]; intros [pr sp'] L; [exact L|]. cbn [fold_left]. apply IH. unfold FF, broaden_step. cbn [snd] in *.
          rewrite map_length, combine_length, length_convolve_same, length_histogram. lia.
        * apply G. cbn [snd]. apply repeat_length.
    - unfold dos_hist. destruct (digitize bc); [|discriminate]. intros E. injection E as <-. change (removelast (tl ?l)) with (interior l). rewrite length_interior, length_add_at1, repeat_length. lia. }
  destruct (match w with Some _ => _ | None => _ end) as [r|] eqn:E; [|discriminate]. specialize (H r eq_refl).
  destruct (Reqb _ 0); [discriminate|]. intros F. injection F as <-. rewrite map_length. exact H.
Qed.

Lemma pdos_lines_shape k bins e el ms w wmin meth ww cs ls : (1 <= length bins)%nat ->
  calculate_pdos_weighted k bins e el ms w wmin meth ww cs = Ok ls -> length ls = n_atoms e /\ forall l, In l ls -> length l = (length bins - 1)%nat.
Proof.
  intros Hb. assert (H : forall c, calculate_pdos k bins e w wmin meth c = Ok ls -> length ls = n_atoms e /\ forall l, In l ls -> length l = (length bins - 1)%nat).
  { intros c E. destruct (mapE_inv _ _ _ E) as [L N]. rewrite seq_length in *. split; [exact L|]. intros l I. destruct (In_nth _ _ [] I) as (i & Hi & <-).
    specialize (N i 0%nat [] ltac:(lia)). cbv beta in N. destruct (calculate_dos_data _ _ _ _ _ _ _) as [d|] eqn:Ed; [|discriminate].
    assert (Q := length_dos_data _ _ _ _ _ _ _ _ Hb Ed). injection N as <-. rewrite map_length. exact Q. }
  unfold calculate_pdos_weighted. destruct (choose_cross_sections ww cs) as [s|]; [|apply H]. destruct (resolve_cs _ _ _); [apply H|discriminate].
Qed.
(** What euphonic-dos draws with --pdos and no broadening, for modes read from a file. *)
Lemma pdos_drawn coeffs k wmin room src a e bins ls : (1 <= a_ebins a)%nat -> a_weighting a = "dos" -> a_pdos a <> None ->
  a_adaptive a = false -> a_inst a = None -> a_eb a = None ->
  dos_tool coeffs k wmin room src a (Modes e) = Ok (bins, ls) ->
  exists lines o, calculate_pdos k bins e None wmin (a_method a) None = Ok lines /\ length lines = n_atoms e /\
  (forall l m, In l lines -> In m lines -> length l = length m) /\
  arrange_pdos (pdos_collection bins lines (map (symbol src) (seq 0 (n_atoms e))) None) (a_pdos a) = Ok o /\
  ls = map (fun l => Some (map (fun v => v * factor (a_scale a)) l)) (lines_of o).
Proof.
  intros Hn Ew Ep Ea Ei Ee. unfold dos_tool, resolve. rewrite Ew, Ea, Ei, Ee. destruct (a_pdos a) as [names|] eqn:En; [|congruence].
  cbn [String.eqb Ascii.eqb Bool.eqb andb negb has_evecs modes_of].
  destruct (energy_bins k room a (et e)) as [b|] eqn:Eb; [|discriminate]. destruct (bins_inc _ _ _ _ _ Eb) as [Lb _].
  unfold dos_lines. rewrite Ew, En. cbn [String.eqb Ascii.eqb Bool.eqb andb pdos_weighting].
  change (pdos_weighting "dos") with (@Ok (option string) clierr None). cbv iota.
  destruct (calculate_pdos_weighted _ _ _ _ _ _ _ _ _ _) as [lines|] eqn:El; [|discriminate].
  assert (L1 : (1 <= length b)%nat) by lia. destruct (pdos_lines_shape _ _ _ _ _ _ _ _ _ _ _ L1 El) as [Ll Lw].
  destruct (arrange_pdos _ _) as [o|] eqn:Eo; [|discriminate]. cbn [broaden_stage]. intros E. injection E as <- <-.
  exists lines, o. split; [exact El|]. split; [exact Ll|]. split; [intros l m Il Im; rewrite (Lw l Il), (Lw m Im); reflexivity|]. split; [exact Eo|].
  rewrite map_map. apply map_ext. intros l. unfold scaled. destruct (a_scale a); cbn [factor]; [reflexivity|]. f_equal. rewrite <- (map_id l) at 1. apply map_ext. intros; lra.
Qed.
(** A crystal of one species: no result, whatever the options. *)
Lemma elemental_tool coeffs k wmin room src a d x names : (1 <= a_ebins a)%nat -> (forall i, symbol src i = x) -> a_pdos a = Some names ->
  (match d with Frequencies _ => True | Modes e => (0 < n_atoms e)%nat | ForceConsts _ on_grid _ => forall g, (0 < n_atoms (on_grid g))%nat end) ->
  forall r, dos_tool coeffs k wmin room src a d <> Ok r.
Proof.
  intros Hn Sx En Hd r. unfold dos_tool. rewrite En. rewrite andb_false_r. cbn [negb andb].
  destruct (has_evecs d) eqn:Hv; cbn [negb]; [|discriminate]. destruct (_ && _)%bool; [discriminate|]. destruct (resolve a) as [[s inst]|]; [|discriminate].
  destruct (modes_of k a s inst d) as [[e w]|] eqn:Em; [|discriminate].
  assert (Ne : (0 < n_atoms e)%nat).
  { unfold modes_of in Em. destruct d as [t|e'|cl gr wd]; [discriminate|injection Em as <- <-; exact Hd|].
    destruct (grid_spec _ _ _); [|discriminate]. injection Em as <- <-. apply Hd. }
  destruct (energy_bins k room a (et e)) as [b|] eqn:Eb; [|discriminate]. destruct (bins_inc _ _ _ _ _ Eb) as [Lb _].
  unfold dos_lines. rewrite En, andb_false_r. destruct (pdos_weighting _) as [wo|]; [|discriminate].
  destruct (match wo with None => _ | Some n => _ end) as [ww|]; [|discriminate].
  destruct (calculate_pdos_weighted _ _ _ _ _ _ _ _ _ _) as [lines|] eqn:El; [|discriminate].
  assert (L1 : (1 <= length b)%nat) by lia. destruct (pdos_lines_shape _ _ _ _ _ _ _ _ _ _ _ L1 El) as [Ll Lw].
  rewrite (elemental b lines (map (symbol src) (seq 0 (n_atoms e))) wo) with (x := x); [discriminate| | | |].
  - destruct (n_atoms e); [lia|discriminate].
  - rewrite map_length, seq_length. exact Ll.
  - intros l m Il Im. rewrite (Lw l Il), (Lw m Im). reflexivity.
  - intros y I. apply in_map_iff in I. destruct I as (i & <- & _). apply Sx.
Qed.
