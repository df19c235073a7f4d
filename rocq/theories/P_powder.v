(** Property C80: the map made by euphonic-powder-map. *)
From Coq Require Import String.
From Verif Require Import M_broad Base Vec3 M_cell M_path M_dos M_sample M_kin M_fixed M_clidos M_powder S_dos S_sample S_fixed S_kin S_powder L_sample4 L_powder L_powder2.
Open Scope R_scope.

(** C80.  The |q| axis divides the range from --q-min to --q-max into bins of equal width,
    as few as possible without being wider than --q-spacing. *)
Theorem C80_q_axis : forall coeffs hm room row f0 fs a edges bins z, 0 < q_spacing a -> q_min a < q_max a -> (1 <= p_ebins a)%nat ->
  powder_tool coeffs hm room row f0 fs a = Ok (edges, bins, z) -> exists n, (1 <= n)%nat /\
  even_bins (q_min a) (q_max a) n edges /\ (q_max a - q_min a) / INR n <= q_spacing a /\
  forall m, (1 <= m)%nat -> (q_max a - q_min a) / INR m <= q_spacing a -> (n <= m)%nat.
Proof.
  intros coeffs hm room row f0 fs a edges bins z Hs Hq Hb E. destruct (tool_axes _ _ _ _ _ _ _ _ _ _ Hb E) as (-> & _).
  eexists. exact (q_axis a Hs Hq).
Qed.
Print Assumptions C80_q_axis.
Theorem C80_no_range : forall coeffs hm room row f0 fs a, 0 < q_spacing a -> q_max a <= q_min a -> powder_tool coeffs hm room row f0 fs a = Err NoShells.
Proof. exact no_shells. Qed.
Print Assumptions C80_no_range.

(** C80.  The energy axis has --ebins bins of equal width between --e-min and --e-max.
    Without --e-max it ends at --e-i, and without that at 1.2 times the highest frequency
    of the one q-point (0, 0, 1/2), the frequencies of which are f0 :: fs. *)
Theorem C80_energy_axis : forall coeffs hm room row f0 fs a edges bins z, (1 <= p_ebins a)%nat ->
  powder_tool coeffs hm room row f0 fs a = Ok (edges, bins, z) ->
  exists lo hi, lo < hi /\ even_bins lo hi (p_ebins a) bins /\ (forall e, p_emin a = Some e -> lo = e) /\ (forall e, p_emax a = Some e -> hi = e) /\
  (forall e, p_emax a = None -> p_ei a = Some e -> hi = e) /\
  (p_emax a = None -> p_ei a = None -> hi = 12 / 10 * Rmax_list f0 fs) /\ (p_emin a = None -> lo = Rmin (Rmin_list f0 fs - room) 0).
Proof.
  intros coeffs hm room row f0 fs a edges bins z Hb E. destruct (tool_axes _ _ _ _ _ _ _ _ _ _ Hb E) as (_ & _ & _ & Eb).
  exact (energy_axis a f0 fs room bins Hb Eb).
Qed.
Print Assumptions C80_energy_axis.

(** C80.  Number of samples of a shell: --npts, or --npts-density times |q|^2, rounded up
    and kept between --npts-min and --npts-max. *)
Theorem C80_samples : forall a q, 0 <= q -> (npts_density a = None -> shell_npts a q = p_npts a) /\
  (forall d, npts_density a = Some d -> 0 <= d -> exists w, rounded_up (d * q ^ 2) w /\
     ((w <= npts_min a)%nat -> shell_npts a q = npts_min a) /\
     ((npts_max a <= w)%nat -> (npts_min a <= npts_max a)%nat -> shell_npts a q = npts_max a) /\
     ((npts_min a <= w <= npts_max a)%nat -> shell_npts a q = w) /\
     ((npts_max a < npts_min a)%nat -> shell_npts a q = npts_min a)).
Proof. exact npts_spec. Qed.
Print Assumptions C80_samples.

(** C80.  --weighting dos without broadening or kinematic constraints: the row of a |q|
    bin is the number of modes per energy bin, per atom, averaged over the requested number
    of q-points, all of which have |q| in the middle of that bin; times --scale. *)
Theorem C80_dos_map_partial : forall coeffs hm room solve recip omega nm k wmin sampling rnd rnd2 always f0 fs a bins,
  solves solve -> det3 recip <> 0 -> 0 <= q_min a -> q_min a < q_max a -> 0 < q_spacing a -> 0 < k -> (1 <= p_ebins a)%nat ->
  p_qb a = None -> p_eb a = None -> p_ei a = None -> p_ef a = None -> p_energy_bins a f0 fs room = Ok bins ->
  (forall q, 0 <= q -> (6 <= shell_npts a q)%nat) -> jitter_ok rnd -> unit_random always ->
  In sampling ["golden"; "spherical-polar-improved"; "random-sphere"]%string ->
  exists z, powder_tool coeffs hm room (dos_row solve recip omega nm k wmin sampling rnd rnd2 always) f0 fs a = Ok (q_edges a, bins, z) /\
  forall i, (S i < length (q_edges a))%nat -> let q := bin_middle (q_edges a) i in
  exists ps, length ps = shell_npts a q /\ (forall p, In p ps -> norm (vmul p recip) = q) /\
    forall j, (j < p_ebins a)%nat -> exists v, z i j = Some v /\
      v * (nth (S j) bins 0 - nth j bins 0) = p_factor a * (3 / INR nm * average ps (modes_at k omega nm (nth j bins 0) (nth (S j) bins 0))).
Proof.
  intros coeffs hm room solve recip omega nm k wmin sampling rnd rnd2 always f0 fs a bins So De H0 Hq Hs Hk Hb Wq We Ki Kf Eb Hn J U I.
  exact (dos_map_exact coeffs hm room solve recip omega nm k wmin sampling rnd rnd2 always f0 fs a bins So De H0 Hq Hs Hk Hb Wq We Ki Kf Eb Hn J U I).
Qed.
Print Assumptions C80_dos_map_partial.
(** The two grid samplings: as many q-points as the smallest grid 2n by n that has enough. *)
Theorem C80_dos_map_grid_partial : forall coeffs hm room solve recip omega nm k wmin sampling rnd rnd2 always f0 fs a bins,
  solves solve -> det3 recip <> 0 -> 0 <= q_min a -> q_min a < q_max a -> 0 < q_spacing a -> 0 < k -> (1 <= p_ebins a)%nat ->
  p_qb a = None -> p_eb a = None -> p_ei a = None -> p_ef a = None -> p_energy_bins a f0 fs room = Ok bins ->
  (forall q, 0 <= q -> (3 <= shell_npts a q)%nat) -> jitter_ok rnd ->
  In sampling ["sphere-projected-grid"; "spherical-polar-grid"]%string ->
  exists z, powder_tool coeffs hm room (dos_row solve recip omega nm k wmin sampling rnd rnd2 always) f0 fs a = Ok (q_edges a, bins, z) /\
  forall i, (S i < length (q_edges a))%nat -> let q := bin_middle (q_edges a) i in
  exists ps n, length ps = (2 * n * n)%nat /\ (shell_npts a q <= 2 * n * n)%nat /\ (forall m, (shell_npts a q <= 2 * m * m)%nat -> (n <= m)%nat) /\
    (forall p, In p ps -> norm (vmul p recip) = q) /\
    forall j, (j < p_ebins a)%nat -> exists v, z i j = Some v /\
      v * (nth (S j) bins 0 - nth j bins 0) = p_factor a * (3 / INR nm * average ps (modes_at k omega nm (nth j bins 0) (nth (S j) bins 0))).
Proof.
  intros coeffs hm room solve recip omega nm k wmin sampling rnd rnd2 always f0 fs a bins So De H0 Hq Hs Hk Hb Wq We Ki Kf Eb Hn J I.
  exact (dos_map_grid coeffs hm room solve recip omega nm k wmin sampling rnd rnd2 always f0 fs a bins So De H0 Hq Hs Hk Hb Wq We Ki Kf Eb Hn J I).
Qed.
Print Assumptions C80_dos_map_grid_partial.

(** C80.  Single widths with --shape gauss, for any weighting: the same map with each value
    spread along |q| and along energy by Gaussians of those full widths at half maximum. *)
Theorem C80_broadening_partial : forall coeffs hm room row f0 fs a bins z0 hx hy,
  0 < q_spacing a -> q_min a < q_max a -> (2 <= p_ebins a)%nat -> (2 <= n_q_bins a)%Z ->
  p_shape a = "gauss"%string -> p_ei a = None -> p_ef a = None ->
  (forall q n d, row bins q n = Ok d -> length d = p_ebins a) ->
  hx = (q_max a - q_min a) / INR (Z.to_nat (n_q_bins a)) -> hy = (nth (p_ebins a) bins 0 - nth 0 bins 0) / INR (p_ebins a) ->
  (p_qb a = None \/ exists w, p_qb a = Some [w] /\ 0 < w /\ hx < 10 ^ 14 * w) ->
  (p_eb a = None \/ exists w, p_eb a = Some [w] /\ 0 < w /\ hy < 10 ^ 14 * w) -> (p_qb a <> None \/ p_eb a <> None) ->
  powder_tool coeffs hm room row f0 fs (set_widths a None None) = Ok (q_edges a, bins, z0) ->
  exists z Kx Ky, powder_tool coeffs hm room row f0 fs a = Ok (q_edges a, bins, z) /\
  ((p_qb a = None /\ untouched Kx) \/ exists w M, p_qb a = Some [w] /\ shares Kx M /\ gaussian_of_fwhm w hx Kx M) /\
  ((p_eb a = None /\ untouched Ky) \/ exists w M, p_eb a = Some [w] /\ shares Ky M /\ gaussian_of_fwhm w hy Ky M) /\
  exists v0, (forall i j, z0 i j = Some (v0 i j)) /\
  forall i j, (i < Z.to_nat (n_q_bins a))%nat -> (j < p_ebins a)%nat -> z i j = Some (sumn (p_ebins a) (fun j' =>
    sumn (Z.to_nat (n_q_bins a)) (fun i' => v0 i' j' * Kx (Z.of_nat i - Z.of_nat i')%Z) * Ky (Z.of_nat j - Z.of_nat j')%Z)).
Proof. exact broadened. Qed.
Print Assumptions C80_broadening_partial.

(** C80.  In general the map is what Spectrum2D.broaden (C77) makes of the rows of the shells,
    with a single value as fixed width and several as polynomial in the position. *)
Theorem C80_widths : forall coeffs hm room row f0 fs a wx wy bins rows, q_spacing a <> 0 -> (0 < n_q_bins a)%Z -> p_ei a = None -> p_ef a = None ->
  width_for (p_qb a) wx -> width_for (p_eb a) wy -> wx <> NoWidth \/ wy <> NoWidth ->
  p_energy_bins a f0 fs room = Ok bins -> M_qpts.mapE (fun q => row bins q (shell_npts a q)) (q_centres a) = Ok rows ->
  match broaden2d coeffs [mk2 (q_edges a) bins (Some rows)] 0 wx wy (p_shape a) None None None Fwhm (1 / 100) ChebyLog with
  | Err e => powder_tool coeffs hm room row f0 fs a = Err (MapErr e)
  | Ok (st, r) => exists z, powder_tool coeffs hm room row f0 fs a = Ok (q_edges a, bins, z) /\
      forall i j, z i j = match sz (get st r) with Some m => Some (nth j (nth i m []) 0 * p_factor a) | None => None end
  end.
Proof. exact widths. Qed.
Print Assumptions C80_widths.
Example C80_widths_meet : width_for (Some [1; 2; 3]) (Varying (fun x => 1 + 2 * x + 3 * x ^ 2)) /\ width_for None NoWidth.
Proof. split; [|reflexivity]. exists [1; 2; 3]. split; [reflexivity|]. split; [cbn; lia|]. intros x. unfold sumn. cbn [length seq]. rewrite !Sum_cons, Sum_nil. cbn. ring. Qed.

(** C80.  --e-i or --e-f (for any weighting and any broadening): the same map, with just
    those entries blank whose |q| bin no detector of --angle-range sees at the energy in the
    middle of the energy bin. *)
Theorem C80_kinematics : forall coeffs hm room row f0 fs a kk edges bins z0 (ei ef : R -> R),
  0 < q_spacing a -> q_min a < q_max a -> (1 <= p_ebins a)%nat -> 0 < hm ->
  (exists e, 0 <= e /\ ((p_ei a = Some e /\ p_ef a = None /\ (forall x, ei x = e) /\ (forall x, ef x = e - x)) \/
                         (p_ei a = None /\ p_ef a = Some e /\ (forall x, ei x = x + e) /\ (forall x, ef x = e)))) ->
  360 * IZR kk <= Rmin (fst (p_angles a)) (snd (p_angles a)) < 360 * IZR kk + 360 -> Rmax (fst (p_angles a)) (snd (p_angles a)) <= 360 * IZR kk + 540 ->
  (exists t, in_bank (p_angles a) t /\ cos t <> 0) ->
  let emax := match p_ei a, p_emax a with Some e, None => Some e | _, m => m end in
  powder_tool coeffs hm room row f0 fs (unconstrained a emax) = Ok (edges, bins, z0) ->
  exists z, powder_tool coeffs hm room row f0 fs a = Ok (edges, bins, z) /\
  forall i j, (i < Z.to_nat (n_q_bins a))%nat -> (j < p_ebins a)%nat ->
  let seen := reachable hm (ei (bin_middle bins j)) (ef (bin_middle bins j)) (p_angles a) (nth i edges 0) (nth (S i) edges 0) in
  (z i j = z0 i j /\ seen) \/ (z i j = None /\ ~ seen).
Proof. exact blanked. Qed.
Print Assumptions C80_kinematics.

(** C80 is false of the default energy range: it is estimated from one q-point, so the
    modes of every sample can lie beyond it; the map is then zero everywhere and no error
    is raised.  Here all modes are at energy 1 at (0, 0, 1/2) and at 2 on the whole shell. *)
Theorem C80_energy_range_refuted : forall coeffs hm room wmin, 0 < room ->
  exists solve recip (omega : V3 -> nat -> R) a bins z, solves solve /\ p_emax a = None /\ p_ei a = None /\
  powder_tool coeffs hm room (dos_row solve recip omega 3 1 wmin "golden" None None (fun _ => (0, 0))) (omega (0, 0, 1 / 2) 0%nat)
    [omega (0, 0, 1 / 2) 1%nat; omega (0, 0, 1 / 2) 2%nat] a = Ok (q_edges a, bins, z) /\
  length (q_edges a) = 2%nat /\ length bins = 6%nat /\
  (forall p m, norm (vmul p recip) = bin_middle (q_edges a) 0 -> 0 < omega p m) /\ forall j, (j < 5)%nat -> z 0%nat j = Some 0.
Proof.
  intros coeffs hm room wmin Hr. destruct solver_exists as [solve So].
  destruct (all_missed coeffs hm room solve wmin Hr So) as (bins & z & E & N & L & F1 & F2 & Q & Z).
  exists solve, unit_cell, far_omega, plain_args, bins, z. repeat (split; [first [exact So|reflexivity]|]). rewrite !F1.
  split; [exact E|]. split; [unfold q_edges; rewrite N; reflexivity|]. split; [exact L|]. split; [|exact Z].
  intros p m H. rewrite Q in H. rewrite (F2 p m H). lra.
Qed.
Print Assumptions C80_energy_range_refuted.

(** Non-vacuity: |q| from 1 to 2 in one bin with ten samples; with widths, three bins. *)
Example C80_meets : forall room, 0 < room -> (exists bins, p_energy_bins plain_args 1 [1; 1] room = Ok bins) /\ 0 < q_spacing plain_args /\
  q_min plain_args < q_max plain_args /\ (forall q, (6 <= shell_npts plain_args q)%nat) /\ det3 unit_cell <> 0.
Proof.
  intros room Hr. destruct (far_bins room Hr) as (b & E & _). split; [exists b; exact E|]. cbn. repeat split; try lra; try (intros; lia).
Qed.
Example C80_broadening_meets : exists a, set_widths a None None = three_bins /\ n_q_bins a = 3%Z /\ p_qb a = Some [1] /\
  forall coeffs hm, exists bins z0, powder_tool coeffs hm 1 (fun bins _ _ => Ok (repeat 1 (length bins - 1))) 1 [1; 1] three_bins = Ok (q_edges a, bins, z0) /\
  length bins = (p_ebins a + 1)%nat.
Proof. exact three_meets. Qed.
