(** C20, C21, C22: densities of states. *)
From Verif Require Import Base Cpx S_broad M_broad M_dos S_dos L_dos L_dos2 L_dos3 L_tight.
Open Scope R_scope.

(** C20.  In every bin, height times bin width is 3/n_modes times the weighted mean
    number of modes per q-point in that bin; the area of the whole DOS counts every
    mode of the range exactly once and nothing else; no height is negative. *)
Theorem C20_dos_counts_modes : forall k bins t wmin meth,
  0 < k -> increasing bins -> (2 <= length bins)%nat ->
  (forall q, (q < nq t)%nat -> 0 <= wt t q) -> 0 < total_weight t ->
  exists d, calculate_dos k bins t None wmin meth = Ok d /\ length d = (length bins - 1)%nat /\
  (forall i, (i < length bins - 1)%nat -> 0 <= nth i d 0 /\
     nth i d 0 * (nth (S i) bins 0 - nth i bins 0)
     = 3 / INR (nm t) * wmean t (modes_in k t (nth i bins 0) (nth (S i) bins 0))) /\
  area bins d = 3 / INR (nm t) * wmean t (modes_in k t (nth 0 bins 0) (nth (length bins - 1) bins 0)).
Proof. exact dos_counts_modes. Qed.
Print Assumptions C20_dos_counts_modes.

(** C20.  With every mode in the range the DOS integrates to 3. *)
Theorem C20_full_range_area_three : forall k bins t wmin meth d,
  0 < k -> increasing bins -> (2 <= length bins)%nat -> (0 < nm t)%nat -> total_weight t <> 0 ->
  (forall q m, (q < nq t)%nat -> (m < nm t)%nat -> nth 0 bins 0 <= k * freq t q m < nth (length bins - 1) bins 0) ->
  calculate_dos k bins t None wmin meth = Ok d -> area bins d = 3.
Proof. exact full_range_area. Qed.
Print Assumptions C20_full_range_area_three.

(** C20.  The range is half-open: a mode exactly on the last edge is not counted, so
    for the closed range the claim fails. *)
Theorem C20_last_edge_refuted : exists k bins t wmin meth d,
  0 < k /\ increasing bins /\ (forall q, (q < nq t)%nat -> 0 < wt t q) /\
  (forall q m, (q < nq t)%nat -> (m < nm t)%nat -> nth 0 bins 0 <= k * freq t q m <= nth (length bins - 1) bins 0) /\
  calculate_dos k bins t None wmin meth = Ok d /\ area bins d = 0.
Proof. exact last_edge_dropped. Qed.
Print Assumptions C20_last_edge_refuted.

Example C20_nonvacuous : let t := mkF 2 3 (fun q m => INR (q + m)) (fun q => INR (S q)) in
  0 < 2 /\ increasing [0; 1; 5] /\ (forall q, (q < nq t)%nat -> 0 <= wt t q) /\ 0 < total_weight t /\ modes_in 2 t 0 5 1 = 2.
Proof. exact C20_example. Qed.

(** C21.  The weighted mean over q-points of the DOS map is the DOS (histogram or
    summed Gaussians), in every bin. *)
Theorem C21_map_averages_to_dos_partial : forall k bins t widths wmin,
  0 < k -> increasing bins -> (2 <= length bins)%nat -> total_weight t <> 0 ->
  (forall q, (q < nq t)%nat -> wt t q <> 0) ->
  exists p d, calculate_dos_map k bins t widths wmin = Ok p /\ calculate_dos k bins t widths wmin Reference = Ok d /\
    length p = nq t /\
    forall i, (i < length bins - 1)%nat -> wmean t (fun q => nth i (nth q p []) 0) = nth i d 0.
Proof. exact dos_map_mean. Qed.
Print Assumptions C21_map_averages_to_dos_partial.

(** C21 fails when a q-point has weight zero: the DOS is fine, the map is not finite. *)
Theorem C21_zero_weight_refuted : exists k bins t wmin d,
  0 < k /\ increasing bins /\ (forall q, (q < nq t)%nat -> 0 <= wt t q) /\ 0 < total_weight t /\
  calculate_dos k bins t None wmin Reference = Ok d /\ calculate_dos_map k bins t None wmin = Err ZeroTotalWeight.
Proof. exact zero_weight_map. Qed.
Print Assumptions C21_zero_weight_refuted.

(** C22.  For normalised eigenvectors the unweighted partial DOS of all atoms, and of
    any grouping of the atoms, add up to the DOS in every bin, for all three
    broadening methods. *)
Theorem C22_pdos_sums_to_dos : forall k bins e widths wmin meth,
  0 < k -> increasing bins -> (2 <= length bins)%nat -> total_weight (et e) <> 0 ->
  runnable (et e) widths wmin meth -> normalised e -> (0 < n_atoms e)%nat -> nm (et e) = (3 * n_atoms e)%nat ->
  exists p d, calculate_pdos k bins e widths wmin meth None = Ok p /\
    calculate_dos k bins (et e) widths wmin meth = Ok d /\ length p = n_atoms e /\
    (forall i, (i < length bins - 1)%nat -> Sum (seq 0 (n_atoms e)) (fun a => nth i (nth a p []) 0) = nth i d 0) /\
    (forall i (species : nat -> nat) labels, (i < length bins - 1)%nat -> NoDup labels ->
       (forall a, (a < n_atoms e)%nat -> In (species a) labels) ->
       Sum labels (fun s => Sum (filter (fun a => Nat.eqb (species a) s) (seq 0 (n_atoms e))) (fun a => nth i (nth a p []) 0))
       = nth i d 0).
Proof. exact pdos_sums. Qed.
Print Assumptions C22_pdos_sums_to_dos.

(** C22.  Coherent and incoherent weighting add up to the combined weighting. *)
Theorem C22_weightings_add : forall k bins e el mass widths wmin meth c i pc pi,
  calculate_pdos_weighted k bins e el mass widths wmin meth (Some Coherent) (Dataset c i) = Ok pc ->
  calculate_pdos_weighted k bins e el mass widths wmin meth (Some Incoherent) (Dataset c i) = Ok pi ->
  exists pb, calculate_pdos_weighted k bins e el mass widths wmin meth (Some Both) (Dataset c i) = Ok pb /\
    forall a j, (a < n_atoms e)%nat -> nth j (nth a pb []) 0 = nth j (nth a pc []) 0 + nth j (nth a pi []) 0.
Proof. exact both_weightings. Qed.
Print Assumptions C22_weightings_add.

Example C22_nonvacuous : let t := mkF 2 3 (fun q m => INR (q + m)) (fun q => INR (S q)) in
  let e := mkE t 1 (fun q m a x => if Nat.eqb m x then RtoC 1 else RtoC 0) in
  normalised e /\ total_weight t <> 0 /\ runnable t (Some (fun _ _ => 1)) 1 (Fast (fun _ => [1]) (1/100) Cubic) /\
  nm (et e) = (3 * n_atoms e)%nat.
Proof. exact C22_example. Qed.

(** C22.  Neutron weighting multiplies an atom's partial DOS by its cross section and by
    the mean mass over its mass. *)
Theorem C22_neutron_weights : forall k bins e widths wmin meth sigma mass p,
  calculate_pdos k bins e widths wmin meth None = Ok p ->
  exists p', calculate_pdos k bins e widths wmin meth (Some (sigma, mass)) = Ok p' /\
  forall a j, (a < n_atoms e)%nat ->
    nth j (nth a p' []) 0 = nth j (nth a p []) 0 * sigma a * (Sum (seq 0 (n_atoms e)) mass / INR (n_atoms e)) / mass a.
Proof. exact neutron_weights. Qed.
Print Assumptions C22_neutron_weights.
