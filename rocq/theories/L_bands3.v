(** Lemmas for C84: gamma next to a break, reordering, files of modes. *)
From Coq Require Import String Sorted Permutation.
From Verif Require Import Base L_util Cpx Vec3 M_grid M_cell M_qpts L_qpts L_path L_path2 M_dynmat M_dipole M_struct M_asr M_calc M_path M_dos M_reorder M_bins M_brille M_bands
  S_qpts S_path S_dynmat S_dipole S_asr S_calc S_bins S_reorder S_intmap S_bands L_reorder2 L_dynmat2 L_nac L_calc2 L_calc4 L_calc7 L_spectral L_bins2 L_intmap L_intmap2 L_intmap5 L_brille L_bands L_bands2.
Open Scope R_scope.

(** ** Rows as sums of squares *)
Lemma squares_row k f n : 0 < k -> squares (map (fun m => f m * k) (seq 0 n)) = k * k * sumn n (fun m => f m * Rabs (f m)).
Proof.
  intros Hk. unfold squares. rewrite Sum_map. unfold sumn. rewrite <- Sum_scal. apply Sum_ext. intros m _. rewrite Rabs_mult, (Rabs_right k) by lra. ring.
Qed.
Lemma squares_modes k n mass D md : 0 < k -> (forall a, (a < n)%nat -> 0 < mass (a / 3)%nat) -> modes_of n mass D md ->
  squares (map (fun m => m_freq md m * k) (seq 0 n)) = k * k * sumn n (fun a => re (D a a) / mass (a / 3)%nat).
Proof. intros Hk Hm M. rewrite (squares_row k (m_freq md)) by exact Hk. rewrite (modes_trace n mass D md Hm M). reflexivity. Qed.
Lemma squares_perm r r' : Permutation r r' -> squares r = squares r'.
Proof. intros P. unfold squares. apply Sum_perm. exact P. Qed.

(** ** The two copies of a gamma point *)
Section T.
Variable seekpath : M3 -> list V3 -> list nat -> R -> bpath.
Variables (erfc : R -> R) (reigh : real_eigh) (ceigh : complex_eigh) (argsort : list R -> list nat) (chunk : nat).
Notation tool := (dispersion_tool seekpath erfc reigh ceigh argsort chunk).
Hypothesis Hp : labelled_path seekpath.
Variables (d : fcdata) (mass : nat -> R) (born : nat -> M3) (diel : M3).
Hypothesis Hh : home_first d.
Hypothesis Hc : search_complete d.
Hypothesis Hd : det3 (zrows (f_sc d)) <> 0.
Hypothesis Hf : fc_symmetric d.
Hypothesis He : symmetric3 diel.
Hypothesis Hs : csolves ceigh.
Hypothesis Hm : forall i, (i < M_dynmat.n_atoms d)%nat -> 0 < mass i.
(** What the non-analytic part for direction v adds to the sum of squares. *)
Definition nac_trace (v : V3) : R := sumn (3 * M_dynmat.n_atoms d) (fun c => re (gamma_correction (f_cell d) born diel v c c) / mass (c / 3)%nat).

Lemma whole_split L param q v : whole_matrix erfc d (Some born) diel true param L q (Some v) = fun x y => Cadd (whole_matrix erfc d (Some born) diel true param L q None x y) (gamma_correction (f_cell d) born diel v x y).
Proof. apply FunctionalExtensionality.functional_extensionality. intros x. apply FunctionalExtensionality.functional_extensionality. intros y. unfold whole_matrix. apply C_eq; cbn; ring. Qed.
Lemma copies_differ junk lookup found tol k kx a u types s segs t : 0 < k -> da_reorder a = false -> da_asr a = None ->
  tool junk lookup found tol k kx a (DForce u types (new_fc d mass (Some born) diel)) = Ok (s, segs) ->
  (forall l, lookup (da_unit a) = Some l -> lone_gamma (seekpath (cell_in u (f_cell d)) (f_atom_r d) types (da_spacing a / l)) t) ->
  exists l, lookup (da_unit a) = Some l /\
  let b := seekpath (cell_in u (f_cell d)) (f_atom_r d) types (da_spacing a / l) in let i := shifted (bp_labels b) t in
  exists r r', nth_error (ys s) i = Some r /\ nth_error (ys s) (S i) = Some r' /\
  squares r' - squares r = k * k * (nac_trace (nth (S t) (bp_k b) vzero) - nac_trace (vsub vzero (nth (t - 1) (bp_k b) vzero))).
Proof.
  intros Hk Hr Ha E Hl. destruct (bands_drawn seekpath erfc reigh ceigh argsort chunk d mass (Some born) diel Hh Hc Hd Hf He Hs) as (L & _ & B).
  destruct (B junk lookup found tol k kx a u types s segs Hr Ha Hp E) as (l & El & _ & _ & Rows & _). exists l. split; [exact El|]. specialize (Hl l El).
  set (b := seekpath _ _ _ _) in *. cbv zeta.
  destruct (sides b t (proj2 (Hp _ _ _ _)) Hl) as (_ & N1 & N2 & _ & _ & A1 & A2 & _).
  destruct (Rows _ _ N1) as (m1 & R1 & M1). destruct (Rows _ _ N2) as (m2 & R2 & M2). rewrite is_gamma_zero in M1, M2. rewrite A1, whole_split in M1. rewrite A2, whole_split in M2.
  eexists. eexists. split; [exact R1|]. split; [exact R2|].
  assert (Hm' : forall c, (c < 3 * M_dynmat.n_atoms d)%nat -> 0 < mass (c / 3)%nat) by (intros c Ic; apply Hm, Nat.div_lt_upper_bound; lia).
  rewrite (squares_modes k _ mass _ m1 Hk Hm' M1), (squares_modes k _ mass _ m2 Hk Hm' M2). unfold nac_trace.
  rewrite <- Rmult_minus_distr_l. f_equal. unfold sumn. rewrite <- !Sum_minus. apply Sum_ext. intros c _. cbn [re Cadd]. unfold Rdiv. ring.
Qed.
End T.

(** ** Runs *)
Lemma tool_runs seekpath erfc reigh ceigh argsort chunk junk lookup found tol k kx a u types x l :
  labelled_path seekpath -> (forall n A, ceigh n A <> None) -> da_reorder a = false -> da_asr a = None -> lookup (da_unit a) = Some l ->
  exists s segs, dispersion_tool seekpath erfc reigh ceigh argsort chunk junk lookup found tol k kx a (DForce u types x) = Ok (s, segs).
Proof.
  intros Hp Ht Hr Ha El. set (b := band_path seekpath u types x (da_spacing a / l) true).
  destruct (result erfc reigh ceigh argsort chunk junk (band_options b (da_asr a) (da_param a)) x) as [[[qpts w] ms]|e] eqn:E.
  2:{ exfalso. destruct (only_errors _ _ _ _ _ _ _ _ _ E) as [(_ & w & W & _)|[(sc & _ & A & _)|(_ & M & Q)]]; [discriminate|cbn in A; congruence|exact (Ht _ _ Q)]. }
  rewrite (force_runs seekpath erfc reigh ceigh argsort chunk junk lookup found tol k kx a u types x l qpts w ms El E). fold b.
  destruct (result_shape erfc reigh ceigh argsort chunk _ _ _ _ _ _ E) as [Eq Lm].
  set (b0 := seekpath (spglib_cell u (f_cell (o_d x))) (f_atom_r (o_d x)) types (da_spacing a / l)).
  assert (Hp1 : length (bp_k b0) = length (bp_labels b0)) by apply Hp. assert (Hp0 : (0 < length (bp_k b0))%nat) by apply Hp.
  assert (Eb : b = mkBP (fst (cli_insert_gamma (bp_k b0) (bp_labels b0))) (snd (cli_insert_gamma (bp_k b0) (bp_labels b0)))) by reflexivity.
  destruct (insert_doubled _ _ Hp1) as [Q1 Q2].
  assert (Eqp : qpts = doubled (bp_k b0) (bp_labels b0)).
  { rewrite Eq. unfold the_qpts. cbn [band_options p_insert p_qpts]. rewrite Bool.andb_false_r, Eb. exact Q1. }
  assert (H0 : (0 < length qpts)%nat).
  { rewrite Eqp, doubled_length. pose proof (shifted_ge (bp_labels b0) (length (bp_labels b0))). lia. }
  destruct (shifted_regions _ _ Hp1) as [St Si].
  destruct (draw_rows found tol kx a (f_cell (o_d x)) qpts (mode_table k (M_dynmat.n_atoms (o_d x)) w ms) (cli_tick_labels (bp_labels b)) Hr H0) as (s & _ & _ & _ & _ & Cut).
  { cbn [mode_table et nq]. symmetry. exact Lm. }
  destruct (Cut (cli_break_points (bp_labels b))) as (segs & Es & _); rewrite ?Eb; cbn [bp_labels]; [exact St| |].
  - intros i I. apply Si in I. destruct I as (t & (T1 & T2 & _) & ->). pose proof (shifted_ge (bp_labels b0) t). pose proof (shifted_mono (bp_labels b0) t (length (bp_labels b0)) T2).
    rewrite Eqp, doubled_length. lia.
  - exists s, segs. rewrite Eb in Es. exact Es.
Qed.

(** ** One ion in a cube: X to gamma, then Y to S *)
Definition ion_charge : nat -> M3 := fun _ => ((1, 0, 0), (0, 0, 0), (0, 0, 0)).
Definition corner : bpath := mkBP [(1/2, 0, 0); (1/4, 0, 0); vzero; (0, 1/2, 0); (1/4, 1/2, 0); (1/2, 1/2, 0)] ["X"; ""; "GAMMA"; "Y"; ""; "S"]%string.
Lemma corner_labelled : labelled_path (fun _ _ _ _ => corner).
Proof. intros c r t dist. cbn. split; [lia|reflexivity]. Qed.
Lemma small_not_gamma x y z : Rabs x <= 1/2 -> Rabs y <= 1/2 -> Rabs z <= 1/2 -> 1/100 < Rabs x + Rabs y + Rabs z -> is_gamma (x, y, z) = false.
Proof.
  intros Hx Hy Hz Ht. unfold is_gamma, frac_dist. rewrite !rint_small by assumption. apply Rltb_nf.
  assert (gamma_tol <= 1/100); [|lra]. unfold gamma_tol. replace (1/100) with (/ 10 ^ 2) by (simpl; field). apply Rinv_le_contravar; [apply pow_lt; lra|]. apply Rle_pow; [lra|lia].
Qed.
Lemma corner_lone : lone_gamma corner 2.
Proof.
  unfold lone_gamma, corner. cbn [bp_labels bp_k nth length]. split; [lia|]. split; [lia|]. split; [reflexivity|]. split; [reflexivity|]. split; [discriminate|].
  apply small_not_gamma; rewrite ?Rabs_R0, ?(Rabs_right (1/2)); lra.
Qed.
Lemma held_sym k : fc_symmetric (held k).
Proof.
  exists (fun n => n). split.
  - intros nc H. unfold n_cells in *. cbn [held f_origins length] in *. assert (nc = 0)%nat as -> by lia. split; [lia|]. split; [reflexivity|]. cbn. exists (0, 0, 0)%Z. reflexivity.
  - intros nc a b _ _ _. cbn [held f_fc]. rewrite Nat.eqb_sym. reflexivity.
Qed.
Lemma held_det k : det3 (zrows (f_sc (held k))) <> 0.
Proof. cbn. lra. Qed.
Lemma trace_along k : nac_trace (held k) (fun _ => 1) ion_charge unit_cell3 (vsub vzero (1/4, 0, 0)) = 4 * PI /\ nac_trace (held k) (fun _ => 1) ion_charge unit_cell3 (0, 1/2, 0) = 0.
Proof.
  assert (Gx : is_gamma (vsub vzero (1/4, 0, 0)) = false).
  { replace (vsub vzero (1/4, 0, 0)) with ((-(1/4), 0, 0) : V3) by (cbn; apply V3_eq; lra). apply small_not_gamma; rewrite ?Rabs_Ropp, ?Rabs_R0, ?(Rabs_right (1/4)); lra. }
  assert (Gy : is_gamma (0, 1/2, 0) = false) by (apply small_not_gamma; rewrite ?Rabs_R0, ?(Rabs_right (1/2)); lra).
  unfold nac_trace. change (3 * M_dynmat.n_atoms (held k))%nat with 3%nat. unfold sumn. cbn [seq]. rewrite !Sum_cons, !Sum_nil.
  change (f_cell (held k)) with unit_cell3. unfold gamma_correction. rewrite Gx, Gy, unit_recip. split.
  - unfold cell_volume, cell_vectors_to_volume, Sum, mget, idx3, ion_charge. cbn. field. pose proof PI_RGT_0. nra.
  - unfold cell_volume, cell_vectors_to_volume, Sum, mget, idx3, ion_charge. cbn. field. pose proof PI_RGT_0. nra.
Qed.
Lemma corner_starts t : starts_region (bp_labels corner) t <-> t = 3%nat.
Proof.
  unfold starts_region, corner. cbn [bp_labels length]. split.
  - intros (H1 & H2 & H3 & H4 & H5). do 6 (destruct t as [|t]; [first [lia|reflexivity|exfalso; cbn in *; congruence]|]). lia.
  - intros ->. cbn. repeat split; try lia; discriminate.
Qed.
Lemma sorted_single (idx : list nat) n : StronglySorted lt idx -> (forall i, In i idx <-> i = n) -> idx = [n].
Proof.
  intros St I. destruct idx as [|x l]; [exfalso; apply (proj2 (I n) eq_refl)|]. assert (x = n) as -> by (apply I; left; reflexivity).
  destruct l as [|y l]; [reflexivity|]. exfalso. inversion St as [|? ? _ F]. subst. inversion F as [|? ? Lt _]. subst. assert (y = n) by (apply I; right; left; reflexivity). lia.
Qed.
Lemma break_direction erfc reigh ceigh argsort chunk junk lookup found tol k kx a u types l : csolves ceigh -> (forall n A, ceigh n A <> None) -> 0 < k ->
  da_reorder a = false -> da_asr a = None -> lookup (da_unit a) = Some l ->
  exists s g segs r r', dispersion_tool (fun _ _ _ _ => corner) erfc reigh ceigh argsort chunk junk lookup found tol k kx a
    (DForce u types (new_fc (held 1) (fun _ => 1) (Some ion_charge) unit_cell3)) = Ok (s, g :: segs) /\
  length (ys g) = 4%nat /\ nth 2 (xs g) 0 = nth 3 (xs g) 0 /\ nth_error (ys g) 2 = Some r /\ nth_error (ys g) 3 = Some r' /\ squares r - squares r' = k * k * (4 * PI).
Proof.
  intros Hs Ht Hk Hr Ha El.
  destruct (tool_runs (fun _ _ _ _ => corner) erfc reigh ceigh argsort chunk junk lookup found tol k kx a u types (new_fc (held 1) (fun _ => 1) (Some ion_charge) unit_cell3) l corner_labelled Ht Hr Ha El) as (s & segs & E).
  pose proof (orth_complete (held 1) (held_home 1) (held_orth 1) (held_inside 1)) as Hc.
  assert (Sy : symmetric3 unit_cell3) by (unfold symmetric3; reflexivity).
  destruct (bands_drawn (fun _ _ _ _ => corner) erfc reigh ceigh argsort chunk (held 1) (fun _ => 1) (Some ion_charge) unit_cell3 (held_home 1) Hc (held_det 1) (held_sym 1) Sy Hs) as (L & _ & B).
  destruct (B junk lookup found tol k kx a u types s segs Hr Ha corner_labelled E) as (l' & El' & Ax & Ly & _ & _ & idx & St & Ii & Cut). cbv zeta in Ax, Ly, Ii.
  destruct (copies_differ (fun _ _ _ _ => corner) erfc reigh ceigh argsort chunk corner_labelled (held 1) (fun _ => 1) ion_charge unit_cell3 (held_home 1) Hc (held_det 1) (held_sym 1) Sy Hs ltac:(intros; lra)
     junk lookup found tol k kx a u types s segs 2 Hk Hr Ha E ltac:(intros; exact corner_lone)) as (l2 & _ & r & r' & R1 & R2 & D). cbv zeta in D.
  change (shifted (bp_labels corner) 2) with 2%nat in R1, R2.
  assert (idx = [4%nat]) as ->.
  { apply sorted_single; [exact St|]. intros i. rewrite Ii. split; [intros (t & T1 & ->); apply corner_starts in T1; subst t; reflexivity|intros ->; exists 3%nat; split; [apply corner_starts; reflexivity|reflexivity]]. }
  destruct Cut as [Ls Cut]. destruct segs as [|g segs]; [discriminate|]. destruct (Cut 0%nat g eq_refl) as (Hb & Lx & Lyg & Eg & _). cbn [start_of end_of nth app] in Hb, Lx, Lyg, Eg.
  exists s, g, segs, r, r'. split; [exact E|]. split; [exact Lyg|].
  destruct (Eg 2%nat ltac:(lia)) as [X2 Y2]. destruct (Eg 3%nat ltac:(lia)) as [X3 Y3]. cbn [Nat.add] in *.
  destruct Ax as (Al & _ & Ax). specialize (Ax 2%nat ltac:(cbn; lia)). cbv zeta in Ax.
  change (nth 3 (doubled (bp_k corner) (bp_labels corner)) vzero) with vzero in Ax. change (nth 2 (doubled (bp_k corner) (bp_labels corner)) vzero) with vzero in Ax.
  assert (Same : nth 3 (xs s) 0 = nth 2 (xs s) 0).
  { destruct Ax as [_ Ax]. rewrite Ax.
    - replace (vsub vzero vzero) with vzero by (cbn; apply V3_eq; ring). replace (vmul vzero (reciprocal_cell (f_cell (held 1)))) with vzero by (change (f_cell (held 1)) with unit_cell3; rewrite unit_recip; cbn; apply V3_eq; ring).
      unfold norm. replace (dot vzero vzero) with 0 by (cbn; ring). rewrite sqrt_0. ring.
    - intros [J _]. replace (vsub vzero vzero) with vzero in J by (cbn; apply V3_eq; ring). unfold taxi, vzero in J. rewrite !Rminus_0_r, Rabs_R0 in J. lra. }
  split; [|split; [congruence|split; [congruence|]]].
  - rewrite (nth_error_nth' _ 0) in X2 by (rewrite Lx; lia). rewrite (nth_error_nth' _ 0) in X3 by (rewrite Lx; lia).
    rewrite (nth_error_nth' (xs s) 0) in X2 by (rewrite Al; cbn; lia). rewrite (nth_error_nth' (xs s) 0) in X3 by (rewrite Al; cbn; lia). congruence.
  - change (nth 3 (bp_k corner) vzero) with ((0, 1/2, 0) : V3) in D. change (nth (2 - 1) (bp_k corner) vzero) with ((1/4, 0, 0) : V3) in D. destruct (trace_along 1) as [Tx Ty]. rewrite Tx, Ty in D. lra.
Qed.

(** ** The spacing *)
Lemma spacing_units seekpath erfc reigh ceigh argsort chunk junk lookup found tol k kx a u v types x : path_scales seekpath -> 0 < u -> 0 < v ->
  dispersion_tool seekpath erfc reigh ceigh argsort chunk junk lookup found tol k kx a (DForce v types x) =
  dispersion_tool seekpath erfc reigh ceigh argsort chunk junk lookup found tol k kx
    (mkDA (da_reorder a) (da_unit a) (da_spacing a * (v / u)) (da_asr a) (da_param a) (da_btol a)) (DForce u types x).
Proof.
  intros Sc Hu Hv. unfold dispersion_tool, q_distance. cbn [da_unit da_spacing da_asr da_param]. destruct (lookup (da_unit a)) as [l|]; [|reflexivity].
  unfold bands_from_force_constants. rewrite (path_units seekpath u v types x (da_spacing a / l) true Sc Hu Hv).
  replace (da_spacing a / l * (v / u)) with (da_spacing a * (v / u) / l) by (unfold Rdiv; ring).
  destruct (result _ _ _ _ _ _ _ _) as [[[qpts w] ms]|e]; [|reflexivity]. reflexivity.
Qed.
(** Three points, or two if the distance is at least 3/2 over the first lattice vector. *)
Definition coarse : M3 -> list V3 -> list nat -> R -> bpath := fun c _ _ dist =>
  if Rltb (norm (row c 0) * dist) (3/2) then mkBP [vzero; (1/4, 0, 0); (1/2, 0, 0)] ["GAMMA"; ""; "X"]%string else mkBP [vzero; (1/2, 0, 0)] ["GAMMA"; "X"]%string.
Lemma coarse_scales : path_scales coarse.
Proof.
  intros c a1 a2 a3 r t dist Hc. unfold coarse. cbn [row]. replace (norm (vscal c a1) * (dist / c)) with (norm a1 * dist); [reflexivity|].
  unfold norm. replace (dot (vscal c a1) (vscal c a1)) with (c * c * dot a1 a1) by (destruct a1 as [[x y] z]; cbn; ring).
  rewrite sqrt_mult_alt by nra. rewrite sqrt_square by lra. field. lra.
Qed.
Lemma coarse_differs : length (bp_k (coarse (cell_in 1 unit_cell3) [] [] 1)) = 3%nat /\ length (bp_k (coarse (cell_in 2 unit_cell3) [] [] 1)) = 2%nat.
Proof.
  unfold coarse. cbn [cell_in unit_cell3 row]. split.
  - rewrite Rltb_true; [reflexivity|]. unfold norm. cbn. replace (_ + _) with 1 by ring. rewrite sqrt_1. lra.
  - rewrite Rltb_false; [reflexivity|]. unfold norm. cbn. replace (_ + _) with (2 * 2) by ring. rewrite sqrt_square; lra.
Qed.

(** ** Files of modes and frequencies *)
Section L.
Variable seekpath : M3 -> list V3 -> list nat -> R -> bpath.
Variables (erfc : R -> R) (reigh : real_eigh) (ceigh : complex_eigh) (argsort : list R -> list nat) (chunk : nat).
Notation tool := (dispersion_tool seekpath erfc reigh ceigh argsort chunk).
Lemma table_row (f : nat -> nat -> R) n q p : (q < p)%nat -> nth_error (map (fun q => map (f q) (seq 0 n)) (seq 0 p)) q = Some (map (f q) (seq 0 n)).
Proof. intros Hq. rewrite (map_nth_error _ q (seq 0 p) (d := q)); [reflexivity|]. rewrite (nth_error_nth' _ 0%nat) by (rewrite seq_length; exact Hq). rewrite seq_nth by exact Hq. reflexivity. Qed.
Lemma loaded_drawn junk lookup found tol k kx a cell qpts d t : da_reorder a = false ->
  ((exists e, d = DModes cell qpts e /\ t = et e) \/ d = DFreqs cell qpts t) -> 0 <= kx -> (2 <= length qpts)%nat -> length qpts = nq t ->
  exists s segs idx m, tool junk lookup found tol k kx a d = Ok (s, segs) /\ along_path (reciprocal_cell cell) kx qpts (xs s) /\ length (ys s) = length qpts /\
  (forall q, (q < nq t)%nat -> nth_error (ys s) q = Some (map (fun m => freq t q m * k) (seq 0 (nm t)))) /\ xticks s = Some (found qpts) /\
  is_median m (gaps (xs s)) /\ StronglySorted lt idx /\
  (forall b, In b idx <-> (0 < b < length (xs s))%nat /\ big_gap (da_btol a) m (nth b (xs s) 0 - nth (b - 1) (xs s) 0)) /\ cut_at s idx segs.
Proof.
  intros Hr Hd Hk H2 Hn.
  assert (G : exists e, et e = mkF (nq t) (nm t) (fun q m => freq t q m * k) (wt t) /\ tool junk lookup found tol k kx a d = draw found tol kx a cell qpts e [] None).
  { destruct Hd as [(e & -> & ->)| ->]; unfold dispersion_tool; rewrite ?Hr; eexists; (split; [|reflexivity]); reflexivity. }
  destruct G as (e & Ee & G).
  destruct (gap_draw found tol kx a cell qpts e e ltac:(rewrite Hr; reflexivity) Hk H2 ltac:(rewrite Ee; exact Hn)) as (s & segs & idx & m & E & Ex & Ey & Et & M & St & I & C).
  exists s, segs, idx, m. rewrite G. split; [exact E|]. split; [rewrite Ex; apply abscissa_along; lia|]. rewrite Ee in Ey. cbn [freq nm nq] in Ey.
  split; [rewrite Ey, map_length, seq_length; symmetry; exact Hn|]. split; [intros q Hq; rewrite Ey; exact (table_row (fun q m => freq t q m * k) _ q _ Hq)|]. split; [exact Et|]. split; [exact M|]. split; [exact St|]. split; [exact I|exact C].
Qed.
Lemma reorder_drawn junk lookup found tol k kx a cell qpts e : da_reorder a = true -> 0 <= kx -> (2 <= length qpts)%nat -> length qpts = nq (et e) -> nm (et e) = (3 * n_atoms e)%nat ->
  ((forall t, (1 <= t < nq (et e))%nat -> nth (t - 1) (calc_reorder tol true qpts) false = true -> always_overlap (n_atoms e) (evec e (t - 1)%nat) (evec e t)) \/
  (forall t, (1 <= t < nq (et e))%nat -> nth (t - 1) (calc_reorder tol true qpts) false = true ->
     orthonormal (n_atoms e) (evec e (t - 1)%nat) /\ orthonormal (n_atoms e) (evec e t) /\ partnered (n_atoms e) (evec e (t - 1)%nat) (evec e t))) ->
  exists s segs idx m, tool junk lookup found tol k kx a (DModes cell qpts e) = Ok (s, segs) /\ along_path (reciprocal_cell cell) kx qpts (xs s) /\ length (ys s) = length qpts /\
  (forall q, (q < nq (et e))%nat -> exists row, nth_error (ys s) q = Some row /\ Permutation row (map (fun m => freq (et e) q m * k) (seq 0 (nm (et e))))) /\ xticks s = Some (found qpts) /\
  is_median m (gaps (xs s)) /\ StronglySorted lt idx /\
  (forall b, In b idx <-> (0 < b < length (xs s))%nat /\ big_gap (da_btol a) m (nth b (xs s) 0 - nth (b - 1) (xs s) 0)) /\ cut_at s idx segs.
Proof.
  intros Hr Hk H2 Hn Hm Ho. set (e1 := mkE (mkF (nq (et e)) (nm (et e)) (fun q m => freq (et e) q m * k) (wt (et e))) (n_atoms e) (evec e)).
  assert (G : exists e', reorder_frequencies tol true qpts e1 = Ok e' /\ forall q, (q < nq (et e1))%nat -> reordered e1 e' q).
  { destruct Ho as [Ho|Ho].
    - destruct (reorder_permutes tol true qpts e1) as (e' & E1 & _ & _ & _ & _ & P); [cbn; lia|exact Ho|]. exists e'. split; [exact E1|exact P].
    - destruct (reorder_follows tol true qpts e1) as (e' & E1 & P & _); [cbn; lia|exact Ho|]. exists e'. split; [exact E1|exact P]. }
  destruct G as (e' & E1 & P).
  assert (N : nq (et e') = nq (et e1) /\ nm (et e') = nm (et e1)).
  { unfold reorder_frequencies in E1. destruct (reorder_maps _ _ _ _) in E1; [|discriminate]. injection E1 as <-. split; reflexivity. }
  destruct N as [N1 N2].
  destruct (gap_draw found tol kx a cell qpts e1 e' ltac:(rewrite Hr; exact E1) Hk H2 ltac:(rewrite N1; exact Hn)) as (s & segs & idx & m & E & Ex & Ey & Et & M & St & I & C).
  exists s, segs, idx, m. split; [exact E|]. split; [rewrite Ex; apply abscissa_along; lia|].
  split; [rewrite Ey, map_length, seq_length, N1; symmetry; exact Hn|]. split; [|split; [exact Et|split; [exact M|split; [exact St|split; [exact I|exact C]]]]].
  intros q Hq. eexists. split; [rewrite Ey; apply (table_row (freq (et e'))); rewrite N1; exact Hq|].
  destruct (P q Hq) as (perm & Pp & V). cbn [e1 n_atoms] in Pp, V. rewrite N2. cbn [e1 et nm]. rewrite Hm.
  rewrite <- (map_map (fun m => m) (fun m => freq (et e) q m * k)). rewrite map_id.
  transitivity (map (fun m => freq (et e) q m * k) perm); [|apply Permutation_map; exact Pp].
  assert (Lp : length perm = (3 * n_atoms e)%nat) by (rewrite (Permutation_length Pp), seq_length; reflexivity).
  match goal with |- Permutation ?l ?r => assert (l = r) as ->; [|reflexivity] end.
  rewrite <- Lp at 1. rewrite <- (map_nth_seq' perm 0%nat) at 2. rewrite map_map. apply map_ext_in. intros b Ib. apply in_seq in Ib. apply (V b). lia.
Qed.
Lemma refusals junk lookup found tol k kx a :
  (forall cell qpts t, da_reorder a = true -> tool junk lookup found tol k kx a (DFreqs cell qpts t) = Err NoEigenvectors) /\
  (forall u types x, lookup (da_unit a) = None -> tool junk lookup found tol k kx a (DForce u types x) = Err BadLengthUnit).
Proof. unfold dispersion_tool, q_distance. split; [intros cell qpts t ->|intros u types x ->]; reflexivity. Qed.
End L.
