(** The statements of C83. *)
From Coq Require Import String Sorted.
From Verif Require Import Base L_util M_cell M_qpts L_qpts L_path L_path2 M_path M_broad S_broad M_dos S_dos L_dos M_bins S_bins L_bins L_bins2 L_broad3 M_fixed S_fixed L_fixed L_fixed2 L_fixed4 L_fixed5 L_fixed6 M_clidos L_clidos2 S_powder L_powder L_powder2 L_struct M_intmap S_intmap L_intmap L_intmap2 L_intmap3.
Open Scope R_scope.

Lemma shows_cell d z i j n : rect n z -> (i < length z)%nat -> (j < n)%nat -> shows (rows_spec d (map Some z)) i j (cell z i j).
Proof.
  intros Rz Hi Hj. exists (nth i z []). cbn [rows_spec ys]. rewrite nth_error_map, (nth_error_nth' z [] Hi). split; [reflexivity|].
  apply nth_error_nth'. rewrite (rect_nth n z i Rz Hi). exact Hj.
Qed.

(** ** The regions *)
Lemma force_regions a labels p rows : length labels = length rows -> length (pd_x p) = length rows ->
  exists segs idx, i_split a (IForce labels p) (rows_spec (IForce labels p) rows) = Ok segs /\ region_starts labels idx /\ cut_at (rows_spec (IForce labels p) rows) idx segs.
Proof.
  intros L1 L2. destruct (break_starts labels) as [B1 B2].
  destruct (split_cut (rows_spec (IForce labels p) rows) (cli_break_points labels)) as (segs & E & C); [exact L2|exact B1| |].
  - intros b I. apply B2 in I. destruct I as (I1 & I2 & _). cbn [rows_spec ys]. lia.
  - exists segs, (cli_break_points labels). split; [exact E|]. split; [split; assumption|exact C].
Qed.
Lemma gap_regions a d rows : (forall l p, d <> IForce l p) -> climbs (pd_x (path_of d)) -> (2 <= length rows)%nat -> length (pd_x (path_of d)) = length rows ->
  exists segs idx m, i_split a d (rows_spec d rows) = Ok segs /\ is_median m (gaps (pd_x (path_of d))) /\ StronglySorted lt idx /\
  (forall b, In b idx <-> (0 < b < length rows)%nat /\ big_gap (ia_btol a) m (nth b (pd_x (path_of d)) 0 - nth (b - 1) (pd_x (path_of d)) 0)) /\
  cut_at (rows_spec d rows) idx segs.
Proof.
  intros Nf Inc Hn L. destruct (split_gaps (rows_spec d rows) (ia_btol a) L Inc ltac:(cbn [rows_spec xs]; lia)) as (segs & idx & m & E & M & St & I & C).
  exists segs, idx, m. split; [destruct d as [l p|p|p]; [exfalso; apply (Nf l p); reflexivity|exact E|exact E]|].
  cbn [rows_spec xs] in *. rewrite <- L. split; [exact M|]. split; [exact St|]. split; [exact I|exact C].
Qed.

(** ** Without broadening *)
Lemma scaled_cell a z n : rect n z -> exists z', i_scaled a (Some z) = Some z' /\ length z' = length z /\ rect n z' /\
  forall i j, (i < length z)%nat -> (j < n)%nat -> cell z' i j = cell z i j * factor a.
Proof.
  intros Rz. unfold i_scaled, factor. destruct (ia_scale a) as [c|].
  - eexists. split; [reflexivity|]. split; [apply map_length|]. split.
    + intros r I. apply in_map_iff in I. destruct I as (r0 & <- & I). rewrite map_length. apply Rz, I.
    + intros i j Hi Hj. unfold cell. rewrite (map_nth_indep _ _ _ [] []) by exact Hi. rewrite (map_nth_indep _ _ _ 0 0) by (rewrite (rect_nth n z i Rz Hi); exact Hj). reflexivity.
  - exists z. split; [reflexivity|]. split; [reflexivity|]. split; [exact Rz|]. intros. ring.
Qed.
Lemma plain_map coeffs k room wmin a d bins : 0 < k -> (1 <= ia_ebins a)%nat -> path_data (path_of d) -> i_bins k room a (pd_t (path_of d)) = Ok bins ->
  ia_weighting a = "dos"%string -> ia_qb a = None -> ia_eb a = None ->
  exists rows, length rows = nq (pd_t (path_of d)) /\
  intensity_tool coeffs k room wmin a d = match i_split a d (rows_spec d rows) with Ok segs => Ok (bins, rows_spec d rows, segs) | Err e => Err (ISplitErr e) end /\
  forall i j, (i < nq (pd_t (path_of d)))%nat -> (j < ia_ebins a)%nat -> exists v, shows (rows_spec d rows) i j v /\
    v * (nth (S j) bins 0 - nth j bins 0) = factor a * (3 / INR (nm (pd_t (path_of d))) * modes_in k (pd_t (path_of d)) (nth j bins 0) (nth (S j) bins 0) i).
Proof.
  intros Hk He (P1 & P2 & P3) Eb Ew E1 E2. destruct (i_bins_spec _ _ _ _ _ He Eb) as (lo & hi & Hl & [Lb Nb] & Inc & _).
  destruct (dos_rows k bins (pd_t (path_of d)) wmin Hk Inc ltac:(lia) P2) as (z & Ez & L & Rz & N). replace (length bins - 1)%nat with (ia_ebins a) in * by lia.
  destruct (scaled_cell a z _ Rz) as (z' & Es & L' & Rz' & N').
  assert (Nc : is_coherent a = false) by (unfold is_coherent; rewrite Ew; reflexivity).
  exists (map Some z'). split; [rewrite map_length; congruence|]. split.
  - rewrite (tool_eq coeffs k room wmin a d bins z (Some z)); [rewrite Es; reflexivity| |exact Eb| |].
    + unfold refused. rewrite Nc. reflexivity.
    + unfold i_map. rewrite Nc, Ez. reflexivity.
    + unfold i_broaden. rewrite E1, E2. reflexivity.
  - intros i j Hi Hj. exists (cell z' i j). split; [apply (shows_cell d z' i j _ Rz'); congruence|]. rewrite N' by (congruence || assumption).
    rewrite <- (N i j Hi Hj). ring.
Qed.

Lemma force_map coeffs k room wmin a labels p bins : 0 < k -> (1 <= ia_ebins a)%nat -> path_data p -> length labels = nq (pd_t p) -> i_bins k room a (pd_t p) = Ok bins ->
  ia_weighting a = "dos"%string -> ia_qb a = None -> ia_eb a = None ->
  exists s segs idx, intensity_tool coeffs k room wmin a (IForce labels p) = Ok (bins, s, segs) /\ xs s = pd_x p /\ length (ys s) = nq (pd_t p) /\
  region_starts labels idx /\ cut_at s idx segs /\
  forall i j, (i < nq (pd_t p))%nat -> (j < ia_ebins a)%nat -> exists v, shows s i j v /\
    v * (nth (S j) bins 0 - nth j bins 0) = factor a * (3 / INR (nm (pd_t p)) * modes_in k (pd_t p) (nth j bins 0) (nth (S j) bins 0) i).
Proof.
  intros Hk He P Ll Eb Ew E1 E2. destruct (plain_map coeffs k room wmin a (IForce labels p) bins Hk He P Eb Ew E1 E2) as (rows & L & T & N). cbn [path_of] in *.
  destruct (force_regions a labels p rows) as (segs & idx & Es & R1 & C); [congruence|destruct P; congruence|]. rewrite Es in T.
  exists (rows_spec (IForce labels p) rows), segs, idx. split; [exact T|]. split; [reflexivity|]. split; [exact L|]. split; [exact R1|]. split; [exact C|exact N].
Qed.
Lemma modes_map coeffs k room wmin a d bins : 0 < k -> (1 <= ia_ebins a)%nat -> path_data (path_of d) -> (forall l p, d <> IForce l p) ->
  climbs (pd_x (path_of d)) -> (2 <= length (pd_x (path_of d)))%nat -> i_bins k room a (pd_t (path_of d)) = Ok bins ->
  ia_weighting a = "dos"%string -> ia_qb a = None -> ia_eb a = None ->
  exists s segs idx m, intensity_tool coeffs k room wmin a d = Ok (bins, s, segs) /\ xs s = pd_x (path_of d) /\ length (ys s) = nq (pd_t (path_of d)) /\
  is_median m (gaps (xs s)) /\ StronglySorted lt idx /\ (forall b, In b idx <-> (0 < b < length (xs s))%nat /\ big_gap (ia_btol a) m (nth b (xs s) 0 - nth (b - 1) (xs s) 0)) /\
  cut_at s idx segs /\
  forall i j, (i < nq (pd_t (path_of d)))%nat -> (j < ia_ebins a)%nat -> exists v, shows s i j v /\
    v * (nth (S j) bins 0 - nth j bins 0) = factor a * (3 / INR (nm (pd_t (path_of d))) * modes_in k (pd_t (path_of d)) (nth j bins 0) (nth (S j) bins 0) i).
Proof.
  intros Hk He P Nf Inc H2 Eb Ew E1 E2. destruct (plain_map coeffs k room wmin a d bins Hk He P Eb Ew E1 E2) as (rows & L & T & N).
  destruct P as (P1 & _). destruct (gap_regions a d rows Nf Inc) as (segs & idx & m & Es & M1 & St & I & C); [congruence|congruence|]. rewrite Es in T.
  exists (rows_spec d rows), segs, idx, m. split; [exact T|]. split; [reflexivity|]. split; [exact L|]. split; [exact M1|]. split; [exact St|]. split.
  - intros b. rewrite I. cbn [rows_spec xs]. rewrite <- P1 in L. rewrite L. reflexivity.
  - split; [exact C|exact N].
Qed.

(** ** Scaling *)
Lemma scale_only coeffs k room wmin a d c bins s segs : ia_scale a = None -> intensity_tool coeffs k room wmin a d = Ok (bins, s, segs) ->
  let f := option_map (map (fun v => v * c)) in
  intensity_tool coeffs k room wmin (with_options a (ia_qb a) (ia_eb a) (Some c)) d
  = Ok (bins, mkX (xs s) (map f (ys s)) (xticks s), map (fun g => mkX (xs g) (map f (ys g)) (xticks g)) segs).
Proof.
  intros E0 T f. destruct (tool_inv _ _ _ _ _ _ _ _ _ T) as (R0 & B0 & z & z1 & Z0 & Z1 & Es & Sp).
  rewrite (tool_eq coeffs k room wmin (with_options a (ia_qb a) (ia_eb a) (Some c)) d bins z z1 R0 B0 Z0 Z1). cbv zeta.
  assert (F : rows_spec d (i_rows (length z) (i_scaled (with_options a (ia_qb a) (ia_eb a) (Some c)) z1)) = over f s).
  { subst s. unfold over, rows_spec. cbn [xs ys xticks]. f_equal. unfold i_scaled. cbn [ia_scale with_options]. rewrite E0.
    destruct z1 as [z1|]; cbn [option_map i_rows]; [rewrite !map_map; reflexivity|]. symmetry. clear. induction (length z) as [|n IH]; [reflexivity|]. cbn. rewrite IH. reflexivity. }
  rewrite F. replace (i_split (with_options a (ia_qb a) (ia_eb a) (Some c)) d (over f s)) with (i_split a d (over f s)) by (destruct d; reflexivity).
  rewrite i_split_map, Sp. reflexivity.
Qed.

(** ** Gaussian broadening *)
Lemma gauss_tool coeffs k room wmin a d bins s0 segs0 qb eb hy : 0 < k -> (2 <= ia_ebins a)%nat -> path_data (path_of d) -> (1 <= length (pd_x (path_of d)))%nat ->
  ia_shape a = "gauss"%string -> intensity_tool coeffs k room wmin (with_options a None None None) d = Ok (bins, s0, segs0) ->
  hy = (nth (ia_ebins a) bins 0 - nth 0 bins 0) / INR (ia_ebins a) ->
  (qb = None \/ exists w, qb = Some w /\ 0 < w /\ 0 < mean_step (xs s0) /\ (2 <= length (xs s0))%nat /\ mean_step (xs s0) < 10 ^ 14 * w) ->
  (eb = None \/ exists w r, eb = Some (w, r) /\ 0 < w /\ hy < 10 ^ 14 * w) ->
  exists s segs z z' Kx Ky, intensity_tool coeffs k room wmin (with_options a qb eb None) d = Ok (bins, s, segs) /\
  xs s = xs s0 /\ xticks s = xticks s0 /\ ys s0 = map Some z /\ ys s = map Some z' /\ length z = length (xs s0) /\ length z' = length z /\ rect (ia_ebins a) z /\ rect (ia_ebins a) z' /\
  ((qb = None /\ untouched Kx) \/ exists w M, qb = Some w /\ shares Kx M /\ gaussian_of_fwhm w (mean_step (xs s0)) Kx M /\ (mean_step (xs s0) <= 3 * w -> (1 <= M)%nat)) /\
  ((eb = None /\ untouched Ky) \/ exists w r M, eb = Some (w, r) /\ shares Ky M /\ gaussian_of_fwhm w hy Ky M) /\
  forall i j, (i < length z)%nat -> (j < ia_ebins a)%nat -> cell z' i j =
    sumn (ia_ebins a) (fun j' => sumn (length z) (fun i' => cell z i' j' * Kx (Z.of_nat i - Z.of_nat i')%Z) * Ky (Z.of_nat j - Z.of_nat j')%Z).
Proof.
  intros Hk He P Hx Es T Eh Hq Hb. destruct (tool_inv _ _ _ _ _ _ _ _ _ T) as (R0 & B0 & z & z1 & Z0 & Z1 & E0 & Sp).
  assert (B0' : i_bins k room a (pd_t (path_of d)) = Ok bins) by exact B0.
  destruct (i_bins_spec k room a _ _ ltac:(lia) B0') as (lo & hi & Hl & Eb & _). pose proof Eb as [Lb Nb].
  destruct (map_rows k room wmin a d bins Hk ltac:(lia) P B0' z Z0) as [Lz Rz]. cbn in Z1. injection Z1 as <-. unfold i_scaled in E0. cbn [ia_scale with_options i_rows] in E0.
  assert (Hh : hy = (hi - lo) / INR (ia_ebins a)).
  { rewrite Eh, !Nb by lia. cbn [INR]. f_equal. field. apply not_0_INR. lia. }
  assert (Ph : 0 < hy) by (rewrite Hh; apply Rdiv_lt_0_compat; [lra|apply lt_0_INR; lia]).
  assert (Ev : even_axis hy (ia_ebins a) bins) by (rewrite Hh; apply even_bins_axis; [lia|exact Eb]).
  subst s0. cbn [xs rows_spec xticks] in *.
  destruct (broad_gauss coeffs (with_options a qb eb None) (pd_x (path_of d)) bins z hy Es) as (z' & Kx & Ky & Ez & L & Rc & Dx & Dy & N); try assumption; try congruence; try lia.
  cbn [ia_ebins with_options ia_qb ia_eb] in *.
  pose proof (tool_eq coeffs k room wmin (with_options a qb eb None) d bins z (Some z') R0 B0 Z0 Ez) as T'. unfold i_scaled in T'. cbn [ia_scale with_options i_rows] in T'. cbv zeta in T'.
  destruct (i_split_rows (with_options a None None None) (with_options a qb eb None) d (map Some z) (map Some z') segs0 eq_refl ltac:(rewrite !map_length; congruence) Sp) as (segs & Sp').
  rewrite Sp' in T'. exists (rows_spec d (map Some z')), segs, z, z', Kx, Ky. cbn [xs ys xticks rows_spec].
  split; [exact T'|]. split; [reflexivity|]. split; [reflexivity|]. split; [reflexivity|]. split; [reflexivity|]. split; [exact Lz|]. split; [exact L|]. split; [exact Rz|]. split; [exact Rc|].
  split; [exact Dx|]. split; [exact Dy|exact N].
Qed.

(** Only the first coefficient is used. *)
Lemma first_only coeffs k room wmin a d qb w r r' sc :
  intensity_tool coeffs k room wmin (with_options a qb (Some (w, r)) sc) d = intensity_tool coeffs k room wmin (with_options a qb (Some (w, r')) sc) d.
Proof. unfold intensity_tool, i_broaden. destruct qb; reflexivity. Qed.

(** ** Intensity crosses the breaks *)
Lemma cell_shows (s : xspec (option (list R))) z n i j v : ys s = map Some z -> rect n z -> (i < length z)%nat -> (j < n)%nat -> (shows s i j v <-> v = cell z i j).
Proof.
  intros E Rz Hi Hj. unfold shows. rewrite E, nth_error_map, (nth_error_nth' z [] Hi). cbn [option_map]. split.
  - intros (row & E1 & E2). injection E1 as <-. unfold cell. symmetry. apply nth_error_nth. exact E2.
  - intros ->. exists (nth i z []). split; [reflexivity|]. apply nth_error_nth'. rewrite (rect_nth n z i Rz Hi). exact Hj.
Qed.
Lemma leak coeffs k room wmin a labels p w bins s0 segs0 b j v : 0 < k -> (2 <= ia_ebins a)%nat -> path_data p -> length labels = nq (pd_t p) ->
  ia_shape a = "gauss"%string -> intensity_tool coeffs k room wmin (with_options a None None None) (IForce labels p) = Ok (bins, s0, segs0) ->
  0 < mean_step (pd_x p) -> mean_step (pd_x p) <= 3 * w -> starts_region labels b -> (j < ia_ebins a)%nat ->
  (forall i j v, shows s0 i j v -> 0 <= v) -> shows s0 (b - 1) j v -> 0 < v ->
  exists s segs idx v', intensity_tool coeffs k room wmin (with_options a (Some w) None None) (IForce labels p) = Ok (bins, s, segs) /\
    xs s = pd_x p /\ length (ys s) = length labels /\ region_starts labels idx /\ cut_at s idx segs /\ shows s b j v' /\ 0 < v'.
Proof.
  intros Hk He P Ll Es T Hm Hw Hs Hj Nn Sv Pv.
  assert (Lx : length (pd_x p) = length labels) by (destruct P; congruence).
  assert (Hb2 : (0 < b < length labels)%nat) by (destruct Hs as (? & ? & _); lia).
  assert (X0 : xs s0 = pd_x p) by (destruct (tool_inv _ _ _ _ _ _ _ _ _ T) as (_ & _ & z & z1 & _ & _ & -> & _); reflexivity).
  assert (Big : mean_step (pd_x p) < 10 ^ 14 * w).
  { apply (Rle_lt_trans _ (3 * w)); [exact Hw|]. apply Rmult_lt_compat_r; lra. }
  destruct (gauss_tool coeffs k room wmin a (IForce labels p) bins s0 segs0 (Some w) None _ Hk He P ltac:(cbn [path_of]; lia) Es T eq_refl) as (s & segs & z & z' & Kx & Ky & T' & X & _ & Y0 & Y & Lz & Lz' & Rz & Rz' & Dx & Dy & N).
  - right. exists w. rewrite X0. split; [reflexivity|]. split; [lra|]. split; [exact Hm|]. split; [lia|exact Big].
  - left. reflexivity.
  - destruct Dx as [[D _]|(w' & M & D & Sh & Gs & HM)]; [discriminate|]. injection D as <-. destruct Dy as [[_ Uy]|(? & ? & ? & D & _)]; [|discriminate].
    rewrite X0 in *.
    assert (K1 : 0 < Kx 1%Z).
    { specialize (HM Hw). rewrite (Gs 1%Z) by lia. destruct Sh as (S1 & S2 & S3 & S4). destruct (Rle_lt_or_eq_dec _ _ (S1 0%Z)) as [G|G].
      - apply Rmult_lt_0_compat; [exact G|apply exp_pos].
      - exfalso. assert (Z0 : forall d, Kx d = 0).
        { intros d. destruct (Z.leb_spec (Z.abs d) (Z.of_nat M)); [rewrite (Gs d) by assumption; rewrite <- G; ring|apply S3; assumption]. }
        rewrite (sumn_ext _ _ (fun _ => 0)) in S4 by (intros; apply Z0). unfold sumn in S4. rewrite Sum_zero in S4. lra. }
    assert (Ev : v = cell z (b - 1) j) by (apply (proj1 (cell_shows s0 z _ (b - 1) j v Y0 Rz ltac:(lia) Hj)); exact Sv).
    assert (Nz : forall i j', (i < length z)%nat -> (j' < ia_ebins a)%nat -> 0 <= cell z i j').
    { intros i j' Hi Hj'. apply (Nn i j'). apply (proj2 (cell_shows s0 z _ i j' _ Y0 Rz Hi Hj')). reflexivity. }
    assert (Pc : 0 < cell z' b j).
    { rewrite (N b j) by (lia || assumption). rewrite (sumn_single _ _ j Hj) by (intros q _ Nq; rewrite Uy; destruct (Z.eqb_spec (Z.of_nat j - Z.of_nat q) 0); [lia|ring]).
      rewrite Uy, Z.sub_diag. cbn [Z.eqb]. rewrite Rmult_1_r.
      apply (Rlt_le_trans _ (cell z (b - 1) j * Kx (Z.of_nat b - Z.of_nat (b - 1))%Z)).
      - replace (Z.of_nat b - Z.of_nat (b - 1))%Z with 1%Z by lia. apply Rmult_lt_0_compat; [lra|exact K1].
      - unfold sumn. assert (Ib : In (b - 1)%nat (seq 0 (length z))) by (apply in_seq; lia). apply in_split in Ib. destruct Ib as (l1 & l2 & El). rewrite El, Sum_app, Sum_cons.
        assert (Sp : forall l, incl l (seq 0 (length z)) -> 0 <= Sum l (fun i' => cell z i' j * Kx (Z.of_nat b - Z.of_nat i')%Z)).
        { intros l Il. apply Sum_nonneg. intros i Ii. apply Il, in_seq in Ii. apply Rmult_le_pos; [apply Nz; lia|apply Sh]. }
        pose proof (Sp l1) as A1. pose proof (Sp l2) as A2. rewrite El in A1, A2.
        assert (0 <= Sum l1 (fun i' => cell z i' j * Kx (Z.of_nat b - Z.of_nat i')%Z)) by (apply A1; intros q Iq; apply in_or_app; left; exact Iq).
        assert (0 <= Sum l2 (fun i' => cell z i' j * Kx (Z.of_nat b - Z.of_nat i')%Z)) by (apply A2; intros q Iq; apply in_or_app; right; right; exact Iq). lra. }
    destruct (tool_inv _ _ _ _ _ _ _ _ _ T') as (_ & _ & zz & zz1 & _ & _ & Er & Sp).
    set (rows := i_rows (length zz) (i_scaled (with_options a (Some w) None None) zz1)) in *.
    assert (Lr : length rows = length z) by (rewrite Er in Y; cbn [rows_spec ys] in Y; rewrite Y, map_length; exact Lz').
    destruct (force_regions (with_options a (Some w) None None) labels p rows) as (segs' & idx & Es' & [R1 R2] & C1 & C2); [lia|lia|].
    rewrite Er in Sp. rewrite Es' in Sp. injection Sp as <-.
    exists s, segs', idx, (cell z' b j). split; [exact T'|]. split; [exact X|]. split; [rewrite Y, map_length; lia|]. split; [split; assumption|].
    split; [rewrite Er; split; assumption|]. split; [|exact Pc]. apply (proj2 (cell_shows s z' _ b j _ Y Rz' ltac:(lia) Hj)). reflexivity.
Qed.

(** ** Refusals *)
Lemma needs_evecs coeffs k room wmin a p : ia_weighting a = "coherent"%string -> intensity_tool coeffs k room wmin a (IFreqs p) = Err NeedsEigenvectors.
Proof. intros E. unfold intensity_tool, refused, is_coherent. rewrite E. reflexivity. Qed.
Lemma needs_force coeffs k room wmin a p t : ia_weighting a = "coherent"%string -> ia_temperature a = Some t -> intensity_tool coeffs k room wmin a (IModes p) = Err NeedsForceConstants.
Proof. intros E Et. unfold intensity_tool, refused, is_coherent. rewrite E, Et. reflexivity. Qed.
