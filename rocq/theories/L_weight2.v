(** Lemmas: the coherent map of euphonic-intensity-map (C83). *)
From Coq Require Import String Sorted.
From Verif Require Import Base Cpx Vec3 M_grid M_cell M_qpts M_path M_broad S_broad M_dos M_bins M_fixed M_clidos M_sf M_sphere M_powder M_intmap M_weight
  S_dos S_sf S_bins S_fixed S_intmap S_sphere L_util L_path L_dos L_dos2 L_sf L_sqw L_sf2 L_bins L_bins2 L_powder L_fixed L_intmap L_intmap2 L_intmap3 L_intmap4 L_sphere L_weight.
Open Scope R_scope.

Lemma plain_any coeffs k room wm a d bins z : refused a d = None -> i_bins k room a (pd_t (path_of d)) = Ok bins -> i_map k wm a (path_of d) bins = Ok z ->
  rect (ia_ebins a) z -> ia_qb a = None -> ia_eb a = None ->
  exists rows, length rows = length z /\
  intensity_tool coeffs k room wm a d = match i_split a d (rows_spec d rows) with Ok segs => Ok (bins, rows_spec d rows, segs) | Err e => Err (ISplitErr e) end /\
  forall i j, (i < length z)%nat -> (j < ia_ebins a)%nat -> shows (rows_spec d rows) i j (cell z i j * factor a).
Proof.
  intros Er Eb Ez Rz E1 E2. destruct (scaled_cell a z _ Rz) as (z' & Es & L' & Rz' & N'). exists (map Some z'). split; [rewrite map_length; exact L'|]. split.
  - rewrite (tool_eq coeffs k room wm a d bins z (Some z) Er Eb Ez); [rewrite Es; reflexivity|]. unfold i_broaden. rewrite E1, E2. reflexivity.
  - intros i j Hi Hj. rewrite <- N' by assumption. apply (shows_cell d z' i j _ Rz'); [lia|exact Hj].
Qed.

Section Weight.
Variable calc : list V3 -> option (list V3 * etable).
Variable uc : M3.
Variables (M : nat -> R) (pos : nat -> V3).
Variable ops : option (list symop).
Variables (chunk : nat) (kB fmin k c : R).
Variable sl : nat -> R.
Notation X := (mkX M pos (reciprocal_cell uc)).
Notation rowsof := (coherent_rows calc uc X ops chunk kB fmin k c sl).
Notation dw_at grid spacing T d :=
  (match T with
   | None => d = None
   | Some t => exists g d0, grid_spec uc grid spacing = Some g /\ dw_on calc X ops chunk kB fmin g t d0 /\ d = Some d0
   end).

Lemma coherent_made e qs grid spacing T dw bins : det3 uc <> 0 -> 0 < k -> (0 < chunk)%nat -> increasing bins -> (2 <= length bins)%nat ->
  dw_at grid spacing T dw -> (forall d0, dw = Some d0 -> dw_n d0 = n_atoms e) ->
  (forall q m, (q < nq (et e))%nat -> (m < nm (et e))%nat -> freq (et e) q m <> 0) ->
  exists z, rowsof e qs grid spacing T bins = Some z /\ length z = nq (et e) /\ rect (length bins - 1) z /\
  forall i j, (i < nq (et e))%nat -> (j < length bins - 1)%nat ->
    cell z i j * (nth (S j) bins 0 - nth j bins 0) = c * scattered kB k T uc sl M pos dw qs e (nth j bins 0) (nth (S j) bins 0) i.
Proof.
  intros De Hk Hc Hi Hl Hd Hn Nz.
  assert (Td : option_map dw_t dw = T).
  { destruct T as [T|]; [|rewrite Hd; reflexivity]. destruct Hd as (g & d0 & _ & Og & ->). cbn [option_map]. f_equal. unfold dw_on in Og. destruct g as [[n0 n1] n2].
    destruct Og as (_ & _ & _ & mesh & qs' & e' & _ & _ & Edw). exact (dw_temperature _ _ _ _ _ _ _ _ _ _ Hc Edw). }
  unfold coherent_rows. rewrite (tool_dw_made _ _ _ _ _ _ _ _ _ _ _ _ Hd).
  assert (Es : exists s, calculate_structure_factor e X sl dw (fun i => nth i qs vzero) = Ok s).
  { rewrite csf_ok; [eexists; reflexivity|apply no_zero; exact Nz|destruct dw as [d|]; [exact (Hn d eq_refl)|exact I]]. }
  destruct Es as [s Es]. rewrite Es. pose proof (csf_inv _ _ _ _ _ _ Es) as (_ & _ & Sv).
  assert (N : nq (sft s) = nq (et e)) by (rewrite Sv; reflexivity).
  destruct (sqw_map_ok kB k c bins s true None Hk Hi) as [z Ez].
  { rewrite Sv. apply no_zero. exact Nz. } { destruct (sf_temp s); exact I. }
  rewrite Ez. exists z. split; [reflexivity|]. destruct (sqw_map_spec kB k c bins s true None z Hk Hi Hl Ez) as [Lz Rz]. rewrite N in Lz, Rz. split; [exact Lz|]. split.
  - intros r Ir. destruct (In_nth _ _ [] Ir) as (i & Hi' & <-). apply Rz. lia.
  - intros i j Hi' Hj. destruct (Rz i Hi') as [_ Rv]. unfold cell. rewrite (Rv j Hj). f_equal.
    rewrite (fun A B => area_scattered uc M pos kB k sl dw qs e s i A B De Es), Td. reflexivity.
Qed.

Lemma coherent_plain coeffs room wm a d x ticks e qs grid spacing dw bins : det3 uc <> 0 -> 0 < k -> (0 < chunk)%nat -> (1 <= ia_ebins a)%nat ->
  path_of d = mkPd x (et e) ticks (rowsof e qs grid spacing) -> refused a d = None -> i_bins k room a (et e) = Ok bins ->
  ia_weighting a = "coherent"%string -> ia_qb a = None -> ia_eb a = None ->
  dw_at grid spacing (ia_temperature a) dw -> (forall d0, dw = Some d0 -> dw_n d0 = n_atoms e) ->
  (forall q m, (q < nq (et e))%nat -> (m < nm (et e))%nat -> freq (et e) q m <> 0) ->
  exists rows, length rows = nq (et e) /\
  intensity_tool coeffs k room wm a d = match i_split a d (rows_spec d rows) with Ok segs => Ok (bins, rows_spec d rows, segs) | Err e => Err (ISplitErr e) end /\
  forall i j, (i < nq (et e))%nat -> (j < ia_ebins a)%nat -> exists v, shows (rows_spec d rows) i j v /\
    v * (nth (S j) bins 0 - nth j bins 0) = factor a * (c * scattered kB k (ia_temperature a) uc sl M pos dw qs e (nth j bins 0) (nth (S j) bins 0) i).
Proof.
  intros De Hk Hc Hn Ep Er Eb Ew E1 E2 Hd Ha Nz. destruct (i_bins_spec _ _ _ _ _ Hn Eb) as (lo & hi & Hl & [Lb Nb] & Inc & _).
  destruct (coherent_made e qs grid spacing (ia_temperature a) dw bins De Hk Hc Inc ltac:(lia) Hd Ha Nz) as (z & Ez & Lz & Rz & Vz).
  replace (length bins - 1)%nat with (ia_ebins a) in * by lia.
  destruct (plain_any coeffs k room wm a d bins z Er) as (rows & Lr & T & Sh); [rewrite Ep; exact Eb| |exact Rz|exact E1|exact E2|].
  - unfold i_map, is_coherent. rewrite Ew, Ep. cbn [String.eqb Ascii.eqb Bool.eqb pd_coherent]. rewrite Ez. reflexivity.
  - rewrite Lz in *. exists rows. split; [exact Lr|]. split; [exact T|]. intros i j Hi Hj. exists (cell z i j * factor a). split; [apply Sh; assumption|].
    rewrite <- (Vz i j Hi Hj). ring.
Qed.
Lemma coherent_force coeffs room wm a labels x ticks e qs grid spacing dw bins : det3 uc <> 0 -> 0 < k -> (0 < chunk)%nat -> (1 <= ia_ebins a)%nat ->
  length x = nq (et e) -> length labels = nq (et e) -> i_bins k room a (et e) = Ok bins ->
  ia_weighting a = "coherent"%string -> ia_qb a = None -> ia_eb a = None ->
  dw_at grid spacing (ia_temperature a) dw -> (forall d0, dw = Some d0 -> dw_n d0 = n_atoms e) ->
  (forall q m, (q < nq (et e))%nat -> (m < nm (et e))%nat -> freq (et e) q m <> 0) ->
  exists s segs idx, intensity_tool coeffs k room wm a (IForce labels (mkPd x (et e) ticks (rowsof e qs grid spacing))) = Ok (bins, s, segs) /\
  xs s = x /\ length (ys s) = nq (et e) /\ region_starts labels idx /\ cut_at s idx segs /\
  forall i j, (i < nq (et e))%nat -> (j < ia_ebins a)%nat -> exists v, shows s i j v /\
    v * (nth (S j) bins 0 - nth j bins 0) = factor a * (c * scattered kB k (ia_temperature a) uc sl M pos dw qs e (nth j bins 0) (nth (S j) bins 0) i).
Proof.
  intros De Hk Hc Hn Lx Ll Eb Ew E1 E2 Hd Ha Nz. set (p := mkPd x (et e) ticks (rowsof e qs grid spacing)).
  destruct (coherent_plain coeffs room wm a (IForce labels p) x ticks e qs grid spacing dw bins De Hk Hc Hn eq_refl) as (rows & L & T & N); try assumption.
  { unfold refused. destruct (negb _); reflexivity. }
  destruct (force_regions a labels p rows) as (segs & idx & Es & R1 & C); [congruence|cbn; congruence|]. rewrite Es in T.
  exists (rows_spec (IForce labels p) rows), segs, idx. split; [exact T|]. split; [reflexivity|]. split; [exact L|]. split; [exact R1|]. split; [exact C|exact N].
Qed.
Lemma coherent_modes coeffs room wm a x ticks e qs grid spacing bins : det3 uc <> 0 -> 0 < k -> (0 < chunk)%nat -> (1 <= ia_ebins a)%nat ->
  length x = nq (et e) -> climbs x -> (2 <= length x)%nat -> i_bins k room a (et e) = Ok bins ->
  ia_weighting a = "coherent"%string -> ia_temperature a = None -> ia_qb a = None -> ia_eb a = None ->
  (forall q m, (q < nq (et e))%nat -> (m < nm (et e))%nat -> freq (et e) q m <> 0) ->
  exists s segs idx md, intensity_tool coeffs k room wm a (IModes (mkPd x (et e) ticks (rowsof e qs grid spacing))) = Ok (bins, s, segs) /\
  xs s = x /\ length (ys s) = nq (et e) /\ is_median md (gaps x) /\ StronglySorted lt idx /\
  (forall b, In b idx <-> (0 < b < length x)%nat /\ big_gap (ia_btol a) md (nth b x 0 - nth (b - 1) x 0)) /\ cut_at s idx segs /\
  forall i j, (i < nq (et e))%nat -> (j < ia_ebins a)%nat -> exists v, shows s i j v /\
    v * (nth (S j) bins 0 - nth j bins 0) = factor a * (c * scattered kB k None uc sl M pos None qs e (nth j bins 0) (nth (S j) bins 0) i).
Proof.
  intros De Hk Hc Hn Lx Inc H2 Eb Ew Et E1 E2 Nz. set (p := mkPd x (et e) ticks (rowsof e qs grid spacing)).
  destruct (coherent_plain coeffs room wm a (IModes p) x ticks e qs grid spacing None bins De Hk Hc Hn eq_refl) as (rows & L & T & N); try assumption.
  { unfold refused. destruct (negb _); [reflexivity|]. rewrite Et. reflexivity. } { rewrite Et. reflexivity. } { discriminate. }
  rewrite Et in N.
  destruct (gap_regions a (IModes p) rows) as (segs & idx & m & Es & M1 & St & In' & C); [discriminate|exact Inc|lia|cbn; congruence|]. rewrite Es in T.
  exists (rows_spec (IModes p) rows), segs, idx, m. split; [exact T|]. split; [reflexivity|]. split; [exact L|]. split; [exact M1|]. split; [exact St|]. split.
  - intros b. rewrite In'. cbn [rows_spec xs]. replace (length rows) with (length x) by congruence. reflexivity.
  - split; [exact C|exact N].
Qed.
End Weight.
