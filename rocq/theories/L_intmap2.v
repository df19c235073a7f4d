(** More lemmas for C83: axes, broadening and scaling of the whole tool. *)
From Coq Require Import String Sorted.
From Verif Require Import Base L_util M_cell M_qpts L_qpts L_path L_path2 M_path M_broad S_broad M_dos S_dos L_dos M_bins S_bins L_bins L_bins2 L_broad3 M_fixed S_fixed L_fixed L_fixed2 L_fixed4 L_fixed5 L_fixed6 M_clidos L_clidos2 S_powder L_powder L_powder2 L_struct M_intmap S_intmap L_intmap.
Open Scope R_scope.

Lemma in_all_freqs k t q m : (q < nq t)%nat -> (m < nm t)%nat -> In (freq t q m * k) (all_freqs k t).
Proof. intros Hq Hm. unfold all_freqs. apply in_map_iff. exists (q, m). split; [reflexivity|]. unfold pairs. apply in_prod; apply in_seq; lia. Qed.

Lemma i_bins_spec k room a t bins : (1 <= ia_ebins a)%nat -> i_bins k room a t = Ok bins ->
  exists lo hi, lo < hi /\ even_bins lo hi (ia_ebins a) bins /\ increasing bins /\
  (forall e, ia_emin a = Some e -> lo = e) /\ (forall e, ia_emax a = Some e -> hi = e).
Proof.
  intros Hn. unfold i_bins. destruct (all_freqs k t) as [|f0 fs]; [discriminate|]. unfold get_energy_bins.
  set (lo := match ia_emin a with Some e => e | None => _ end). set (hi := match ia_emax a with Some e => e | None => _ end).
  destruct (Rleb_spec hi lo) as [H|H]; [discriminate|]. intros E. injection E as <-. exists lo, hi. split; [lra|]. split; [apply linspace_even, Hn|].
  split; [apply incr_of_steps; rewrite length_linspace; intros i Hi; apply linspace_step; [exact Hi|lra]|].
  split; intros e Ee; [unfold lo|unfold hi]; rewrite Ee; reflexivity.
Qed.
Lemma i_bins_cover k room a t : 0 < room -> (1 <= ia_ebins a)%nat -> ia_emin a = None -> ia_emax a = None ->
  (exists q m, (q < nq t)%nat /\ (m < nm t)%nat /\ 0 < freq t q m * k) ->
  exists bins, i_bins k room a t = Ok bins /\ forall q m, (q < nq t)%nat -> (m < nm t)%nat -> nth 0 bins 0 < freq t q m * k < nth (ia_ebins a) bins 0.
Proof.
  intros Hr Hn E1 E2 (q0 & m0 & H1 & H2 & H3). unfold i_bins. pose proof (in_all_freqs k t q0 m0 H1 H2) as I0.
  destruct (all_freqs k t) as [|f0 fs] eqn:Ea; [contradiction|]. rewrite E1, E2.
  destruct (default_bins_cover f0 fs (ia_ebins a + 1) (105 / 100) room) as (bins & B1 & B2 & B3 & B4); [lia|lra|exact Hr|exists (freq t q0 m0 * k); split; assumption|].
  exists bins. split; [exact B1|]. intros q m Hq Hm. pose proof (in_all_freqs k t q m Hq Hm) as I. rewrite Ea in I. specialize (B4 _ I).
  replace (ia_ebins a + 1 - 1)%nat with (ia_ebins a) in B4 by lia. exact B4.
Qed.

(** ** Breakpoints as natural numbers *)
Lemma breakpoints_nat r x : exists idx, breakpoints r x = map Z.of_nat idx /\ StronglySorted lt idx /\ forall b, In b idx -> (0 < b)%nat.
Proof.
  unfold breakpoints. destruct (median (np_diffR x)) as [m|]; [|exists []; split; [reflexivity|]; split; [constructor|intros b []]].
  set (l := where_true _). exists (map S l). split; [rewrite map_map; apply map_ext; intros i; lia|].
  split; [|intros b I; apply in_map_iff in I; destruct I as (i & <- & _); lia].
  assert (S0 : StronglySorted lt l) by (unfold l, where_true; apply filter_sorted, seq_sorted).
  clearbody l. induction S0 as [|y l S0 IH F]; [constructor|]. cbn [map]. constructor; [exact IH|]. apply Forall_map. apply (Forall_impl _ (P := lt y)); [intros; lia|exact F].
Qed.

(** ** The map before broadening *)
Lemma map_rows k room wmin a d bins : 0 < k -> (1 <= ia_ebins a)%nat -> path_data (path_of d) -> i_bins k room a (pd_t (path_of d)) = Ok bins ->
  forall z, i_map k wmin a (path_of d) bins = Ok z -> length z = length (pd_x (path_of d)) /\ rect (ia_ebins a) z.
Proof.
  intros Hk He (P1 & P2 & P3) Eb z Ez. destruct (i_bins_spec _ _ _ _ _ He Eb) as (lo & hi & Hl & [Lb Nb] & Inc & _).
  unfold i_map in Ez. destruct (is_coherent a).
  - destruct (pd_coherent _ _ _) as [z0|] eqn:E; [|discriminate]. injection Ez as <-. destruct (P3 _ _ _ E) as [Q1 Q2]. split; [exact Q1|]. intros r I. rewrite (Q2 r I), Lb. lia.
  - destruct (dos_rows k bins (pd_t (path_of d)) wmin Hk Inc ltac:(lia) P2) as (z0 & E & L & Rz & _). rewrite E in Ez. injection Ez as <-.
    split; [congruence|]. intros r I. rewrite (Rz r I). lia.
Qed.

Definition rows_spec (d : idata) (rows : list (option (list R))) : xspec (option (list R)) := mkX (pd_x (path_of d)) rows (Some (i_ticks d)).
Lemma tool_eq coeffs k room wmin a d bins z z1 : refused a d = None -> i_bins k room a (pd_t (path_of d)) = Ok bins ->
  i_map k wmin a (path_of d) bins = Ok z -> i_broaden coeffs a (pd_x (path_of d)) bins z = Ok z1 ->
  intensity_tool coeffs k room wmin a d = let s := rows_spec d (i_rows (length z) (i_scaled a z1)) in
    match i_split a d s with Ok segs => Ok (bins, s, segs) | Err e => Err (ISplitErr e) end.
Proof. intros E1 E2 E3 E4. unfold intensity_tool. rewrite E1, E2, E3, E4. reflexivity. Qed.
Lemma tool_inv coeffs k room wmin a d bins s segs : intensity_tool coeffs k room wmin a d = Ok (bins, s, segs) ->
  refused a d = None /\ i_bins k room a (pd_t (path_of d)) = Ok bins /\ exists z z1, i_map k wmin a (path_of d) bins = Ok z /\
  i_broaden coeffs a (pd_x (path_of d)) bins z = Ok z1 /\ s = rows_spec d (i_rows (length z) (i_scaled a z1)) /\ i_split a d s = Ok segs.
Proof.
  unfold intensity_tool. destruct (refused a d); [discriminate|]. destruct (i_bins k room a _) as [b|]; [|discriminate].
  destruct (i_map k wmin a _ b) as [z|] eqn:Em; [|discriminate]. destruct (i_broaden coeffs a _ b z) as [z1|] eqn:Eb; [|discriminate]. cbv zeta.
  match goal with |- context [i_split a d ?s0] => destruct (i_split a d s0) as [l|] eqn:Es; [|discriminate] end.
  intros H. injection H as <- <- <-. split; [reflexivity|]. split; [reflexivity|]. exists z, z1. split; [exact Em|]. split; [exact Eb|]. split; [reflexivity|exact Es].
Qed.

(** Splitting depends on the number of rows only. *)
Lemma nth_map_seq {A} (l : list A) d : map (fun i => nth i l d) (seq 0 (length l)) = l.
Proof. apply map_nth_seq'. Qed.
Lemma i_split_rows a a' d rows rows' segs : ia_btol a' = ia_btol a -> length rows = length rows' -> i_split a d (rows_spec d rows) = Ok segs -> exists segs', i_split a' d (rows_spec d rows') = Ok segs'.
Proof.
  intros Ea L E. assert (Eq : forall s, i_split a' d s = i_split a d s) by (intros s; unfold i_split; rewrite Ea; reflexivity).
  set (q := mkX (pd_x (path_of d)) (seq 0 (length rows)) (Some (i_ticks d))).
  assert (E1 : rows_spec d rows = over (fun i => nth i rows None) q) by (unfold over, q, rows_spec; cbn [xs ys xticks]; rewrite nth_map_seq; reflexivity).
  assert (E2 : rows_spec d rows' = over (fun i => nth i rows' None) q) by (unfold over, q, rows_spec; cbn [xs ys xticks]; rewrite L, nth_map_seq; reflexivity).
  rewrite Eq, E2. rewrite E1 in E.
  assert (T : forall B (f : nat -> B), match d with IForce labels _ => split_by_indices (over f q) (map Z.of_nat (cli_break_points labels)) | _ => split_by_indices (over f q) (breakpoints (ia_btol a) (xs q)) end
     = match (match d with IForce labels _ => split_by_indices q (map Z.of_nat (cli_break_points labels)) | _ => split_by_indices q (breakpoints (ia_btol a) (xs q)) end) with Ok l => Ok (map (over f) l) | Err e => Err e end).
  { intros B f. destruct d; apply split_idx_map. }
  assert (U : forall f : nat -> option (list R), i_split a d (over f q) = match d with IForce labels _ => split_by_indices (over f q) (map Z.of_nat (cli_break_points labels)) | _ => split_by_indices (over f q) (breakpoints (ia_btol a) (xs q)) end) by (intros f; destruct d; reflexivity).
  rewrite U, T in E |- *. destruct (match d with IForce labels _ => split_by_indices q _ | _ => _ end) as [l|]; [|discriminate]. eexists. reflexivity.
Qed.

(** ** Splitting at the big steps *)
Lemma breaks_any btol x : climbs x -> (2 <= length x)%nat ->
  exists m idx, is_median m (gaps x) /\ breakpoints btol x = map Z.of_nat idx /\ StronglySorted lt idx /\
  forall b, In b idx <-> (0 < b < length x)%nat /\ big_gap btol m (nth b x 0 - nth (b - 1) x 0).
Proof.
  intros Cl Ln. pose proof (length_np_diffR x) as Ld. unfold breakpoints.
  destruct (median (np_diffR x)) as [m|] eqn:M.
  2:{ destruct (np_diffR x) as [|g gs]; [cbn in Ld; lia|]. discriminate. }
  pose proof (median_spec _ _ M) as IM. rewrite diff_gaps in IM.
  assert (Pm : 0 <= m).
  { destruct IM as (s & P & U & k & K). pose proof (Permutation_length P) as L.
    assert (N : forall i, (i < length s)%nat -> 0 <= nth i s 0).
    { intros i Hi. assert (I : In (nth i s 0) (gaps x)) by (apply (Permutation_in _ P); apply nth_In; exact Hi).
      unfold gaps in I. apply in_map_iff in I. destruct I as (q & <- & I). apply in_seq in I. pose proof (Cl q ltac:(lia)). lra. }
    destruct K as [[E ->]|[E ->]]; [apply N; lia|]. pose proof (N k ltac:(lia)). pose proof (N (S k) ltac:(lia)). lra. }
  set (l := where_true _). exists m, (map S l). split; [exact IM|]. split; [rewrite map_map; apply map_ext; intros i; lia|]. split.
  - assert (Sl : StronglySorted lt l) by (apply filter_sorted, seq_sorted). clear - Sl. induction Sl as [|y l St IH F]; cbn [map]; constructor; [exact IH|].
    rewrite Forall_forall in *. intros z I. apply in_map_iff in I. destruct I as (q & <- & I). apply F in I. lia.
  - intros b. rewrite in_map_iff.
    assert (C : forall g, (if Reqb m 0 then Rltb 0 g else Rltb btol (g / m)) = true <-> big_gap btol m g).
    { intros g. unfold big_gap. destruct (Reqb_spec m 0) as [->|N].
      - rewrite Rltb_iff. split; [intros H; right; split; [reflexivity|exact H]|]. intros [[H _]|[_ H]]; [lra|exact H].
      - assert (P : 0 < m) by lra. rewrite Rltb_iff. split.
        + intros H. left. split; [exact P|]. apply (Rmult_lt_compat_r m) in H; [|exact P]. unfold Rdiv in H. rewrite Rmult_assoc, Rinv_l in H by lra. lra.
        + intros [[_ H]|[H _]]; [|lra]. apply (Rmult_lt_reg_r m); [exact P|]. unfold Rdiv. rewrite Rmult_assoc, Rinv_l by lra. lra. }
    assert (V : forall i, (S i < length x)%nat -> nth i (map (fun g => if Reqb m 0 then Rltb 0 g else Rltb btol (g / m)) (np_diffR x)) false = (if Reqb m 0 then Rltb 0 (nth (S i) x 0 - nth i x 0) else Rltb btol ((nth (S i) x 0 - nth i x 0) / m))).
    { intros i Hi. rewrite (map_nth_indep _ _ _ 0 false) by (rewrite length_np_diffR; lia). rewrite diff_gaps. unfold gaps.
      rewrite (map_nth_indep _ _ _ 0%nat 0) by (rewrite seq_length; lia). rewrite seq_nth by lia. reflexivity. }
    split.
    + intros (i & <- & I). apply in_where_true in I. rewrite map_length, length_np_diffR in I. destruct I as [Hi Hv]. rewrite V in Hv by lia.
      apply C in Hv. replace (S i - 1)%nat with i by lia. split; [lia|exact Hv].
    + intros (Hb & Hg). exists (b - 1)%nat. split; [lia|]. apply in_where_true. rewrite map_length, length_np_diffR. split; [lia|]. rewrite V by lia.
      apply C. replace (S (b - 1)) with b by lia. exact Hg.
Qed.
Lemma split_gaps {A} (s : xspec A) btol : length (xs s) = length (ys s) -> climbs (xs s) -> (2 <= length (xs s))%nat ->
  exists segs idx m, split s None (Some btol) = Ok segs /\ is_median m (gaps (xs s)) /\ StronglySorted lt idx /\
  (forall b, In b idx <-> (0 < b < length (xs s))%nat /\ big_gap btol m (nth b (xs s) 0 - nth (b - 1) (xs s) 0)) /\ cut_at s idx segs.
Proof.
  intros L Cl H2. destruct (breaks_any btol (xs s) Cl H2) as (m & idx & M & E & St & I).
  destruct (split_cut s idx L St) as (segs & Es & C); [intros b Ib; apply I in Ib; lia|].
  exists segs, idx, m. split; [|split; [exact M|split; [exact St|split; [exact I|exact C]]]]. cbn [split] in *. rewrite E. exact Es.
Qed.
