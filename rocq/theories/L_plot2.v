(** Lemmas for C86: figures of several regions, and maps. *)
From Coq Require Import String Sorted.
From Verif Require Import Base M_qpts M_path M_broad M_dos M_bins M_plot S_plot S_intmap L_util L_qpts L_path L_path2 L_dos2 L_bins L_bins2 L_kin L_intmap L_plot.
Open Scope R_scope.

Lemma mapE_total {A B E} (f : A -> res B E) l : (forall a, In a l -> exists b, f a = Ok b) -> exists r, mapE f l = Ok r.
Proof.
  induction l as [|a l IH]; intros H; cbn [mapE]; [exists []; reflexivity|]. destruct (H a (or_introl eq_refl)) as [b ->].
  destruct IH as [r ->]; [intros x I; apply H; right; exact I|]. eexists. reflexivity.
Qed.
Lemma range_spec x w : x_range x = Ok w -> span x w.
Proof.
  destruct x as [|x0 xr]; [discriminate|]. intros E. injection E as <-. exists (Rmin_list x0 xr), (Rmax_list x0 xr).
  split; [apply least_list|]. split; [apply greatest_list|reflexivity].
Qed.
Lemma span_unique x w w' : span x w -> span x w' -> w = w'.
Proof.
  intros (a & b & [Ia La] & [Ib Lb] & ->) (c & d & [Ic Lc] & [Id Ld] & ->).
  pose proof (La c Ic). pose proof (Lc a Ia). pose proof (Lb d Id). pose proof (Ld b Ib). lra.
Qed.
Lemma widths_spec spectra ws : gridspec_kw spectra = Ok ws -> length ws = length spectra /\
  forall i s s0 w w0, nth_error spectra i = Some s -> nth_error spectra 0 = Some s0 -> span (c1_x s) w -> span (c1_x s0) w0 ->
  nth_error ws i = Some (if Reqb w0 0 then None else Some (w / w0)).
Proof.
  unfold gridspec_kw. destruct (mapE _ spectra) as [l|] eqn:E; [|discriminate]. destruct (mapE_inv _ _ _ E) as [L N].
  assert (Sp : forall i s, nth_error spectra i = Some s -> span (c1_x s) (nth i l 0)).
  { intros i s Ei. assert (Hi : (i < length spectra)%nat) by (apply nth_error_Some; rewrite Ei; discriminate). specialize (N i s 0 Hi). cbv beta in N.
    rewrite (nth_error_nth _ _ s Ei) in N. exact (range_spec _ _ N). }
  destruct l as [|v0 vs].
  - intros H. injection H as <-. split; [exact L|]. intros i s s0 w w0 Ei. assert (Hi : (i < length spectra)%nat) by (apply nth_error_Some; rewrite Ei; discriminate).
    cbn in L. lia.
  - intros H. assert (H' : ws = map (fun w => if Reqb v0 0 then None else Some (w / v0)) (v0 :: vs)) by congruence. subst ws. split; [rewrite map_length; exact L|].
    intros i s s0 w w0 Ei E0 Hw Hw0. rewrite (span_unique _ _ _ Hw (Sp i s Ei)), (span_unique _ _ _ Hw0 (Sp 0%nat s0 E0)). cbn [nth].
    assert (Hi : (i < length (v0 :: vs))%nat) by (rewrite L; apply nth_error_Some; rewrite Ei; discriminate).
    rewrite nth_error_map, (nth_error_nth' _ 0 Hi). reflexivity.
Qed.
Lemma figure_spec spectra labels ymin ymax f : plot_1d spectra labels ymin ymax = Ok f ->
  length (fg_axes f) = length spectra /\ length (fg_widths f) = length spectra /\ fg_ymin f = ymin /\ fg_ymax f = ymax /\
  (forall i s, nth_error spectra i = Some s -> exists a, nth_error (fg_axes f) i = Some a /\ plot_1d_to_axis (u1_data s) labels 0 = Ok a) /\
  forall i s s0 w w0, nth_error spectra i = Some s -> nth_error spectra 0 = Some s0 -> span (c1_x (u1_data s)) w -> span (c1_x (u1_data s0)) w0 ->
  nth_error (fg_widths f) i = Some (if Reqb w0 0 then None else Some (w / w0)).
Proof.
  unfold plot_1d. destruct spectra as [|s0 rest]; [discriminate|]. destruct (negb _); [discriminate|]. set (sp := s0 :: rest).
  destruct (gridspec_kw (map u1_data sp)) as [w|] eqn:Ew; [|discriminate]. destruct (mapE _ sp) as [a|] eqn:Ea; [|discriminate].
  intros E. injection E as <-. cbn [fg_axes fg_widths fg_ymin fg_ymax]. destruct (widths_spec _ _ Ew) as [Lw Nw]. rewrite map_length in Lw.
  destruct (mapE_inv _ _ _ Ea) as [La Na]. split; [exact La|]. split; [exact Lw|]. split; [reflexivity|]. split; [reflexivity|]. split.
  - intros i s Ei. assert (Hi : (i < length sp)%nat) by (apply nth_error_Some; rewrite Ei; discriminate). set (d := mkA1 [] 0 0 None). specialize (Na i s d Hi).
    cbv beta in Na. rewrite (nth_error_nth _ _ s Ei) in Na. exists (nth i a d). split; [apply nth_error_nth'; lia|exact Na].
  - intros i s s1 v v0 Ei E0 H1 H2. apply (Nw i (u1_data s) (u1_data s1)); [rewrite nth_error_map, Ei; reflexivity|rewrite nth_error_map, E0; reflexivity|exact H1|exact H2].
Qed.
Lemma units_refused s0 rest s labels ymin ymax : In s rest -> u1_x s <> u1_x s0 \/ u1_y s <> u1_y s0 -> plot_1d (s0 :: rest) labels ymin ymax = Err UnitsDiffer.
Proof.
  intros I H. unfold plot_1d. replace (forallb _ rest) with false; [reflexivity|]. symmetry. apply not_true_iff_false. intros F.
  rewrite forallb_forall in F. specialize (F s I). apply andb_prop in F. destruct F as [F1 F2]. apply String.eqb_eq in F1. apply String.eqb_eq in F2. destruct H; contradiction.
Qed.
Lemma figure_runs s0 rest labels ymin ymax : (forall s, In s rest -> u1_x s = u1_x s0 /\ u1_y s = u1_y s0) ->
  (forall s, In s (s0 :: rest) -> exists a, plot_1d_to_axis (u1_data s) labels 0 = Ok a) -> exists f, plot_1d (s0 :: rest) labels ymin ymax = Ok f.
Proof.
  intros U H. unfold plot_1d. replace (forallb _ rest) with true; [cbn [negb]|].
  2:{ symmetry. apply forallb_forall. intros s I. destruct (U s I) as [-> ->]. rewrite !String.eqb_refl. reflexivity. }
  assert (W : exists w, gridspec_kw (map u1_data (s0 :: rest)) = Ok w).
  { unfold gridspec_kw. assert (M : exists l, mapE (fun s => x_range (c1_x s)) (map u1_data (s0 :: rest)) = Ok l).
    { apply mapE_total. intros c I. apply in_map_iff in I. destruct I as (s & <- & I). destruct (H s I) as [a Ea]. unfold plot_1d_to_axis in Ea.
      destruct (match labels with None => _ | Some _ => _ end); [|discriminate]. destruct (all_segments _ _ _); [|discriminate].
      destruct (c1_x (u1_data s)) as [|x0 xr]; [discriminate|]. eexists. reflexivity. }
    destruct M as [l ->]. destruct l; eexists; reflexivity. }
  destruct W as [w ->]. assert (M : exists l, mapE (fun s => plot_1d_to_axis (u1_data s) labels 0) (s0 :: rest) = Ok l) by (apply mapE_total; exact H).
  destruct M as [l ->]. eexists. reflexivity.
Qed.

(** A region of a split spectrum that has no label *)
Lemma unlabelled_region (s : xspec R) idx ts m : length (xs s) = length (ys s) -> StronglySorted lt idx -> (forall b, In b idx -> (0 < b < length (ys s))%nat) ->
  ys s <> [] -> xticks s = Some ts -> (m <= length idx)%nat ->
  (forall z l, In (z, l) ts -> (z < Z.of_nat (start_of idx m))%Z \/ (m < length idx)%nat /\ (Z.of_nat (end_of idx (length (ys s)) m) <= z)%Z) ->
  exists segs g, split s (Some (map Z.of_nat idx)) None = Ok segs /\ nth_error segs m = Some g /\
  forall label colour, plot_1d_to_axis (mkC1 (xs g) [(ys g, label)] (xticks g)) None colour = Err NoTicks.
Proof.
  intros L St Hb Ny Et Hm Hz. destruct (split_cut s idx L St) as (segs & E & Ls & N); [intros b I; apply Hb in I; lia|].
  destruct (nth_error segs m) as [g|] eqn:Eg; [|apply nth_error_None in Eg; lia]. exists segs, g. split; [exact E|]. split; [exact Eg|]. intros label colour.
  specialize (N m g Eg). cbv zeta in N. destruct N as (O & Lx & Ly & _ & Tn & Ti).
  assert (Pos : (start_of idx m < end_of idx (length (ys s)) m)%nat).
  { unfold start_of, end_of in *. destruct (Nat.eq_dec m (length idx)) as [->|Nm].
    - rewrite app_nth2, Nat.sub_diag by lia. change (nth 0 [length (ys s)] 0%nat) with (length (ys s)).
      destruct (length idx) as [|k] eqn:Ek; cbn [nth]; [destruct (ys s); [congruence|cbn; lia]|]. assert (I : In (nth k idx 0%nat) idx) by (apply nth_In; lia). apply Hb in I. lia.
    - rewrite app_nth1 by lia. destruct m as [|m]; cbn [nth].
      + assert (I : In (nth 0 idx 0%nat) idx) by (apply nth_In; lia). apply Hb in I. lia.
      + assert (H : (S m < length idx)%nat) by lia. clear - St H. revert m H. induction St as [|a l S0 IH F]; intros m H; [cbn in H; lia|].
        destruct m as [|m]; cbn [nth]; [|apply IH; cbn [length] in H; lia]. rewrite Forall_forall in F. apply F. apply nth_In. cbn [length] in H. lia. }
  apply (no_ticks_refused _ None colour (length (ys g))); cbn [c1_lines c1_x c1_ticks].
  - intros p [<-|[]]. reflexivity.
  - left. lia.
  - intros Z. rewrite Z in Lx. cbn [length] in Lx. lia.
  - discriminate.
  - destruct (xticks g) as [tg|] eqn:Eg'; [|rewrite (proj2 Tn eq_refl) in Et; discriminate]. destruct tg as [|[z l] tg]; [reflexivity|]. exfalso.
    destruct (proj1 (Ti ts _ z l Et eq_refl) (or_introl eq_refl)) as (I & Hz0 & Hz1). destruct (Hz _ _ I) as [Hz2|[Hz2 Hz3]]; [lia|]. specialize (Hz1 Hz2). lia.
Qed.

(** ** Maps *)
Lemma edges_span n x e : rising x -> x <> [] -> get_bin_edges n x = Ok e ->
  exists e0 er, e = e0 :: er /\ Rmin_list e0 er = nth 0 x 0 /\ Rmax_list e0 er = nth (length x - 1) x 0.
Proof.
  intros Ri Nx. assert (Lx : (0 < length x)%nat) by (destruct x; [congruence|cbn; lia]).
  assert (G : forall e, In (nth 0 x 0) e -> In (nth (length x - 1) x 0) e -> (forall v, In v e -> nth 0 x 0 <= v <= nth (length x - 1) x 0) ->
    exists e0 er, e = e0 :: er /\ Rmin_list e0 er = nth 0 x 0 /\ Rmax_list e0 er = nth (length x - 1) x 0).
  { intros l I0 I1 B. destruct l as [|e0 er]; [destruct I0|]. exists e0, er. split; [reflexivity|]. destruct (least_list e0 er) as [A1 A2]. destruct (greatest_list e0 er) as [B1 B2].
    specialize (A2 _ I0). specialize (B2 _ I1). apply B in A1. apply B in B1. lra. }
  unfold get_bin_edges, is_bin_edge. destruct (Nat.eqb_spec (length x) (n + 1)) as [E|N].
  - intros H. injection H as <-. apply G; [apply nth_In; lia|apply nth_In; lia|]. intros v I. destruct (In_nth _ _ 0 I) as (i & Hi & <-). split; apply Ri; lia.
  - destruct (Nat.eqb_spec (length x) n) as [E|]; [|discriminate]. destruct (to_edges x Nx) as (e' & -> & Le & E0 & En & Em). intros H. injection H as <-.
    apply G; [rewrite <- E0; apply nth_In; lia|rewrite <- En; apply nth_In; lia|]. intros v I. destruct (In_nth _ _ 0 I) as (i & Hi & <-).
    assert (R0 : forall i, (i < length x)%nat -> nth 0 x 0 <= nth i x 0 <= nth (length x - 1) x 0) by (intros k Hk; split; apply Ri; lia).
    destruct (Nat.eq_dec i 0) as [->|N0]; [rewrite E0; apply R0; lia|]. destruct (Nat.eq_dec i (length x)) as [->|N1]; [rewrite En; apply R0; lia|].
    rewrite Em by lia. pose proof (R0 (i - 1)%nat ltac:(lia)). pose proof (R0 i ltac:(lia)). lra.
Qed.
Lemma image_spec s vmin vmax im ny : even_rows ny (s2_z s) -> s2_z s <> [] -> rising (s2_x s) -> rising (s2_y s) -> plot_2d_to_axis s vmin vmax = Ok im ->
  shown_at (s2_x s) (length (s2_z s)) (im_x im) /\ shown_at (s2_y s) ny (im_y im) /\ length (im_a im) = ny /\
  (forall i j, (i < length (s2_z s))%nat -> (j < ny)%nat -> value_at (im_a im) j i = value_at (s2_z s) i j) /\
  im_extent im = (nth 0 (s2_x s) 0, nth (length (s2_x s) - 1) (s2_x s) 0, (nth 0 (s2_y s) 0, nth (length (s2_y s) - 1) (s2_y s) 0)) /\
  im_vmin im = vmin /\ im_vmax im = vmax /\ set_x_tick_labels (s2_ticks s) (s2_x s) = Ok (im_ticks im).
Proof.
  intros Rw Nz Rx Ry. unfold plot_2d_to_axis. assert (Nc : n_columns (s2_z s) = ny) by (unfold n_columns; destruct (s2_z s) as [|r z]; [congruence|apply Rw; left; reflexivity]). rewrite Nc.
  destruct (get_bin_edges (List.length (s2_z s)) (s2_x s)) as [xe|] eqn:Exe; [|discriminate].
  destruct xe as [|x0 xe]; [destruct (get_bin_edges ny (s2_y s)); [|discriminate]; destruct (get_bin_centres _ _); [|discriminate]; destruct (get_bin_centres _ _); discriminate|].
  destruct (get_bin_edges ny (s2_y s)) as [ye|] eqn:Eye; [|discriminate].
  destruct ye as [|y0 ye]; [destruct (get_bin_centres _ _); [|discriminate]; destruct (get_bin_centres _ _); discriminate|].
  destruct (get_bin_centres (List.length (s2_z s)) (s2_x s)) as [xc|] eqn:Exc; [|discriminate]. destruct (get_bin_centres ny (s2_y s)) as [yc|] eqn:Eyc; [|discriminate].
  destruct (set_x_tick_labels _ _) as [t|]; [|discriminate]. intros E. injection E as <-. cbn [im_x im_y im_a im_extent im_vmin im_vmax im_ticks].
  assert (Nx : s2_x s <> []) by (intros Z; rewrite Z in Exe; unfold get_bin_edges, is_bin_edge in Exe; destruct (s2_z s); [congruence|discriminate]).
  assert (Ny : s2_y s <> []).
  { intros Z. rewrite Z in Eye. unfold get_bin_edges, is_bin_edge in Eye. cbn [length] in Eye. destruct (Nat.eqb_spec 0 (ny + 1)); [lia|]. destruct (Nat.eqb 0 ny); discriminate. }
  destruct (edges_span _ _ _ Rx Nx Exe) as (a0 & ar & Ea & A1 & A2). injection Ea as <- <-. destruct (edges_span _ _ _ Ry Ny Eye) as (b0 & br & Eb & B1 & B2). injection Eb as <- <-.
  split; [exact (centres_shown _ _ _ Exc)|]. split; [exact (centres_shown _ _ _ Eyc)|]. unfold transpose2. rewrite Nc. split; [rewrite map_length, seq_length; reflexivity|].
  split; [|rewrite A1, A2, B1, B2; split; [reflexivity|]; split; [reflexivity|]; split; reflexivity].
  intros i j Hi Hj. unfold value_at. rewrite (map_nth_indep _ _ _ 0%nat []) by (rewrite seq_length; exact Hj). rewrite seq_nth by exact Hj. cbn [Nat.add].
  rewrite (map_nth_indep _ _ _ [] None) by exact Hi. reflexivity.
Qed.

Lemma in_finite l v : In v (finite l) <-> In (Some v) l.
Proof.
  unfold finite. rewrite in_flat_map. split.
  - intros ([w|] & I & H); [|destruct H]. destruct H as [->|[]]. exact I.
  - intros I. exists (Some v). split; [exact I|left; reflexivity].
Qed.
Lemma nanmin_spec l : match nanmin l with Some m => least_of (fun v => In (Some v) l) m | None => forall v, ~ In (Some v) l end.
Proof.
  unfold nanmin. pose proof (in_finite l) as F. destruct (finite l) as [|a r].
  - intros v I. apply F in I. destruct I.
  - destruct (least_list a r) as [A B]. split; [apply F, A|]. intros u I. apply B, F, I.
Qed.
Lemma nanmax_spec l : match nanmax l with Some m => greatest_of (fun v => In (Some v) l) m | None => forall v, ~ In (Some v) l end.
Proof.
  unfold nanmax. pose proof (in_finite l) as F. destruct (finite l) as [|a r].
  - intros v I. apply F in I. destruct I.
  - destruct (greatest_list a r) as [A B]. split; [apply F, A|]. intros u I. apply B, F, I.
Qed.
Lemma fold_min l : forall a, exists m, fold_left py_min l (Some a) = Some m /\ least_of (fun v => v = a \/ In (Some v) l) m.
Proof.
  induction l as [|[b|] l IH]; intros a; cbn [fold_left].
  - exists a. split; [reflexivity|]. split; [left; reflexivity|]. intros u [->|[]]. lra.
  - cbn [py_min]. destruct (Rltb_spec b a) as [H|H].
    + destruct (IH b) as (m & -> & P & Q). exists m. split; [reflexivity|]. split; [destruct P as [->|P]; right; [left; reflexivity|right; exact P]|].
      pose proof (Q b (or_introl eq_refl)). intros u [->|[E|I]]; [lra|injection E as <-; exact H0|apply Q; right; exact I].
    + destruct (IH a) as (m & -> & P & Q). exists m. split; [reflexivity|]. split; [destruct P as [->|P]; [left; reflexivity|right; right; exact P]|].
      pose proof (Q a (or_introl eq_refl)). intros u [->|[E|I]]; [exact H0|injection E as <-; lra|apply Q; right; exact I].
  - cbn [py_min]. destruct (IH a) as (m & -> & P & Q). exists m. split; [reflexivity|]. split; [destruct P as [->|P]; [left; reflexivity|right; right; exact P]|].
    intros u [->|[E|I]]; [apply Q; left; reflexivity|discriminate|apply Q; right; exact I].
Qed.
Lemma fold_max l : forall a, exists m, fold_left py_max l (Some a) = Some m /\ greatest_of (fun v => v = a \/ In (Some v) l) m.
Proof.
  induction l as [|[b|] l IH]; intros a; cbn [fold_left].
  - exists a. split; [reflexivity|]. split; [left; reflexivity|]. intros u [->|[]]. lra.
  - cbn [py_max]. destruct (Rltb_spec a b) as [H|H].
    + destruct (IH b) as (m & -> & P & Q). exists m. split; [reflexivity|]. split; [destruct P as [->|P]; right; [left; reflexivity|right; exact P]|].
      pose proof (Q b (or_introl eq_refl)). intros u [->|[E|I]]; [lra|injection E as <-; exact H0|apply Q; right; exact I].
    + destruct (IH a) as (m & -> & P & Q). exists m. split; [reflexivity|]. split; [destruct P as [->|P]; [left; reflexivity|right; right; exact P]|].
      pose proof (Q a (or_introl eq_refl)). intros u [->|[E|I]]; [exact H0|injection E as <-; lra|apply Q; right; exact I].
  - cbn [py_max]. destruct (IH a) as (m & -> & P & Q). exists m. split; [reflexivity|]. split; [destruct P as [->|P]; [left; reflexivity|right; right; exact P]|].
    intros u [->|[E|I]]; [apply Q; left; reflexivity|discriminate|apply Q; right; exact I].
Qed.
Lemma fold_none l : fold_left py_min l None = None /\ fold_left py_max l None = None.
Proof. induction l as [|b l IH]; [split; reflexivity|exact IH]. Qed.

Lemma z_in_spec u0 s v : In (Some v) (z_in u0 s) <-> exists w, numbers (s2_z s) w /\ v = w * s2_uz s / u0.
Proof.
  unfold z_in, numbers. rewrite in_map_iff. split.
  - intros ([w|] & E & I); [|discriminate]. cbn in E. injection E as <-. apply in_concat in I. exists w. split; [exact I|reflexivity].
  - intros (w & I & ->). exists (Some w). split; [reflexivity|]. apply in_concat. exact I.
Qed.
Lemma low_spec s0 rest : (exists v, numbers (s2_z s0) v) ->
  exists m, fold_left py_min (map (fun s => nanmin (z_in (s2_uz s0) s)) rest) (nanmin (z_in (s2_uz s0) s0)) = Some m /\ least_of (intensity (s2_uz s0) (s0 :: rest)) m.
Proof.
  intros [v Hv]. pose proof (nanmin_spec (z_in (s2_uz s0) s0)) as N0. destruct (nanmin (z_in (s2_uz s0) s0)) as [a|].
  2:{ exfalso. apply (N0 (v * s2_uz s0 / s2_uz s0)). apply z_in_spec. exists v. split; [exact Hv|reflexivity]. }
  destruct (fold_min (map (fun s => nanmin (z_in (s2_uz s0) s)) rest) a) as (m & -> & P & Q). exists m. split; [reflexivity|]. destruct N0 as [A B]. split.
  - destruct P as [->|P].
    + apply z_in_spec in A. destruct A as (w & Hw & ->). exists s0, w. split; [left; reflexivity|]. split; [exact Hw|reflexivity].
    + apply in_map_iff in P. destruct P as (s & E & I). pose proof (nanmin_spec (z_in (s2_uz s0) s)) as N. rewrite E in N. destruct N as [N _].
      apply z_in_spec in N. destruct N as (w & Hw & ->). exists s, w. split; [right; exact I|]. split; [exact Hw|reflexivity].
  - intros u (s & w & [<-|I] & Hw & ->).
    + apply Rle_trans with a; [apply Q; left; reflexivity|]. apply B, z_in_spec. exists w. split; [exact Hw|reflexivity].
    + pose proof (nanmin_spec (z_in (s2_uz s0) s)) as N. assert (In (Some (w * s2_uz s / s2_uz s0)) (z_in (s2_uz s0) s)) as Iw by (apply z_in_spec; exists w; split; [exact Hw|reflexivity]).
      destruct (nanmin (z_in (s2_uz s0) s)) as [b|] eqn:Eb; [|exfalso; exact (N _ Iw)]. apply Rle_trans with b; [|apply N; exact Iw].
      apply Q. right. apply in_map_iff. exists s. split; [exact Eb|exact I].
Qed.
Lemma high_spec s0 rest : (exists v, numbers (s2_z s0) v) ->
  exists m, fold_left py_max (map (fun s => nanmax (z_in (s2_uz s0) s)) rest) (nanmax (z_in (s2_uz s0) s0)) = Some m /\ greatest_of (intensity (s2_uz s0) (s0 :: rest)) m.
Proof.
  intros [v Hv]. pose proof (nanmax_spec (z_in (s2_uz s0) s0)) as N0. destruct (nanmax (z_in (s2_uz s0) s0)) as [a|].
  2:{ exfalso. apply (N0 (v * s2_uz s0 / s2_uz s0)). apply z_in_spec. exists v. split; [exact Hv|reflexivity]. }
  destruct (fold_max (map (fun s => nanmax (z_in (s2_uz s0) s)) rest) a) as (m & -> & P & Q). exists m. split; [reflexivity|]. destruct N0 as [A B]. split.
  - destruct P as [->|P].
    + apply z_in_spec in A. destruct A as (w & Hw & ->). exists s0, w. split; [left; reflexivity|]. split; [exact Hw|reflexivity].
    + apply in_map_iff in P. destruct P as (s & E & I). pose proof (nanmax_spec (z_in (s2_uz s0) s)) as N. rewrite E in N. destruct N as [N _].
      apply z_in_spec in N. destruct N as (w & Hw & ->). exists s, w. split; [right; exact I|]. split; [exact Hw|reflexivity].
  - intros u (s & w & [<-|I] & Hw & ->).
    + apply Rle_trans with a; [|apply Q; left; reflexivity]. apply B, z_in_spec. exists w. split; [exact Hw|reflexivity].
    + pose proof (nanmax_spec (z_in (s2_uz s0) s)) as N. assert (In (Some (w * s2_uz s / s2_uz s0)) (z_in (s2_uz s0) s)) as Iw by (apply z_in_spec; exists w; split; [exact Hw|reflexivity]).
      destruct (nanmax (z_in (s2_uz s0) s)) as [b|] eqn:Eb; [|exfalso; exact (N _ Iw)]. apply Rle_trans with b; [apply N; exact Iw|].
      apply Q. right. apply in_map_iff. exists s. split; [exact Eb|exact I].
Qed.
Lemma none_spec s0 rest : (forall v, ~ numbers (s2_z s0) v) ->
  fold_left py_min (map (fun s => nanmin (z_in (s2_uz s0) s)) rest) (nanmin (z_in (s2_uz s0) s0)) = None /\
  fold_left py_max (map (fun s => nanmax (z_in (s2_uz s0) s)) rest) (nanmax (z_in (s2_uz s0) s0)) = None.
Proof.
  intros H. assert (A : nanmin (z_in (s2_uz s0) s0) = None).
  { pose proof (nanmin_spec (z_in (s2_uz s0) s0)) as N. destruct (nanmin _); [|reflexivity]. destruct N as [N _]. apply z_in_spec in N. destruct N as (w & Hw & _). destruct (H w Hw). }
  assert (B : nanmax (z_in (s2_uz s0) s0) = None).
  { pose proof (nanmax_spec (z_in (s2_uz s0) s0)) as N. destruct (nanmax _); [|reflexivity]. destruct N as [N _]. apply z_in_spec in N. destruct N as (w & Hw & _). destruct (H w Hw). }
  rewrite A, B. split; apply fold_none.
Qed.

Lemma last_nth' (l : list R) : forall a, last l a = nth (length l) (a :: l) 0.
Proof. induction l as [|b l IH]; intros a; [reflexivity|]. destruct l as [|c l]; [reflexivity|]. change (last (b :: c :: l) a) with (last (c :: l) a). rewrite (IH a). reflexivity. Qed.
Lemma map_figure s0 rest vmin vmax f : plot_2d (s0 :: rest) vmin vmax = Ok f ->
  exists lo hi, length (f2_images f) = S (length rest) /\ length (f2_widths f) = S (length rest) /\
  (forall i s, nth_error (s0 :: rest) i = Some s -> exists im, nth_error (f2_images f) i = Some im /\ plot_2d_to_axis s lo hi = Ok im) /\
  (forall v, vmin = Some v -> lo = Some v) /\ (forall v, vmax = Some v -> hi = Some v) /\
  (vmin = None -> (exists v, numbers (s2_z s0) v) -> exists m, lo = Some m /\ least_of (intensity (s2_uz s0) (s0 :: rest)) m) /\
  (vmax = None -> (exists v, numbers (s2_z s0) v) -> exists m, hi = Some m /\ greatest_of (intensity (s2_uz s0) (s0 :: rest)) m) /\
  (vmin = None -> (forall v, ~ numbers (s2_z s0) v) -> lo = None) /\ (vmax = None -> (forall v, ~ numbers (s2_z s0) v) -> hi = None) /\
  (forall i s, nth_error (s0 :: rest) i = Some s ->
     nth_error (f2_widths f) i = Some ((nth (length (s2_x s) - 1) (s2_x s) 0 - nth 0 (s2_x s) 0) * s2_ux s / s2_ux s0)).
Proof.
  unfold plot_2d. set (sp := s0 :: rest). destruct (mapE (q_range (s2_ux s0)) sp) as [w|] eqn:Ew; [|discriminate].
  destruct (existsb _ sp); [discriminate|]. cbv zeta. set (lo := match vmin with Some v => Some v | None => _ end). set (hi := match vmax with Some v => Some v | None => _ end).
  destruct (mapE (fun s => plot_2d_to_axis s lo hi) sp) as [ims|] eqn:Ei; [|discriminate]. intros E. injection E as <-. cbn [f2_images f2_widths]. exists lo, hi.
  destruct (mapE_inv _ _ _ Ew) as [Lw Nw]. destruct (mapE_inv _ _ _ Ei) as [Li Ni]. split; [exact Li|]. split; [exact Lw|]. split; [|split; [|split; [|split; [|split; [|split; [|split]]]]]].
  - intros i s Es. assert (Hi : (i < length sp)%nat) by (apply nth_error_Some; rewrite Es; discriminate).
    set (d := mkIm [] [] [] (0, 0, (0, 0)) None None None). specialize (Ni i s d Hi). cbv beta in Ni. rewrite (nth_error_nth _ _ s Es) in Ni.
    exists (nth i ims d). split; [apply nth_error_nth'; lia|exact Ni].
  - intros v ->. reflexivity.
  - intros v ->. reflexivity.
  - intros Ev Hn. unfold lo. rewrite Ev. apply low_spec. exact Hn.
  - intros Ev Hn. unfold hi. rewrite Ev. apply high_spec. exact Hn.
  - intros Ev Hn. unfold lo. rewrite Ev. apply none_spec. exact Hn.
  - intros Ev Hn. unfold hi. rewrite Ev. apply none_spec. exact Hn.
  - intros i s Es. assert (Hi : (i < length sp)%nat) by (apply nth_error_Some; rewrite Es; discriminate).
    specialize (Nw i s 0 Hi). rewrite (nth_error_nth _ _ s Es) in Nw. rewrite (nth_error_nth' w 0) by lia. f_equal. unfold q_range in Nw.
    destruct (s2_x s) as [|x0 xr]; [discriminate|]. injection Nw as <-. unfold in_unit. rewrite last_nth'. replace (length (x0 :: xr) - 1)%nat with (length xr) by (cbn [length]; lia). change (nth 0 (x0 :: xr) 0) with x0.
    unfold Rdiv. ring.
Qed.
Lemma map_runs s0 rest vmin vmax : (forall s, In s (s0 :: rest) -> s2_x s <> [] /\ (exists row v, In row (s2_z s) /\ In v row) /\
    forall lo hi, exists im, plot_2d_to_axis s lo hi = Ok im) -> exists f, plot_2d (s0 :: rest) vmin vmax = Ok f.
Proof.
  intros H. unfold plot_2d. set (sp := s0 :: rest) in *.
  assert (W : exists w, mapE (q_range (s2_ux s0)) sp = Ok w).
  { apply mapE_total. intros s I. destruct (H s I) as [N _]. unfold q_range. destruct (s2_x s); [congruence|]. eexists. reflexivity. }
  destruct W as [w ->]. replace (existsb _ sp) with false.
  2:{ symmetry. apply not_true_iff_false. intros X. apply existsb_exists in X. destruct X as (s & I & X). destruct (H s I) as (_ & (row & v & I1 & I2) & _).
      assert (Ic : In v (List.concat (s2_z s))) by (apply in_concat; exists row; split; assumption). destruct (List.concat (s2_z s)); [destruct Ic|discriminate]. }
  cbv zeta. set (lo := match vmin with Some v => Some v | None => _ end). set (hi := match vmax with Some v => Some v | None => _ end).
  assert (M : exists l, mapE (fun s => plot_2d_to_axis s lo hi) sp = Ok l) by (apply mapE_total; intros s I; apply H; exact I).
  destruct M as [l ->]. eexists. reflexivity.
Qed.
Lemma image_runs s vmin vmax ny : even_rows ny (s2_z s) -> s2_z s <> [] -> s2_x s <> [] -> s2_y s <> [] ->
  (length (s2_x s) = length (s2_z s) \/ length (s2_x s) = S (length (s2_z s))) -> (length (s2_y s) = ny \/ length (s2_y s) = S ny) ->
  (forall l, s2_ticks s = Some l -> l <> [] /\ forall p, In p l -> (- Z.of_nat (length (s2_x s)) <= fst p < Z.of_nat (length (s2_x s)))%Z) ->
  exists im, plot_2d_to_axis s vmin vmax = Ok im.
Proof.
  intros Rw Nz Nx Ny Lx Ly Ht. unfold plot_2d_to_axis. assert (Nc : n_columns (s2_z s) = ny) by (unfold n_columns; destruct (s2_z s) as [|r z]; [congruence|apply Rw; left; reflexivity]). rewrite Nc.
  assert (G : forall n x, x <> [] -> length x = n \/ length x = S n -> exists a b, get_bin_edges n x = Ok (a :: b)).
  { intros n x Hx Lx'. unfold get_bin_edges, is_bin_edge. destruct (Nat.eqb_spec (length x) (n + 1)) as [E|E]; [destruct x; [congruence|eexists; eexists; reflexivity]|].
    destruct (Nat.eqb_spec (length x) n) as [E'|E']; [|destruct Lx'; lia]. unfold centres_to_edges. destruct x; [congruence|]. eexists. eexists. reflexivity. }
  destruct (G _ _ Nx Lx) as (a & b & ->). destruct (G _ _ Ny Ly) as (a' & b' & ->). destruct (centres_exist _ _ Lx) as [c ->]. destruct (centres_exist _ _ Ly) as [c' ->].
  unfold set_x_tick_labels. destruct (s2_ticks s) as [l|]; [|eexists; reflexivity]. destruct (Ht l eq_refl) as [Nl B]. destruct l as [|p l]; [congruence|].
  destruct (take_runs (s2_x s) (map fst (p :: l))) as [v ->]; [intros loc I; apply in_map_iff in I; destruct I as (q & <- & I); exact (B q I)|]. eexists. reflexivity.
Qed.

(** A map of one pixel *)
Definition pixel (z : option R) (u : R) : s2 := mkS2 [0; 1] [0; 1] [[z]] None 1 1 u.
Lemma pixels_run a b u w : exists f, plot_2d [pixel a u; pixel b w] None None = Ok f.
Proof.
  apply map_runs. intros s Hs. assert (exists z v, s = pixel z v) as (z & v & ->) by (destruct Hs as [<-|[<-|[]]]; eauto).
  split; [discriminate|]. split; [exists [z], z; split; left; reflexivity|]. intros lo hi.
  apply (image_runs _ _ _ 1); [intros row [<-|[]]; reflexivity|discriminate|discriminate|discriminate|right; reflexivity|right; reflexivity|discriminate].
Qed.
Lemma pixel_units v k : 0 < v -> 1 < k -> exists f m0 m1,
  plot_2d [pixel (Some v) 1; pixel (Some (v * k)) (1 / k)] None None = Ok f /\
  (forall w, intensity 1 [pixel (Some v) 1; pixel (Some (v * k)) (1 / k)] w <-> w = v) /\
  f2_images f = [m0; m1] /\ im_vmin m0 = Some v /\ im_vmax m0 = Some v /\ im_vmin m1 = Some v /\ im_vmax m1 = Some v /\
  value_at (im_a m0) 0 0 = Some v /\ value_at (im_a m1) 0 0 = Some (v * k) /\ v < v * k.
Proof.
  intros Hv Hk. destruct (pixels_run (Some v) (Some (v * k)) 1 (1 / k)) as [f E].
  assert (HI : forall w, intensity 1 [pixel (Some v) 1; pixel (Some (v * k)) (1 / k)] w <-> w = v).
  { intros w. split.
    - intros (s & x & Hs & (row & Hr & Hx) & ->). destruct Hs as [<-|[<-|[]]]; cbn [pixel s2_z s2_uz] in *; destruct Hr as [<-|[]]; destruct Hx as [Hx|[]]; injection Hx as <-; field; lra.
    - intros ->. exists (pixel (Some v) 1), v. split; [left; reflexivity|]. split; [exists [Some v]; split; left; reflexivity|]. cbn. field. }
  assert (HN : exists w, numbers (s2_z (pixel (Some v) 1)) w) by (exists v, [Some v]; split; left; reflexivity).
  destruct (map_figure _ _ _ _ _ E) as (lo & hi & Ln & _ & Im & _ & _ & Lo & Hi & _).
  destruct (Lo eq_refl HN) as (m & -> & [M _]). apply HI in M. subst m. destruct (Hi eq_refl HN) as (m & -> & [M _]). apply HI in M. subst m.
  destruct (Im 0%nat _ eq_refl) as (m0 & E0 & P0). destruct (Im 1%nat _ eq_refl) as (m1 & E1 & P1).
  assert (Hr : forall z u, rising (s2_x (pixel z u))).
  { intros z u i j Hij Hj. cbn [s2_x pixel length] in *. destruct i as [|[|i]], j as [|[|j]]; cbn; try lia; lra. }
  assert (Hy : forall z u, rising (s2_y (pixel z u))) by exact Hr.
  assert (He : forall z u, even_rows 1 (s2_z (pixel z u))) by (intros z u row [<-|[]]; reflexivity).
  assert (Hz : forall z u, s2_z (pixel z u) <> []) by (intros z u; discriminate).
  destruct (image_spec _ _ _ _ _ (He _ _) (Hz _ _) (Hr _ _) (Hy _ _) P0) as (_ & _ & _ & A0 & _ & B0 & C0 & _).
  destruct (image_spec _ _ _ _ _ (He _ _) (Hz _ _) (Hr _ _) (Hy _ _) P1) as (_ & _ & _ & A1 & _ & B1 & C1 & _).
  exists f, m0, m1. split; [exact E|]. split; [exact HI|].
  split. { destruct (f2_images f) as [|a [|b [|c l]]]; cbn in *; try discriminate. injection E0 as ->. injection E1 as ->. reflexivity. }
  split; [exact B0|]. split; [exact C0|]. split; [exact B1|]. split; [exact C1|].
  split; [apply (A0 0%nat 0%nat); cbn; lia|]. split; [apply (A1 0%nat 0%nat); cbn; lia|]. nra.
Qed.
Lemma gap_first s0 rest f : plot_2d (s0 :: rest) None None = Ok f -> (forall v, ~ numbers (s2_z s0) v) ->
  forall im, In im (f2_images f) -> im_vmin im = None /\ im_vmax im = None.
Proof.
  intros E Hn im Him. destruct (map_figure _ _ _ _ _ E) as (lo & hi & Ln & _ & Im & _ & _ & _ & _ & Lo & Hi & _).
  rewrite (Lo eq_refl Hn), (Hi eq_refl Hn) in Im. apply (In_nth _ _ im) in Him. destruct Him as (i & Hi' & Ei).
  destruct (nth_error (s0 :: rest) i) as [s|] eqn:Es; [|apply nth_error_None in Es; cbn [length] in Es; lia].
  destruct (Im i s Es) as (im' & E1 & P). apply (nth_error_nth _ _ im) in E1. rewrite E1 in Ei. subst im'. clear -P.
  unfold plot_2d_to_axis in P. repeat match type of P with context [match ?x with _ => _ end] => destruct x; try discriminate end; injection P as <-; split; reflexivity.
Qed.
