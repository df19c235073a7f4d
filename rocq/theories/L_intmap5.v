(** C83: intensity crossing a break of a path, for --weighting dos, and data for the examples. *)
From Coq Require Import String Sorted.
From Verif Require Import Base L_util M_cell M_qpts L_qpts L_path L_path2 M_path M_broad S_broad M_dos S_dos L_dos M_bins S_bins L_bins L_bins2 L_broad3 M_fixed S_fixed L_fixed L_fixed2 L_fixed4 L_fixed5 L_fixed6 M_clidos L_clidos2 S_powder L_powder L_powder2 L_struct M_intmap S_intmap L_intmap L_intmap2 L_intmap3 L_intmap4.
Open Scope R_scope.

Lemma shows_unique s i j v v' : shows s i j v -> shows s i j v' -> v = v'.
Proof. intros (r & A & B) (r' & A' & B'). congruence. Qed.
Lemma modes_in_none k t lo hi q : (forall m, (m < nm t)%nat -> inside lo hi (k * freq t q m) = false) -> modes_in k t lo hi q = 0.
Proof.
  intros H. unfold modes_in. rewrite (filter_ext_in _ (fun _ => false)); [|intros m I; apply H; apply in_seq in I; lia].
  induction (seq 0 (nm t)); [reflexivity|assumption].
Qed.
Lemma modes_in_some k t lo hi q m : (m < nm t)%nat -> inside lo hi (k * freq t q m) = true -> 0 < modes_in k t lo hi q.
Proof.
  intros Hm E. unfold modes_in. apply lt_0_INR. assert (I : In m (filter (fun m => inside lo hi (k * freq t q m)) (seq 0 (nm t)))) by (apply filter_In; split; [apply in_seq; lia|exact E]).
  destruct (filter _ _); [contradiction|cbn; lia].
Qed.


Lemma sorted_same (l l' : list nat) : StronglySorted lt l -> StronglySorted lt l' -> (forall c, In c l <-> In c l') -> l = l'.
Proof.
  intros St St'. revert l' St'. induction St as [|y l St IH F]; intros l' St' Q.
  - destruct l' as [|c l']; [reflexivity|]. exfalso. apply (Q c). left. reflexivity.
  - destruct St' as [|y' l' St' F']; [exfalso; apply (Q y); left; reflexivity|]. rewrite Forall_forall in F, F'.
    assert (y = y').
    { destruct (proj1 (Q y) (or_introl eq_refl)) as [H|H]; [congruence|]. destruct (proj2 (Q y') (or_introl eq_refl)) as [H'|H']; [congruence|].
      apply F' in H. apply F in H'. lia. }
    subst y'. f_equal. apply IH; [exact St'|]. intros c. split; intros I.
    + destruct (proj1 (Q c) (or_intror I)) as [H|H]; [|exact H]. subst c. apply F in I. lia.
    + destruct (proj2 (Q c) (or_intror I)) as [H|H]; [|exact H]. subst c. apply F' in I. lia.
Qed.
Lemma sorted_next (idx : list nat) : StronglySorted lt idx -> forall m, (S m < length idx)%nat -> (nth m idx 0 < nth (S m) idx 0)%nat.
Proof.
  intros R1. induction R1 as [|y l St IH F]; intros m H; [cbn in H; lia|]. destruct m as [|m].
  - cbn [nth]. apply (proj1 (Forall_forall _ _) F). apply nth_In. cbn in H. lia.
  - change (nth m l 0 < nth (S m) l 0)%nat. apply IH. cbn [length] in H. lia.
Qed.
Lemma same_entries {A} (l l' : list A) : (forall i, nth_error l i = nth_error l' i) -> l = l'.
Proof.
  revert l'. induction l as [|x l IH]; intros [|y l'] H; [reflexivity|specialize (H 0%nat); discriminate|specialize (H 0%nat); discriminate|].
  pose proof (H 0%nat) as H0. cbn in H0. injection H0 as ->. f_equal. apply IH. intros i. exact (H (S i)).
Qed.
(** The start of a region is the first point of one of the parts. *)
Lemma part_of (s s0 : xspec (option (list R))) idx segs segs0 b : xs s = xs s0 -> length (ys s) = length (ys s0) -> StronglySorted lt idx -> cut_at s idx segs -> cut_at s0 idx segs0 ->
  In b idx -> (b < length (ys s))%nat ->
  exists m g g0, nth_error segs (S m) = Some g /\ nth_error segs0 (S m) = Some g0 /\ xs g = xs g0 /\ nth_error (xs g) 0 = nth_error (xs s) b /\
  (forall j v, shows s b j v -> shows g 0 j v) /\ (forall j v, shows s0 b j v -> shows g0 0 j v).
Proof.
  intros Ex Ey St [C1 C2] [D1 D2] Ib Hb. apply (In_nth _ _ 0%nat) in Ib. destruct Ib as (m & Hm & Em).
  destruct (nth_error segs (S m)) as [g|] eqn:Eg; [|apply nth_error_None in Eg; lia].
  destruct (nth_error segs0 (S m)) as [g0|] eqn:Eg0; [|apply nth_error_None in Eg0; lia].
  destruct (C2 _ _ Eg) as (A1 & A2 & A3 & A4 & _). destruct (D2 _ _ Eg0) as (B1 & B2 & B3 & B4 & _). rewrite <- Ey in *. rewrite <- Ex in *.
  unfold start_of in *. cbn [nth] in *. rewrite Em in *. set (h := end_of idx (length (ys s)) (S m)) in *.
  assert (Pos : (0 < h - b)%nat).
  { unfold h, end_of. destruct (Nat.lt_ge_cases (S m) (length idx)) as [H|H].
    - rewrite app_nth1 by exact H. pose proof (sorted_next idx St m H). lia.
    - assert (Q : S m = length idx) by lia. rewrite app_nth2, Q, Nat.sub_diag by lia. cbn [nth]. lia. }
  destruct (A4 0%nat Pos) as [G1 G2]. destruct (B4 0%nat Pos) as [H1 H2]. rewrite Nat.add_0_r in *.
  exists m, g, g0. split; [exact Eg|]. split; [exact Eg0|]. split; [|split; [exact G1|]].
  - apply same_entries. intros i. destruct (Nat.lt_ge_cases i (h - b)) as [H|H].
    + destruct (A4 i H) as [-> _]. destruct (B4 i H) as [-> _]. reflexivity.
    + transitivity (@None R); [apply nth_error_None; lia|symmetry; apply nth_error_None; lia].
  - split; intros j v (row & S1 & S2); exists row; [rewrite G2|rewrite H2]; split; assumption.
Qed.

Lemma leak_dos coeffs k room wmin a labels p bins w b j m : 0 < k -> (2 <= ia_ebins a)%nat -> path_data p -> length labels = nq (pd_t p) ->
  i_bins k room a (pd_t p) = Ok bins -> ia_weighting a = "dos"%string -> ia_shape a = "gauss"%string ->
  0 < mean_step (pd_x p) -> mean_step (pd_x p) <= 3 * w -> starts_region labels b -> (j < ia_ebins a)%nat ->
  (m < nm (pd_t p))%nat -> inside (nth j bins 0) (nth (S j) bins 0) (k * freq (pd_t p) (b - 1) m) = true ->
  (forall m', (m' < nm (pd_t p))%nat -> inside (nth j bins 0) (nth (S j) bins 0) (k * freq (pd_t p) b m') = false) ->
  exists s0 segs0 s segs m g0 g v,
    intensity_tool coeffs k room wmin (with_options a None None None) (IForce labels p) = Ok (bins, s0, segs0) /\
    intensity_tool coeffs k room wmin (with_options a (Some w) None None) (IForce labels p) = Ok (bins, s, segs) /\
    nth_error segs0 (S m) = Some g0 /\ nth_error segs (S m) = Some g /\ xs g = xs g0 /\ nth_error (xs g) 0 = nth_error (pd_x p) b /\
    shows g0 0 j 0 /\ shows g 0 j v /\ 0 < v.
Proof.
  intros Hk He P Ll Eb Ew Es Hm Hw Hs Hj Hm' Hin Hout. pose proof Hs as (Hb1 & Hb2 & _).
  destruct (force_map coeffs k room wmin (with_options a None None None) labels p bins Hk ltac:(cbn; lia) P Ll Eb Ew eq_refl eq_refl) as (s0 & segs0 & idx0 & T0 & X0 & L0 & R0 & C0 & N0).
  cbn [factor with_options ia_scale ia_ebins] in N0.
  destruct (i_bins_spec k room a _ _ ltac:(lia) Eb) as (lo & hi & Hl & [Lb _] & Inc & _).
  assert (Wd : forall j', (j' < ia_ebins a)%nat -> 0 < nth (S j') bins 0 - nth j' bins 0).
  { intros j' H. assert (nth j' bins 0 < nth (S j') bins 0); [|lra]. apply Inc; lia. }
  assert (N3 : 0 < 3 / INR (nm (pd_t p))) by (apply Rdiv_lt_0_compat; [lra|apply lt_0_INR; lia]).
  assert (Nn : forall i j' v, shows s0 i j' v -> (i < nq (pd_t p))%nat -> (j' < ia_ebins a)%nat -> 0 <= v).
  { intros i j' v Sh Hi Hj'. destruct (N0 i j' Hi Hj') as (v' & Sh' & E). rewrite (shows_unique _ _ _ _ _ Sh Sh').
    assert (0 <= v' * (nth (S j') bins 0 - nth j' bins 0)).
    { rewrite E. rewrite Rmult_1_l. apply Rmult_le_pos; [lra|]. unfold modes_in. apply pos_INR. }
    pose proof (Wd j' Hj'). nra. }
  destruct (N0 (b - 1)%nat j ltac:(lia) Hj) as (v & Sv & Ev).
  assert (Pv : 0 < v).
  { pose proof (Wd j Hj) as Hw'. pose proof (modes_in_some k (pd_t p) _ _ (b - 1) m Hm' Hin) as Hp. rewrite Rmult_1_l in Ev.
    pose proof (Rmult_lt_0_compat _ _ N3 Hp) as H. rewrite <- Ev in H. nra. }
  destruct (tool_inv _ _ _ _ _ _ _ _ _ T0) as (_ & B0 & z & z1 & Z0 & Z1 & Er & _).
  destruct (map_rows k room wmin a (IForce labels p) bins Hk ltac:(lia) P Eb z Z0) as [Lz Rz].
  cbn in Z1. injection Z1 as <-. unfold i_scaled in Er. cbn [ia_scale with_options i_rows] in Er.
  assert (Y0 : ys s0 = map Some z) by (rewrite Er; reflexivity).
  destruct (leak coeffs k room wmin a labels p w bins s0 segs0 b j v Hk He P Ll Es T0 Hm Hw Hs Hj) as (s & segs & idx & v' & T & Xs & Ls & Rs & Cs & Sg & Pg).
  - intros i j' u Sh. assert (Hi : (i < length z)%nat).
    { destruct Sh as (row & S1 & _). rewrite Y0 in S1. assert (nth_error (map Some z) i <> None) by congruence. apply nth_error_Some in H. rewrite map_length in H. exact H. }
    assert (Hj' : (j' < ia_ebins a)%nat).
    { destruct Sh as (row & S1 & S2). rewrite Y0, nth_error_map in S1. destruct (nth_error z i) as [r0|] eqn:Er0; [|discriminate]. injection S1 as <-.
      apply nth_error_In in Er0. assert (nth_error r0 j' <> None) by congruence. apply nth_error_Some in H. rewrite (Rz _ Er0) in H. exact H. }
    apply (Nn i j' u Sh); [|exact Hj']. cbn [path_of] in Lz. destruct P as (P1 & _). lia.
  - exact Sv.
  - exact Pv.
  - assert (Ei : idx0 = idx) by (destruct R0 as [A1 A2], Rs as [B1 B2]; apply sorted_same; [assumption|assumption|intros c; rewrite A2, B2; reflexivity]). subst idx0.
    destruct (part_of s s0 idx segs segs0 b) as (q & g & g0 & Eg & Eg0 & Xg & Xb & V & V0); [congruence|congruence|apply Rs|exact Cs|exact C0|apply Rs, Hs|lia|].
    exists s0, segs0, s, segs, q, g0, g, v'. split; [exact T0|]. split; [exact T|]. split; [exact Eg0|]. split; [exact Eg|]. split; [exact Xg|]. split; [congruence|].
    split; [|split; [apply V, Sg|exact Pg]]. apply V0. destruct (N0 b j ltac:(lia) Hj) as (u & Su & Eu). rewrite modes_in_none in Eu by exact Hout.
    pose proof (Wd j Hj). replace 0 with u; [exact Su|]. nra.
Qed.

(** ** Data for the examples *)
Definition two_regions : list string := ["GAMMA"; ""; "X"; "U"; ""; "L"]%string.
(** All three modes at energy 3 in the first region and at 9 in the second. *)
Definition two_table : ftable := mkF 6 3 (fun q _ => if Nat.ltb q 3 then 3 else 9) (fun _ => 1).
Definition two_path : pdata := mkPd [0; 1; 2; 2; 3; 4] two_table [] (fun _ _ => None).
Definition two_args : iargs := mkIA "dos" None 5 (Some 0) (Some 10) None None "gauss" None 10.
Lemma two_data : path_data two_path.
Proof. split; [reflexivity|]. split; [intros; cbn; lra|]. intros T b z H. discriminate. Qed.
Lemma two_bins k room : exists bins, i_bins k room two_args (pd_t two_path) = Ok bins /\ bins = [0; 2; 4; 6; 8; 10].
Proof.
  unfold i_bins. cbn [two_path pd_t]. destruct (all_freqs k two_table) as [|f0 fs] eqn:E; [discriminate|].
  unfold get_energy_bins. cbn [two_args ia_emin ia_emax ia_ebins]. destruct (Rleb_spec 10 0); [lra|]. eexists. split; [reflexivity|].
  unfold linspace. cbn [seq map Nat.add Nat.sub INR]. repeat (f_equal; [lra|]). f_equal. lra.
Qed.
Lemma two_start : starts_region two_regions 3.
Proof. unfold starts_region, two_regions. cbn. repeat split; try lia; discriminate. Qed.
Lemma two_inside lo hi x : lo <= x < hi -> inside lo hi x = true.
Proof. intros [H1 H2]. unfold inside. rewrite (proj2 (Rleb_iff _ _) H1), (proj2 (Rltb_iff _ _) H2). reflexivity. Qed.
Lemma two_outside lo hi x : hi <= x -> inside lo hi x = false.
Proof. intros H1. unfold inside. rewrite (proj2 (Rltb_nf _ _) H1). apply Bool.andb_false_r. Qed.
Lemma two_leak coeffs room wmin :
  exists s0 segs0 s segs m g0 g v,
    intensity_tool coeffs 1 room wmin (with_options two_args None None None) (IForce two_regions two_path) = Ok ([0; 2; 4; 6; 8; 10], s0, segs0) /\
    intensity_tool coeffs 1 room wmin (with_options two_args (Some 1) None None) (IForce two_regions two_path) = Ok ([0; 2; 4; 6; 8; 10], s, segs) /\
    nth_error segs0 (S m) = Some g0 /\ nth_error segs (S m) = Some g /\ xs g = xs g0 /\ nth_error (xs g) 0 = nth_error (pd_x two_path) 3 /\
    shows g0 0 1 0 /\ shows g 0 1 v /\ 0 < v.
Proof.
  destruct (two_bins 1 room) as (bins & E & ->).
  apply (leak_dos coeffs 1 room wmin two_args two_regions two_path _ 1 3 1 0); try reflexivity; try exact E; try apply two_data; try apply two_start; try lra; try (cbn; lia).
  - unfold mean_step. cbn. lra.
  - unfold mean_step. cbn. lra.
  - apply two_inside. cbn. lra.
  - intros m' _. apply two_outside. cbn. lra.
Qed.
(** The same frequencies on an axis with one long step and a repeated point. *)
Definition long_step : pdata := mkPd [0; 1; 1; 21; 22; 23] two_table [] (fun _ _ => None).
Lemma long_meets : path_data long_step /\ climbs (pd_x long_step) /\ (2 <= length (pd_x long_step))%nat.
Proof.
  split; [split; [reflexivity|]; split; [intros; cbn; lra|intros T b z H; discriminate]|]. split; [|cbn; lia].
  intros i Hi. cbn in Hi. do 5 (destruct i as [|i]; [cbn; lra|]). lia.
Qed.
