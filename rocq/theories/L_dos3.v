(** Statements about densities of states in the form used by P_dos, and examples. *)
From Verif Require Import Base L_util Cpx M_qpts L_path M_path M_broad S_broad L_broad L_broad2 L_broad3 M_dos S_dos L_dos L_dos2.
Open Scope R_scope.

Lemma dos_counts_modes k bins t wmin meth :
  0 < k -> increasing bins -> (2 <= length bins)%nat ->
  (forall q, (q < nq t)%nat -> 0 <= wt t q) -> 0 < total_weight t ->
  exists d, calculate_dos k bins t None wmin meth = Ok d /\ length d = (length bins - 1)%nat /\
  (forall i, (i < length bins - 1)%nat -> 0 <= nth i d 0 /\
     nth i d 0 * (nth (S i) bins 0 - nth i bins 0)
     = 3 / INR (nm t) * wmean t (modes_in k t (nth i bins 0) (nth (S i) bins 0))) /\
  area bins d = 3 / INR (nm t) * wmean t (modes_in k t (nth 0 bins 0) (nth (length bins - 1) bins 0)).
Proof.
  intros Hk Hinc Hlen Hw Ht.
  destruct (dos_bins_count k bins t wmin meth Hk Hinc Hlen (Rgt_not_eq _ _ Ht)) as [d [D1 [D2 [D3 D4]]]].
  exists d. split; [exact D1|]. split; [exact D2|]. split; [|exact D4]. intros i Hi. split; [|exact (D3 i Hi)].
  exact (dos_nonneg k bins t wmin meth d i Hk Hinc Hlen Hw Ht D1 Hi).
Qed.

Lemma full_range_area k bins t wmin meth d :
  0 < k -> increasing bins -> (2 <= length bins)%nat -> (0 < nm t)%nat -> total_weight t <> 0 ->
  (forall q m, (q < nq t)%nat -> (m < nm t)%nat -> nth 0 bins 0 <= k * freq t q m < nth (length bins - 1) bins 0) ->
  calculate_dos k bins t None wmin meth = Ok d -> area bins d = 3.
Proof.
  intros Hk Hinc Hlen Hnm Ht Hr Hd.
  destruct (dos_bins_count k bins t wmin meth Hk Hinc Hlen Ht) as [d' [D1 [_ [_ D4]]]].
  rewrite Hd in D1. assert (d = d') as -> by (injection D1; auto). rewrite D4.
  rewrite (wmean_ext _ _ (fun _ => INR (nm t))).
  - unfold wmean. rewrite Sum_scal_r. fold (total_weight t). field. split; [exact Ht|apply not_0_INR; lia].
  - intros q Hq. rewrite modes_in_sum. rewrite (Sum_ext _ _ (fun _ => 1)).
    + rewrite Sum_const, seq_length. lra.
    + intros m Hm. apply in_seq in Hm. destruct (Hr q m Hq ltac:(lia)) as [A B]. unfold inside.
      rewrite Rleb_true by exact A. rewrite Rltb_true by exact B. reflexivity.
Qed.

Lemma last_edge_dropped : exists k bins t wmin meth d,
  0 < k /\ increasing bins /\ (forall q, (q < nq t)%nat -> 0 < wt t q) /\
  (forall q m, (q < nq t)%nat -> (m < nm t)%nat -> nth 0 bins 0 <= k * freq t q m <= nth (length bins - 1) bins 0) /\
  calculate_dos k bins t None wmin meth = Ok d /\ area bins d = 0.
Proof.
  pose (t := mkF 1 3 (fun _ _ => 2) (fun _ => 1)). pose (bins := [0; 1; 2]).
  assert (Hinc : increasing bins) by (intros i j Hij Hj; cbn in Hj; destruct i as [|[|[|]]], j as [|[|[|]]]; try lia; cbn; lra).
  assert (Ht : total_weight t <> 0) by (unfold total_weight; cbn [nq t seq wt]; rewrite Sum_cons, Sum_nil; intros N; lra).
  destruct (dos_bins_count 1 bins t 0 Reference ltac:(lra) Hinc ltac:(cbn; lia) Ht) as [d [D1 [_ [_ D4]]]].
  exists 1, bins, t, 0, Reference, d. split; [lra|]. split; [exact Hinc|]. split; [intros; cbn; lra|].
  split; [intros; cbn; lra|]. split; [exact D1|]. rewrite D4.
  rewrite (wmean_ext _ _ (fun _ => 0 * 0)).
  - rewrite wmean_scal. ring.
  - intros q _. rewrite modes_in_sum. rewrite (Sum_ext _ _ (fun _ => 0)); [rewrite Sum_zero; lra|].
    intros m _. unfold inside. cbn [bins length nth t freq Nat.sub]. rewrite (Rltb_false (1 * 2) 2) by lra. rewrite andb_false_r. reflexivity.
Qed.

Lemma zero_weight_map : exists k bins t wmin d,
  0 < k /\ increasing bins /\ (forall q, (q < nq t)%nat -> 0 <= wt t q) /\ 0 < total_weight t /\
  calculate_dos k bins t None wmin Reference = Ok d /\ calculate_dos_map k bins t None wmin = Err ZeroTotalWeight.
Proof.
  pose (t := mkF 2 3 (fun _ _ => 2) (fun q => INR q)). pose (bins := [0; 3]).
  assert (Hinc : increasing bins) by (intros i j Hij Hj; cbn in Hj; destruct i as [|[|]], j as [|[|]]; try lia; cbn; lra).
  assert (Ht : total_weight t = 1) by (unfold total_weight; cbn [nq t seq wt]; rewrite !Sum_cons, Sum_nil; simpl; lra).
  destruct (dos_bins_count 1 bins t 0 Reference ltac:(lra) Hinc ltac:(cbn; lia) ltac:(intros N; lra)) as [d [D1 _]].
  exists 1, bins, t, 0, d. split; [lra|]. split; [exact Hinc|]. split; [intros; apply pos_INR|]. split; [lra|].
  split; [exact D1|]. unfold calculate_dos_map. cbn [t nq seq mapE].
  replace (calculate_dos_data 1 bins (row_table _ 0) None None 0 Reference) with (Err ZeroTotalWeight : res (list R) derr); [reflexivity|].
  symmetry. unfold calculate_dos_data.
  match goal with |- context [dos_hist ?a ?b ?c] => destruct (dos_hist_spec a b c) as [x [X _]] end.
  - apply increasing_scale; [lra|exact Hinc].
  - cbn; lia.
  - rewrite X. cbv zeta. cbn [row_table nq wt seq]. rewrite Sum_cons, Sum_nil. destruct (Reqb_spec (wt t 0 + 0) 0) as [_|N]; [reflexivity|].
    exfalso. apply N. cbn. lra.
Qed.

Lemma pdos_sums k bins e widths wmin meth :
  0 < k -> increasing bins -> (2 <= length bins)%nat -> total_weight (et e) <> 0 ->
  runnable (et e) widths wmin meth -> normalised e -> (0 < n_atoms e)%nat -> nm (et e) = (3 * n_atoms e)%nat ->
  exists p d, calculate_pdos k bins e widths wmin meth None = Ok p /\
    calculate_dos k bins (et e) widths wmin meth = Ok d /\ length p = n_atoms e /\
    (forall i, (i < length bins - 1)%nat -> Sum (seq 0 (n_atoms e)) (fun a => nth i (nth a p []) 0) = nth i d 0) /\
    (forall i (species : nat -> nat) labels, (i < length bins - 1)%nat -> NoDup labels ->
       (forall a, (a < n_atoms e)%nat -> In (species a) labels) ->
       Sum labels (fun s => Sum (filter (fun a => Nat.eqb (species a) s) (seq 0 (n_atoms e))) (fun a => nth i (nth a p []) 0))
       = nth i d 0).
Proof.
  intros H1 H2 H3 H4 H5 H6 H7 H8. destruct (pdos_sum k bins e widths wmin meth H1 H2 H3 H4 H5 H6 H7 H8) as [p [d [P1 [P2 [P3 P4]]]]].
  exists p, d. split; [exact P1|]. split; [exact P2|]. split; [exact P3|]. split; [exact P4|]. intros i species labels Hi ND Hin.
  rewrite Sum_groups; [apply P4; exact Hi|exact ND|]. intros a Ha. apply in_seq in Ha. apply Hin. lia.
Qed.

Lemma C20_example : let t := mkF 2 3 (fun q m => INR (q + m)) (fun q => INR (S q)) in
  0 < 2 /\ increasing [0; 1; 5] /\ (forall q, (q < nq t)%nat -> 0 <= wt t q) /\ 0 < total_weight t /\ modes_in 2 t 0 5 1 = 2.
Proof.
  cbv zeta. split; [lra|]. split.
  { intros i j Hij Hj; cbn in Hj; destruct i as [|[|[|]]], j as [|[|[|]]]; try lia; cbn; lra. }
  split; [intros; apply pos_INR|]. split.
  - unfold total_weight. cbn [nq seq wt]. rewrite !Sum_cons, Sum_nil. simpl. lra.
  - rewrite modes_in_sum. cbn [nm seq freq]. rewrite !Sum_cons, Sum_nil. unfold inside. simpl (INR _).
    rewrite !(Rleb_true 0) by lra. rewrite !(Rltb_true _ 5) by lra. rewrite (Rltb_false _ 5) by lra. cbn [andb]. lra.
Qed.

Lemma C22_example : let t := mkF 2 3 (fun q m => INR (q + m)) (fun q => INR (S q)) in
  let e := mkE t 1 (fun q m a x => if Nat.eqb m x then RtoC 1 else RtoC 0) in
  normalised e /\ total_weight t <> 0 /\ runnable t (Some (fun _ _ => 1)) 1 (Fast (fun _ => [1]) (1/100) Cubic) /\
  nm (et e) = (3 * n_atoms e)%nat.
Proof.
  cbv zeta. split; [|split; [|split; [|reflexivity]]].
  - intros q m _ Hm. cbn [et nm n_atoms evec] in *. cbn [seq]. rewrite !Sum_cons, !Sum_nil.
    destruct m as [|[|[|]]]; try lia; cbn [Nat.eqb]; unfold Cnorm2; cbn; lra.
  - unfold total_weight. cbn [nq seq wt]. rewrite !Sum_cons, Sum_nil. simpl. intros N. lra.
  - cbn [runnable nq nm]. split; [|split; [lia|split; [lia|lra]]].
    destruct (get_spacing (1/100) Gauss Cubic) as [sp|er] eqn:E.
    + exists sp. split; [reflexivity|]. unfold get_spacing in E. injection E as <-. unfold polyval. cbn. lra.
    + exfalso. unfold get_spacing in E. discriminate.
Qed.
