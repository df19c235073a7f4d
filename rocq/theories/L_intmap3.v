(** More lemmas for C83: Gaussian broadening along a path. *)
From Coq Require Import String Sorted.
From Verif Require Import Base L_util M_cell M_qpts L_qpts L_path L_path2 M_path M_broad S_broad M_dos S_dos L_dos M_bins S_bins L_bins L_bins2 L_broad3 M_fixed S_fixed L_fixed L_fixed2 L_fixed4 L_fixed5 L_fixed6 M_clidos L_clidos2 S_powder L_powder L_powder2 L_struct M_intmap S_intmap L_intmap L_intmap2.
Open Scope R_scope.

Lemma mean_diff_step x : (2 <= length x)%nat -> mean_diff x = mean_step x.
Proof.
  intros L. unfold mean_diff, mean_step. rewrite Rsum_diffs, length_np_diffR. rewrite (last_nth x (length x - 1)) by lia.
  destruct x as [|a x]; [cbn in L; lia|]. reflexivity.
Qed.
Lemma radius_pos w h : 0 < w -> 0 < h -> h <= 3 * w -> (1 <= gauss_radius (w / (2 * sqrt (2 * ln 2)) / h))%nat.
Proof.
  intros Hw Hh H. pose proof ln2_pos. assert (L1 : ln 2 < 1) by (apply (Rlt_le_trans _ (ln (exp 1))); [apply ln_increasing; [lra|]; pose proof (exp_ineq1 1 R1_neq_R0); lra|rewrite ln_exp; lra]).
  assert (L2 : ln 2 < 8 / 9).
  { apply (Rlt_le_trans _ (ln (exp (8 / 9)))); [|rewrite ln_exp; lra]. apply ln_increasing; [lra|].
    replace (8 / 9) with (4 / 9 + 4 / 9) by lra. rewrite exp_plus. pose proof (exp_ineq1 (4 / 9) ltac:(lra)). nra. }
  assert (S0 : 0 < sqrt (2 * ln 2)) by (apply sqrt_lt_R0; lra).
  assert (S1 : sqrt (2 * ln 2) < 4 / 3) by (apply (Rlt_le_trans _ (sqrt (4 / 3 * (4 / 3)))); [apply sqrt_lt_1; lra|rewrite sqrt_square; lra]).
  set (s := w / (2 * sqrt (2 * ln 2)) / h). assert (Hs : 1 / 8 <= s).
  { unfold s. apply (Rmult_le_reg_r (8 * (2 * sqrt (2 * ln 2)) * h)); [apply Rmult_lt_0_compat; lra|].
    replace (w / (2 * sqrt (2 * ln 2)) / h * (8 * (2 * sqrt (2 * ln 2)) * h)) with (8 * w) by (field; split; lra).
    replace (1 / 8 * (8 * (2 * sqrt (2 * ln 2)) * h)) with (2 * sqrt (2 * ln 2) * h) by field. assert (2 * sqrt (2 * ln 2) * h <= 8 / 3 * h) by (apply Rmult_le_compat_r; lra). lra. }
  unfold gauss_radius. pose proof (base_Int_part (4 * s + 1 / 2)) as [B1 B2]. assert (0 < IZR (Int_part (4 * s + 1 / 2))) by lra. apply lt_IZR in H1. lia.
Qed.

(** What a width along the path does. *)
Lemma x_axis_kern n x wd : length x = n -> (1 <= n)%nat ->
  (wd = None \/ exists w, wd = Some w /\ 0 < w /\ 0 < mean_step x /\ (2 <= n)%nat /\ mean_step x < 10 ^ 14 * w) ->
  exists k K b, get_bin_centres n x = Ok x /\ axis_kern Gauss wd x = Ok k /\ acts k K /\ any_unequal [(wd, x)] = Ok b /\
  ((wd = None /\ untouched K) \/ exists w M, wd = Some w /\ shares K M /\ gaussian_of_fwhm w (mean_step x) K M /\ (mean_step x <= 3 * w -> (1 <= M)%nat)).
Proof.
  intros L Hn Hw. assert (Ec : get_bin_centres n x = Ok x).
  { unfold get_bin_centres. rewrite L, is_edge_false. reflexivity. }
  destruct Hw as [->|(w & -> & Hw & Hm & Hn2 & Ht)].
  - destruct (none_acts Gauss x) as (k & K & E & A & U). exists k, K, false. split; [exact Ec|]. split; [exact E|]. split; [exact A|]. split; [reflexivity|]. left. split; [reflexivity|exact U].
  - destruct (gauss_kernel_mean (mean_step x) x w Hm (mean_diff_step x ltac:(lia)) Hw (sigma_lower w _ Hw Hm Ht)) as (wt & Ek & Lw & Sy & Sh & Gs).
    exists (Weights wt), (kernel_of wt (gauss_radius (w / (2 * sqrt (2 * ln 2)) / mean_step x))).
    assert (U : exists b, unequal x = Ok b).
    { unfold unequal. destruct (np_diffR x) as [|w0 ws] eqn:En; [|eexists; reflexivity]. pose proof (length_np_diffR x) as Q. rewrite En in Q. cbn in Q. lia. }
    destruct U as (b & U). exists (b || false)%bool. split; [exact Ec|]. split; [exact Ek|]. split; [intros c i Hi; apply correlate_spread; assumption|].
    split; [cbn [any_unequal]; rewrite U; reflexivity|]. right. exists w, (gauss_radius (w / (2 * sqrt (2 * ln 2)) / mean_step x)).
    split; [reflexivity|]. split; [exact Sh|]. split; [exact Gs|]. intros H. apply radius_pos; assumption.
Qed.

Lemma broad_gauss coeffs a x bins z hy : ia_shape a = "gauss"%string -> length x = length z -> (1 <= length z)%nat -> (2 <= ia_ebins a)%nat ->
  rect (ia_ebins a) z -> 0 < hy -> even_axis hy (ia_ebins a) bins ->
  (ia_qb a = None \/ exists w, ia_qb a = Some w /\ 0 < w /\ 0 < mean_step x /\ (2 <= length x)%nat /\ mean_step x < 10 ^ 14 * w) ->
  (ia_eb a = None \/ exists w r, ia_eb a = Some (w, r) /\ 0 < w /\ hy < 10 ^ 14 * w) ->
  exists z' Kx Ky, i_broaden coeffs a x bins z = Ok (Some z') /\ length z' = length z /\ rect (ia_ebins a) z' /\
  ((ia_qb a = None /\ untouched Kx) \/ exists w M, ia_qb a = Some w /\ shares Kx M /\ gaussian_of_fwhm w (mean_step x) Kx M /\ (mean_step x <= 3 * w -> (1 <= M)%nat)) /\
  ((ia_eb a = None /\ untouched Ky) \/ exists w r M, ia_eb a = Some (w, r) /\ shares Ky M /\ gaussian_of_fwhm w hy Ky M) /\
  forall i j, (i < length z)%nat -> (j < ia_ebins a)%nat -> cell z' i j =
    sumn (ia_ebins a) (fun j' => sumn (length z) (fun i' => cell z i' j' * Kx (Z.of_nat i - Z.of_nat i')%Z) * Ky (Z.of_nat j - Z.of_nat j')%Z).
Proof.
  intros Es Lx Hz He Rz Hh Ev Hq Hb. set (n := ia_ebins a) in *.
  destruct (x_axis_kern (length z) x (ia_qb a) Lx Hz) as (kx & Kx & b & Ec & Ak & Ac & Au & Dx).
  { destruct Hq as [E|(w & E & ? & ? & ? & ?)]; [left; exact E|right; exists w; repeat (split; try assumption); lia]. }
  set (wy := match ia_eb a with Some (w, _) => Fixed w | None => NoWidth end).
  destruct (gauss_axis hy n bins wy Hh Ev He) as (ay & cy & ky & Ky & Ey & Ry & Eky & Aky & Dy).
  { unfold wy. destruct Hb as [-> |(w & r & -> & W1 & W2)]; [left; reflexivity|right; exists w; split; [reflexivity|split; assumption]]. }
  assert (DY : (ia_eb a = None /\ untouched Ky) \/ exists w r M, ia_eb a = Some (w, r) /\ shares Ky M /\ gaussian_of_fwhm w hy Ky M).
  { unfold wy in Dy. destruct (ia_eb a) as [[w r]|]; destruct Dy as [[D U]|(w' & M & D & Sh & G)]; try discriminate; [right|left; split; [reflexivity|exact U]].
    injection D as <-. exists w, r, M. split; [reflexivity|]. split; assumption. }
  assert (Id : ia_qb a = None -> ia_eb a = None -> forall i j, (i < length z)%nat -> (j < n)%nat ->
     cell z i j = sumn n (fun j' => sumn (length z) (fun i' => cell z i' j' * Kx (Z.of_nat i - Z.of_nat i')%Z) * Ky (Z.of_nat j - Z.of_nat j')%Z)).
  { intros E1 E2 i j Hi Hj. destruct Dx as [[_ Ux]|(w & M & D & _)]; [|congruence]. destruct DY as [[_ Uy]|(w & r & M & D & _)]; [|congruence].
    rewrite (sumn_single _ _ j Hj).
    - rewrite (sumn_single _ _ i Hi); [rewrite Ux, Uy, !Z.sub_diag; cbn; ring|]. intros q _ N. rewrite Ux. destruct (Z.eqb_spec (Z.of_nat i - Z.of_nat q) 0); [lia|ring].
    - intros q _ N. rewrite Uy. destruct (Z.eqb_spec (Z.of_nat j - Z.of_nat q) 0); [lia|ring]. }
  destruct (ia_qb a) as [wq|] eqn:Eq; [|destruct (ia_eb a) as [[we re]|] eqn:Ee].
  3:{ exists z, Kx, Ky. unfold i_broaden. rewrite Eq, Ee. split; [reflexivity|]. split; [reflexivity|]. split; [exact Rz|]. split; [exact Dx|]. split; [exact DY|]. apply Id; reflexivity. }
  - assert (Pq : wq <> 0) by (destruct Hq as [E|(w & E & ? & _)]; [discriminate|injection E as <-; lra]).
    destruct (fixed_stage_checked [mk2 x bins (Some z)] 0 z n b x cy (Some wq) (fixed_part wy) "gauss" Gauss (Some "convolve"%string) kx ky Kx Ky Rz Hz Ec Ey) as (z' & Ef & L & Rc & N); try assumption.
    { apply Bool.orb_true_iff. left. cbn. destruct (Reqb_spec wq 0); [contradiction|reflexivity]. }
    { unfold checked. cbn [shape_of String.eqb method_ok]. cbn [any_unequal] in Au |- *. destruct (unequal x) as [bx|]; [|discriminate]. injection Au as <-.
      rewrite (regular_equal _ _ _ _ Ry He). destruct (fixed_part wy); cbn [orb]; destruct bx; reflexivity. }
    exists z', Kx, Ky. split; [|split; [exact L|split; [exact Rc|split; [exact Dx|split; [exact DY|exact N]]]]].
    unfold i_broaden. rewrite Eq. unfold broaden2d. cbn [get nth sz]. fold wy. rewrite Es. cbn [fixed_part]. cbn [get nth] in Ef. rewrite Ef. unfold varying_stage.
    unfold wy. destruct (ia_eb a) as [[we re]|]; reflexivity.
  - assert (Pe : we <> 0) by (destruct Hb as [E|(w & r & E & ? & _)]; [discriminate|injection E as <- <-; lra]).
    destruct (fixed_stage_checked [mk2 x bins (Some z)] 0 z n false x cy None (fixed_part wy) "gauss" Gauss (Some "convolve"%string) kx ky Kx Ky Rz Hz Ec Ey) as (z' & Ef & L & Rc & N); try assumption.
    { unfold wy. cbn. destruct (Reqb_spec we 0); [contradiction|reflexivity]. }
    { unfold checked, wy. cbn [shape_of String.eqb method_ok fixed_part any_unequal]. rewrite (regular_equal _ _ _ _ Ry He). reflexivity. }
    exists z', Kx, Ky. split; [|split; [exact L|split; [exact Rc|split; [exact Dx|split; [exact DY|exact N]]]]].
    unfold i_broaden. rewrite Eq, Ee. unfold broaden2d. cbn [get nth sz]. rewrite Es. cbn [fixed_part]. unfold wy in Ef. cbn [get nth fixed_part] in Ef. rewrite Ef. reflexivity.
Qed.
