(** The density of states is linear in the mode weights, whatever the method. *)
From Verif Require Import Base L_util Cpx Vec3 M_qpts L_path M_path L_conv M_broad S_broad L_broad L_broad2 L_broad3 M_dos S_dos L_dos.
Open Scope R_scope.

Lemma length_centres e : length (edges_to_centres e) = (length e - 1)%nat.
Proof.
  unfold edges_to_centres. rewrite map_length, combine_length, length_np_diffR, length_removelast. lia.
Qed.
Lemma nth_centres e i : (S i < length e)%nat -> nth i (edges_to_centres e) 0 = (nth i e 0 + nth (S i) e 0) / 2.
Proof.
  intros Hi. unfold edges_to_centres.
  rewrite (map_nth_indep _ _ _ (0, 0) 0) by (rewrite combine_length, length_np_diffR, length_removelast; lia).
  rewrite nth_combine by (rewrite ?length_np_diffR, ?length_removelast; lia). cbn [fst snd].
  rewrite nth_removelast by lia. rewrite nth_np_diffR by lia. lra.
Qed.

Lemma fold_add_peaks {A} (l : list A) (g : A -> R -> R) (centres acc : list R) : length acc = length centres ->
  let r := fold_left (fun dos a => map (fun dc => fst dc + g a (snd dc)) (combine dos centres)) l acc in
  length r = length centres /\ forall i, (i < length centres)%nat -> nth i r 0 = nth i acc 0 + Sum l (fun a => g a (nth i centres 0)).
Proof.
  cbv zeta. revert acc. induction l as [|a l IH]; intros acc Hl; cbn [fold_left].
  - split; [exact Hl|]. intros. rewrite Sum_nil. lra.
  - destruct (IH (map (fun dc => fst dc + g a (snd dc)) (combine acc centres))) as [A1 A2].
    { rewrite map_length, combine_length. lia. }
    split; [exact A1|]. intros i Hi. rewrite (A2 i Hi), Sum_cons.
    rewrite (map_nth_indep _ _ _ (0, 0) 0) by (rewrite combine_length; lia).
    rewrite nth_combine by lia. cbn [fst snd]. lra.
Qed.

(** The shape drawn by mode (q, m), per unit of weight. *)
Definition hist_shape (bins : list R) (t : ftable) (i q m : nat) : R :=
  if inside (nth i bins 0) (nth (S i) bins 0) (freq t q m) then / (nth (S i) bins 0 - nth i bins 0) else 0.
Definition ref_shape (bins : list R) (t : ftable) (w : nat -> nat -> R) (i q m : nat) : R :=
  norm_pdf (w q m) ((nth i bins 0 + nth (S i) bins 0) / 2 - freq t q m).

Lemma hist_linear t mw bins : increasing bins -> (2 <= length bins)%nat ->
  exists d, dos_hist t mw bins = Ok d /\ length d = (length bins - 1)%nat /\
  forall i, (i < length bins - 1)%nat -> nth i d 0
    = Sum (pairs t) (fun qm => wt t (fst qm) * mw (fst qm) (snd qm) * hist_shape bins t i (fst qm) (snd qm)).
Proof.
  intros Hinc Hlen. destruct (dos_hist_spec t mw bins Hinc Hlen) as [d [D1 [D2 D3]]].
  exists d. split; [exact D1|]. split; [exact D2|]. intros i Hi. rewrite (D3 i Hi). apply Sum_ext. intros [q m] _. cbn [fst snd].
  unfold hist_shape. destruct (inside _ _ _); unfold Rdiv; ring.
Qed.

Lemma ref_linear t mw w bins : (2 <= length bins)%nat ->
  length (dos_reference t mw w bins) = (length bins - 1)%nat /\
  forall i, (i < length bins - 1)%nat -> nth i (dos_reference t mw w bins) 0
    = Sum (pairs t) (fun qm => wt t (fst qm) * mw (fst qm) (snd qm) * ref_shape bins t w i (fst qm) (snd qm)).
Proof.
  intros Hlen.
  pose (g := fun (qm : nat * nat) x => norm_pdf (w (fst qm) (snd qm)) (x - freq t (fst qm) (snd qm)) * wt t (fst qm) * mw (fst qm) (snd qm)).
  assert (E : dos_reference t mw w bins
    = fold_left (fun dos a => map (fun dc => fst dc + g a (snd dc)) (combine dos (edges_to_centres bins))) (pairs t)
        (repeat 0 (length (edges_to_centres bins)))).
  { unfold dos_reference. cbv zeta. generalize (repeat 0 (length (edges_to_centres bins))).
    induction (pairs t) as [|[q m] l IH]; intros acc; [reflexivity|]. cbn [fold_left]. apply IH. }
  rewrite E. destruct (fold_add_peaks (pairs t) g (edges_to_centres bins) (repeat 0 (length (edges_to_centres bins))) (repeat_length _ _)) as [A1 A2].
  cbv zeta in *. split; [rewrite A1; apply length_centres|]. intros i Hi.
  rewrite A2 by (rewrite length_centres; lia). rewrite nth_repeat, Rplus_0_l. apply Sum_ext. intros [q m] _.
  unfold g, ref_shape. cbn [fst snd]. rewrite nth_centres by lia. ring.
Qed.

Lemma inc_gap bins : increasing bins -> (2 <= length bins)%nat -> 0 < nth 1 bins 0 - nth 0 bins 0.
Proof. intros H Hl. specialize (H 0%nat 1%nat ltac:(lia) ltac:(lia)). lra. Qed.

Lemma fast_linear coeffs error fit sp t w bins : get_spacing error Gauss fit = Ok sp -> 1 < sp ->
  (0 < nq t)%nat -> (0 < nm t)%nat -> (forall q m, 0 < w q m) -> increasing bins -> (2 <= length bins)%nat ->
  exists G : nat -> nat -> nat -> R, forall mw,
  exists d, dos_fast coeffs error fit t mw w bins = Ok d /\ length d = (length bins - 1)%nat /\
  forall i, (i < length bins - 1)%nat -> nth i d 0
    = Sum (pairs t) (fun qm => wt t (fst qm) * mw (fst qm) (snd qm) * G i (fst qm) (snd qm)).
Proof.
  intros Hsp H1 Hq Hm Hw Hinc Hlen.
  pose (ws := map (fun qm => w (fst qm) (snd qm)) (pairs t)).
  pose (wmin := min_list ws). pose (n := n_kernels sp ws). pose (lc := if Nat.eqb n 0 then [1] else coeffs sp).
  pose (lv := fun q m => (searchsorted_right (width_samples sp ws) (w q m) - 1)%nat).
  pose (bw := nth 1 bins 0 - nth 0 bins 0).
  exists (fun i q m => polyval lc (w q m / (sp ^ lv q m * wmin)) * peak Gauss bins bw (sp ^ lv q m * wmin) (freq t q m) i
     + (if Nat.ltb (lv q m) n then (1 - polyval lc (w q m / (sp ^ lv q m * wmin))) * peak Gauss bins bw (sp ^ S (lv q m) * wmin) (freq t q m) i else 0)).
  intros mw. unfold dos_fast. set (pts := map _ (pairs t)).
  assert (Ews : map pwidth pts = ws) by (unfold pts, ws; rewrite map_map; apply map_ext; intros [q m]; reflexivity).
  assert (Hne : pts <> []).
  { unfold pts, pairs. intros E. apply map_eq_nil in E. assert (In (0%nat, 0%nat) (list_prod (seq 0 (nq t)) (seq 0 (nm t)))) by (apply in_prod; apply in_seq; lia).
    rewrite E in H. exact H. }
  assert (Hpos : forall p, In p pts -> 0 < pwidth p).
  { intros p Hp. unfold pts in Hp. apply in_map_iff in Hp. destruct Hp as [[q m] [<- _]]. apply Hw. }
  destruct (broadening_formula coeffs bins pts error Gauss fit sp Hsp H1 Hne Hpos (increasing_nondecreasing _ Hinc) Hlen (inc_gap _ Hinc Hlen))
    as [d [D1 [D2 D3]]].
  rewrite D1. exists d. split; [reflexivity|]. split; [exact D2|]. intros i Hi.
  etransitivity; [exact (D3 i Hi)|]. unfold lev. rewrite !Ews. fold wmin. fold n. fold lc. fold bw.
  unfold pts at 1. rewrite Sum_map. apply Sum_ext. intros [q m] _. cbn [fst snd].
  change (pwidth (freq t q m, w q m, mw q m * wt t q)) with (w q m).
  change (px (freq t q m, w q m, mw q m * wt t q)) with (freq t q m).
  change (pweight (freq t q m, w q m, mw q m * wt t q)) with (mw q m * wt t q).
  change (searchsorted_right (width_samples sp ws) (w q m) - 1)%nat with (lv q m).
  destruct (Nat.ltb _ _); ring.
Qed.

(** A method the code can run: always for histograms and the reference method; the
    fast method needs an accepted error, positive widths and at least one mode. *)
Definition runnable (t : ftable) (widths : option (nat -> nat -> R)) (wmin : R) (meth : method) : Prop :=
  match widths, meth with
  | Some w, Fast coeffs error fit =>
    (exists sp, get_spacing error Gauss fit = Ok sp /\ 1 < sp) /\ (0 < nq t)%nat /\ (0 < nm t)%nat /\ 0 < wmin
  | _, _ => True
  end.

Lemma dos_linear k bins t widths wmin meth : 0 < k -> increasing bins -> (2 <= length bins)%nat -> total_weight t <> 0 ->
  runnable t widths wmin meth ->
  exists G : nat -> nat -> nat -> R, forall mws,
  exists d, calculate_dos_data k bins t mws widths wmin meth = Ok d /\ length d = (length bins - 1)%nat /\
  forall i, (i < length bins - 1)%nat -> nth i d 0
    = Sum (pairs t) (fun qm => wt t (fst qm) * (match mws with Some w => w | None => fun _ _ => 3 / INR (nm t) end) (fst qm) (snd qm) * G i (fst qm) (snd qm)).
Proof.
  intros Hk Hinc Hlen Htot Hrun. pose proof (increasing_scale _ _ Hk Hinc) as Hinc'.
  set (bc := map (fun b => b / k) bins) in *. assert (Hl : length bc = length bins) by apply map_length.
  assert (Hlen' : (2 <= length bc)%nat) by lia.
  assert (fin : forall raw (G : nat -> nat -> nat -> R) mw,
    (exists d, raw = Ok d /\ length d = (length bc - 1)%nat /\
      forall i, (i < length bc - 1)%nat -> nth i d 0 = Sum (pairs t) (fun qm => wt t (fst qm) * mw (fst qm) (snd qm) * G i (fst qm) (snd qm))) ->
    exists d, match raw with Ok d => if Reqb (total_weight t) 0 then Err ZeroTotalWeight else Ok (map (fun x => x / total_weight t / k) d) | Err e => Err e end = Ok d
      /\ length d = (length bins - 1)%nat /\
      forall i, (i < length bins - 1)%nat -> nth i d 0 = Sum (pairs t) (fun qm => wt t (fst qm) * mw (fst qm) (snd qm) * (G i (fst qm) (snd qm) / total_weight t / k))).
  { intros raw G mw [d [D1 [D2 D3]]]. rewrite D1. destruct (Reqb_spec (total_weight t) 0) as [E|_]; [contradiction|].
    eexists. split; [reflexivity|]. rewrite map_length. split; [lia|]. intros i Hi. rewrite (map_nth_indep _ _ _ 0 0) by lia.
    rewrite (D3 i) by lia. unfold Rdiv. rewrite <- !Sum_scal_r. apply Sum_ext. intros [q m] _. cbn [fst snd]. ring. }
  destruct widths as [w|]; [destruct meth as [|coeffs error fit]|].
  - exists (fun i q m => ref_shape bc t (fun q m => Rmax (w q m) wmin) i q m / total_weight t / k). intros mws.
    refine (fin (Ok (dos_reference t _ (fun q m => Rmax (w q m) wmin) bc)) (ref_shape bc t (fun q m => Rmax (w q m) wmin)) (match mws with Some w0 => w0 | None => fun _ _ => 3 / INR (nm t) end) _).
    eexists. split; [reflexivity|]. apply ref_linear. exact Hlen'.
  - destruct Hrun as [[sp [Hsp H1]] [Hq [Hm Hw]]].
    destruct (fast_linear coeffs error fit sp t (fun q m => Rmax (w q m) wmin) bc Hsp H1 Hq Hm) as [G HG]; try assumption.
    { intros q m. eapply Rlt_le_trans; [exact Hw|apply Rmax_r]. }
    exists (fun i q m => G i q m / total_weight t / k). intros mws.
    refine (fin (dos_fast coeffs error fit t _ (fun q m => Rmax (w q m) wmin) bc) G (match mws with Some w0 => w0 | None => fun _ _ => 3 / INR (nm t) end) _). apply HG.
  - exists (fun i q m => hist_shape bc t i q m / total_weight t / k). intros mws.
    refine (fin (dos_hist t _ bc) (hist_shape bc t) (match mws with Some w0 => w0 | None => fun _ _ => 3 / INR (nm t) end) _). apply hist_linear; assumption.
Qed.

(** Sums over atoms. *)
Lemma mapE_list {A B E} (f : A -> res B E) g l : (forall a, In a l -> f a = Ok (g a)) -> mapE f l = Ok (map g l).
Proof.
  induction l as [|a l IH]; intros H; [reflexivity|]. cbn [mapE map]. rewrite (H a (or_introl eq_refl)), IH; [reflexivity|].
  intros b Hb. apply H. right. exact Hb.
Qed.

Lemma evec_weight_norm e a q m : evec_weight e a q m = Sum (seq 0 3) (fun x => Cnorm2 (evec e q m a x)) / INR (n_atoms e).
Proof.
  unfold evec_weight. f_equal. cbn [seq]. rewrite !Sum_cons, Sum_nil. unfold Cnorm2. cbn. ring.
Qed.

Definition default_d : list R := [].
Lemma pdos_sum k bins e widths wmin meth : 0 < k -> increasing bins -> (2 <= length bins)%nat -> total_weight (et e) <> 0 ->
  runnable (et e) widths wmin meth -> normalised e -> (0 < n_atoms e)%nat -> nm (et e) = (3 * n_atoms e)%nat ->
  exists p d, calculate_pdos k bins e widths wmin meth None = Ok p /\ calculate_dos k bins (et e) widths wmin meth = Ok d /\
    length p = n_atoms e /\
    forall i, (i < length bins - 1)%nat -> Sum (seq 0 (n_atoms e)) (fun a => nth i (nth a p []) 0) = nth i d 0.
Proof.
  intros Hk Hinc Hlen Htot Hrun Hnorm Hna Hnm.
  destruct (dos_linear k bins (et e) widths wmin meth Hk Hinc Hlen Htot Hrun) as [G HG].
  destruct (HG None) as [d [D1 [D2 D3]]].
  pose (row := fun a => match calculate_dos_data k bins (et e) (Some (evec_weight e a)) widths wmin meth with Ok x => x | Err _ => [] end).
  assert (Hrow : forall a, calculate_dos_data k bins (et e) (Some (evec_weight e a)) widths wmin meth = Ok (row a) /\ length (row a) = (length bins - 1)%nat /\
     forall i, (i < length bins - 1)%nat -> nth i (row a) 0 = Sum (pairs (et e)) (fun qm => wt (et e) (fst qm) * evec_weight e a (fst qm) (snd qm) * G i (fst qm) (snd qm))).
  { intros a. destruct (HG (Some (evec_weight e a))) as [x [X1 [X2 X3]]]. unfold row. rewrite X1. auto. }
  exists (map (fun a => map (fun x => x * 1) (row a)) (seq 0 (n_atoms e))), d. split; [|split; [exact D1|split; [rewrite map_length, seq_length; reflexivity|]]].
  - unfold calculate_pdos. apply (mapE_list _ (fun a => map (fun x => x * 1) (row a))). intros a _. rewrite (proj1 (Hrow a)). reflexivity.
  - intros i Hi. rewrite (D3 i Hi).
    rewrite (Sum_ext _ _ (fun a => Sum (pairs (et e)) (fun qm => wt (et e) (fst qm) * evec_weight e a (fst qm) (snd qm) * G i (fst qm) (snd qm)))).
    2:{ intros a Ha. apply in_seq in Ha. rewrite (map_nth_indep _ _ _ 0%nat []) by (rewrite seq_length; lia). rewrite nth_seq_id by lia.
        destruct (Hrow a) as [_ [L X]]. rewrite (map_nth_indep _ _ _ 0 0) by lia. rewrite (X i Hi). lra. }
    rewrite Sum_exchange. apply Sum_ext. intros [q m] Hqm. cbn [fst snd].
    unfold pairs in Hqm. apply in_prod_iff in Hqm. destruct Hqm as [Hq Hm]. apply in_seq in Hq. apply in_seq in Hm.
    transitivity (wt (et e) q * G i q m * Sum (seq 0 (n_atoms e)) (fun a => evec_weight e a q m)).
    { rewrite <- Sum_scal. apply Sum_ext. intros; ring. }
    rewrite (Sum_ext _ _ (fun a => Sum (seq 0 3) (fun x => Cnorm2 (evec e q m a x)) * / INR (n_atoms e))) by (intros; apply evec_weight_norm).
    rewrite Sum_scal_r, (Hnorm q m) by lia. rewrite Hnm, mult_INR.
    assert (INR (n_atoms e) <> 0) by (apply not_0_INR; lia). simpl (INR 3). field. exact H.
Qed.

(** Row by row. *)
Lemma pairs_row t q0 : pairs (row_table t q0) = map (fun m => (0%nat, m)) (seq 0 (nm t)).
Proof. unfold pairs. cbn. rewrite app_nil_r. reflexivity. Qed.
Lemma pairs_sum t f : Sum (pairs t) f = Sum (seq 0 (nq t)) (fun q => Sum (seq 0 (nm t)) (fun m => f (q, m))).
Proof. apply Sum_list_prod. Qed.

Lemma dos_map_mean k bins t widths wmin : 0 < k -> increasing bins -> (2 <= length bins)%nat -> total_weight t <> 0 ->
  (forall q, (q < nq t)%nat -> wt t q <> 0) ->
  exists p d, calculate_dos_map k bins t widths wmin = Ok p /\ calculate_dos k bins t widths wmin Reference = Ok d /\
    length p = nq t /\
    forall i, (i < length bins - 1)%nat -> wmean t (fun q => nth i (nth q p []) 0) = nth i d 0.
Proof.
  intros Hk Hinc Hlen Htot Hw. pose proof (increasing_scale _ _ Hk Hinc) as Hinc'.
  set (bc := map (fun b => b / k) bins) in *. assert (Hl : length bc = length bins) by apply map_length.
  assert (Hlen' : (2 <= length bc)%nat) by lia.
  pose (G := fun i q m => match widths with Some w => ref_shape bc t (fun q m => Rmax (w q m) wmin) i q m | None => hist_shape bc t i q m end).
  assert (full : exists d, calculate_dos k bins t widths wmin Reference = Ok d /\ length d = (length bins - 1)%nat /\
     forall i, (i < length bins - 1)%nat -> nth i d 0 = wmean t (fun q => Sum (seq 0 (nm t)) (fun m => 3 / INR (nm t) * G i q m)) / k).
  { unfold calculate_dos, calculate_dos_data. fold bc. fold (total_weight t).
    set (mw := fun (_ _ : nat) => 3 / INR (nm t)).
    assert (raw : exists d, match widths with Some w => Ok (dos_reference t mw (fun q m => Rmax (w q m) wmin) bc) | None => dos_hist t mw bc end = Ok d /\
       length d = (length bins - 1)%nat /\ forall i, (i < length bins - 1)%nat -> nth i d 0 = Sum (pairs t) (fun qm => wt t (fst qm) * mw (fst qm) (snd qm) * G i (fst qm) (snd qm))).
    { rewrite <- Hl. unfold G. destruct widths as [w|]; [eexists; split; [reflexivity|]; apply ref_linear; exact Hlen'|apply hist_linear; assumption]. }
    destruct raw as [d [D1 [D2 D3]]].
    assert (D1' : match widths with Some w => match Reference with Reference => Ok (dos_reference t mw (fun q m => Rmax (w q m) wmin) bc) | Fast coeffs error fit => dos_fast coeffs error fit t mw (fun q m => Rmax (w q m) wmin) bc end | None => dos_hist t mw bc end = Ok d) by exact D1.
    cbv zeta. rewrite D1'. destruct (Reqb_spec (total_weight t) 0) as [E|_]; [contradiction|].
    eexists. split; [reflexivity|]. rewrite map_length. split; [exact D2|]. intros i Hi. rewrite (map_nth_indep _ _ _ 0 0) by lia.
    rewrite (D3 i Hi). unfold wmean. f_equal. f_equal. rewrite pairs_sum. apply Sum_ext. intros q _. cbn [fst snd].
    rewrite <- Sum_scal. apply Sum_ext. intros m _. unfold mw. ring. }
  assert (rows : forall q0, (q0 < nq t)%nat -> exists d, calculate_dos_data k bins (row_table t q0) None
      (match widths with Some w => Some (fun _ m => w q0 m) | None => None end) wmin Reference = Ok d /\ length d = (length bins - 1)%nat /\
     forall i, (i < length bins - 1)%nat -> nth i d 0 = Sum (seq 0 (nm t)) (fun m => 3 / INR (nm t) * G i q0 m) / k).
  { intros q0 Hq0. unfold calculate_dos_data. fold bc. set (mw := fun (_ _ : nat) => 3 / INR (nm t)).
    assert (raw : exists d, match widths with Some w => Ok (dos_reference (row_table t q0) mw (fun _ m => Rmax (w q0 m) wmin) bc) | None => dos_hist (row_table t q0) mw bc end = Ok d /\
       length d = (length bins - 1)%nat /\ forall i, (i < length bins - 1)%nat -> nth i d 0 = wt t q0 * Sum (seq 0 (nm t)) (fun m => 3 / INR (nm t) * G i q0 m)).
    { rewrite <- Hl. unfold G. destruct widths as [w|].
      - eexists. split; [reflexivity|]. destruct (ref_linear (row_table t q0) mw (fun _ m => Rmax (w q0 m) wmin) bc Hlen') as [A1 A2].
        split; [exact A1|]. intros i Hi. rewrite (A2 i Hi), pairs_row, Sum_map, <- Sum_scal. apply Sum_ext. intros m _.
        cbn [fst snd row_table wt]. unfold mw, ref_shape. cbn [row_table freq]. ring.
      - destruct (hist_linear (row_table t q0) mw bc Hinc' Hlen') as [d [A0 [A1 A2]]]. exists d. split; [exact A0|].
        split; [exact A1|]. intros i Hi. rewrite (A2 i Hi), pairs_row, Sum_map, <- Sum_scal. apply Sum_ext. intros m _.
        cbn [fst snd row_table wt]. unfold mw, hist_shape. cbn [row_table freq]. ring. }
    destruct raw as [d [D1 [D2 D3]]]. cbv zeta.
    assert (Ht : Sum (seq 0 (nq (row_table t q0))) (wt (row_table t q0)) = wt t q0) by (cbn [row_table nq wt seq]; rewrite Sum_cons, Sum_nil; lra).
    rewrite Ht.
    replace (match match widths with Some w => Some (fun _ m => w q0 m) | None => None end with
      | Some w => Ok (dos_reference (row_table t q0) (fun _ _ : nat => 3 / INR (nm (row_table t q0))) (fun q m => Rmax (w q m) wmin) bc)
      | None => dos_hist (row_table t q0) (fun _ _ : nat => 3 / INR (nm (row_table t q0))) bc end) with (Ok d : res (list R) derr)
      by (rewrite <- D1; destruct widths; reflexivity).
    destruct (Reqb_spec (wt t q0) 0) as [E|_]; [exfalso; exact (Hw q0 Hq0 E)|].
    eexists. split; [reflexivity|]. rewrite map_length. split; [exact D2|]. intros i Hi. rewrite (map_nth_indep _ _ _ 0 0) by lia.
    rewrite (D3 i Hi). field. split; [lra|apply Hw; exact Hq0]. }
  destruct full as [d [D1 [D2 D3]]].
  pose (row := fun q0 => match calculate_dos_data k bins (row_table t q0) None
      (match widths with Some w => Some (fun _ m => w q0 m) | None => None end) wmin Reference with Ok x => x | Err _ => [] end).
  exists (map row (seq 0 (nq t))), d. split; [|split; [exact D1|split; [rewrite map_length, seq_length; reflexivity|]]].
  - unfold calculate_dos_map. apply mapE_list. intros q Hq. apply in_seq in Hq. destruct (rows q ltac:(lia)) as [x [X1 _]]. unfold row. rewrite X1. reflexivity.
  - intros i Hi. rewrite (D3 i Hi). unfold Rdiv. rewrite Rmult_comm, <- wmean_scal. apply wmean_ext. intros q Hq.
    rewrite (map_nth_indep _ _ _ 0%nat []) by (rewrite seq_length; lia). rewrite nth_seq_id by lia.
    destruct (rows q Hq) as [x [X1 [X2 X3]]]. unfold row. rewrite X1. rewrite (X3 i Hi). unfold Rdiv. ring.
Qed.

(** Sum over groups = sum over members. *)
Lemma Sum_groups {A} (label : A -> nat) (l : list A) (labels : list nat) (f : A -> R) : NoDup labels ->
  (forall a, In a l -> In (label a) labels) ->
  Sum labels (fun s => Sum (filter (fun a => Nat.eqb (label a) s) l) f) = Sum l f.
Proof.
  intros ND Hin. induction l as [|a l IH].
  - cbn [filter]. rewrite Sum_nil. apply Sum_zero_ext. intros; exact (Sum_nil f).
  - rewrite Sum_cons, <- IH by (intros b Hb; apply Hin; right; exact Hb).
    rewrite (Sum_ext _ _ (fun s => (if Nat.eqb (label a) s then f a else 0) + Sum (filter (fun a => Nat.eqb (label a) s) l) f)).
    2:{ intros s _. cbn [filter]. destruct (Nat.eqb (label a) s); [rewrite Sum_cons|]; lra. }
    rewrite Sum_plus. f_equal. rewrite <- Sum_filter.
    assert (Hl : In (label a) labels) by (apply Hin; left; reflexivity). clear - ND Hl.
    induction labels as [|s ls IH]; [destruct Hl|]. inversion ND as [|? ? N1 N2]. subst. cbn [filter].
    destruct (Nat.eqb_spec (label a) s) as [E|E].
    + rewrite Sum_cons. replace (filter (Nat.eqb (label a)) ls) with (@nil nat); [rewrite Sum_nil; lra|].
      symmetry. destruct (filter (Nat.eqb (label a)) ls) as [|x r] eqn:F; [reflexivity|]. exfalso.
      assert (Hx : In x (filter (Nat.eqb (label a)) ls)) by (rewrite F; left; reflexivity). apply filter_In in Hx. destruct Hx as [Hx Ex].
      apply Nat.eqb_eq in Ex. apply N1. rewrite <- E, Ex. exact Hx.
    + apply IH; [exact N2|]. destruct Hl as [Hl|Hl]; [congruence|exact Hl].
Qed.

(** Neutron weighting: coherent plus incoherent adds up. *)
Lemma mapE_inv {A B E} (f : A -> res B E) l r : mapE f l = Ok r -> length r = length l /\ forall i da db, (i < length l)%nat -> f (nth i l da) = Ok (nth i r db).
Proof.
  revert r. induction l as [|a l IH]; intros r H; cbn [mapE] in H.
  - injection H as <-. split; [reflexivity|]. intros i da db Hi. cbn in Hi. lia.
  - destruct (f a) as [b|er] eqn:E1; [|discriminate]. destruct (mapE f l) as [bs|er] eqn:E2; [|discriminate]. injection H as <-.
    destruct (IH bs eq_refl) as [I1 I2]. split; [cbn; lia|]. intros [|i] da db Hi; [exact E1|]. cbn [nth]. apply I2. cbn in Hi. lia.
Qed.
Lemma both_weightings k bins e el mass widths wmin meth c i pc pi :
  calculate_pdos_weighted k bins e el mass widths wmin meth (Some Coherent) (Dataset c i) = Ok pc ->
  calculate_pdos_weighted k bins e el mass widths wmin meth (Some Incoherent) (Dataset c i) = Ok pi ->
  exists pb, calculate_pdos_weighted k bins e el mass widths wmin meth (Some Both) (Dataset c i) = Ok pb /\
    forall a j, (a < n_atoms e)%nat -> nth j (nth a pb []) 0 = nth j (nth a pc []) 0 + nth j (nth a pi []) 0.
Proof.
  unfold calculate_pdos_weighted. cbn [choose_cross_sections]. intros Hc Hi.
  destruct (resolve_cs (n_atoms e) el c) as [sc|] eqn:Ec; [|discriminate].
  destruct (resolve_cs (n_atoms e) el i) as [si|] eqn:Ei; [|discriminate].
  unfold resolve_cs in *.
  destruct (forallb _ (seq 0 (n_atoms e))) eqn:Fc in Ec; [|discriminate].
  destruct (forallb _ (seq 0 (n_atoms e))) eqn:Fi in Ei; [|discriminate].
  rewrite forallb_forall in Fc, Fi.
  replace (forallb _ (seq 0 (n_atoms e))) with true.
  2:{ symmetry. apply forallb_forall. intros a Ha. specialize (Fc a Ha). specialize (Fi a Ha). cbv beta in Fc, Fi.
      destruct (c (el a)); [|discriminate]. destruct (i (el a)); [reflexivity|discriminate]. }
  injection Ec as <-. injection Ei as <-. unfold calculate_pdos in *.
  pose (row := fun a => match calculate_dos_data k bins (et e) (Some (evec_weight e a)) widths wmin meth with Ok x => x | Err _ => [] end).
  destruct (mapE_inv _ _ _ Hc) as [Lc Nc]. destruct (mapE_inv _ _ _ Hi) as [Li Ni]. rewrite seq_length in *.
  assert (Hrow : forall a, (a < n_atoms e)%nat -> calculate_dos_data k bins (et e) (Some (evec_weight e a)) widths wmin meth = Ok (row a)).
  { intros a Ha. specialize (Nc a 0%nat [] Ha). rewrite nth_seq_id in Nc by exact Ha. unfold row. destruct (calculate_dos_data _ _ _ _ _ _ _); [reflexivity|discriminate]. }
  eexists. split.
  - apply (mapE_list _ (fun a => map (fun x => x * pdos_scale e (Some (fun a => match match c (el a), i (el a) with Some x, Some y => Some (x + y) | _, _ => None end with Some x => x | None => 0 end, mass)) a) (row a))).
    intros a Ha. apply in_seq in Ha. rewrite Hrow by lia. reflexivity.
  - intros a j Ha. rewrite (map_nth_indep _ _ _ 0%nat []) by (rewrite seq_length; exact Ha). rewrite nth_seq_id by exact Ha.
    specialize (Nc a 0%nat [] Ha). specialize (Ni a 0%nat [] Ha). rewrite nth_seq_id in Nc, Ni by exact Ha. rewrite Hrow in Nc, Ni by exact Ha.
    injection Nc as <-. injection Ni as <-.
    specialize (Fc a ltac:(apply in_seq; lia)). specialize (Fi a ltac:(apply in_seq; lia)). cbv beta in Fc, Fi.
    destruct (Nat.lt_ge_cases j (length (row a))) as [L|L].
    + rewrite !(map_nth_indep _ _ _ 0 0) by exact L. unfold pdos_scale.
      destruct (c (el a)); [|discriminate]. destruct (i (el a)); [|discriminate]. unfold Rdiv. ring.
    + rewrite !nth_overflow by (rewrite map_length; exact L). lra.
Qed.
