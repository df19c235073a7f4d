(** Lemmas for C83: the intensity map tool. *)
From Coq Require Import String Sorted.
From Verif Require Import Base L_util M_cell M_qpts L_qpts L_path L_path2 M_path M_broad S_broad M_dos S_dos L_dos M_bins S_bins L_bins L_bins2 M_fixed S_fixed M_clidos L_clidos2 S_powder L_powder L_struct M_intmap S_intmap.
Open Scope R_scope.

(** ** Cutting *)
Lemma clip_nat n i : (i <= n)%nat -> clip n (Z.of_nat i) = i.
Proof. intros H. unfold clip. destruct (Z.ltb_spec (Z.of_nat i) 0); [lia|]. lia. Qed.
Lemma nth_error_slice {A} (l : list A) lo n i : (i < n)%nat -> nth_error (firstn n (skipn lo l)) i = nth_error l (lo + i).
Proof.
  revert l i n. induction lo as [|lo IH]; intros l i n Hi.
  - cbn [skipn Nat.add]. revert l n Hi. induction i as [|i IHi]; intros l n Hi; destruct n as [|n]; try lia; destruct l as [|x l]; cbn; try reflexivity.
    apply IHi. lia.
  - destruct l as [|x l]; [rewrite skipn_nil, firstn_nil; destruct i; reflexivity|]. cbn [skipn Nat.add nth_error]. apply IH. exact Hi.
Qed.
Lemma cut_one {A} (s : xspec A) lo hi (b : option Z) : length (xs s) = length (ys s) -> (lo <= hi <= length (ys s))%nat ->
  (b = Some (Z.of_nat hi) \/ b = None /\ hi = length (ys s)) ->
  exists g, mk_xspec (pyslice (xs s) (Z.of_nat lo) b) (pyslice (ys s) (Z.of_nat lo) b) (cut_x_ticks (xticks s) (Z.of_nat lo) b) = Ok g /\
  length (xs g) = (hi - lo)%nat /\ length (ys g) = (hi - lo)%nat /\
  (forall i, (i < hi - lo)%nat -> nth_error (xs g) i = nth_error (xs s) (lo + i) /\ nth_error (ys g) i = nth_error (ys s) (lo + i)) /\
  (xticks s = None <-> xticks g = None) /\
  forall ts tg z l, xticks s = Some ts -> xticks g = Some tg -> (In (z, l) tg <-> In ((z + Z.of_nat lo)%Z, l) ts /\ (0 <= z)%Z /\ (b <> None -> (z + Z.of_nat lo < Z.of_nat hi)%Z)).
Proof.
  intros L H B.
  assert (P : forall X (l : list X), length l = length (ys s) -> pyslice l (Z.of_nat lo) b = firstn (hi - lo) (skipn lo l)).
  { intros X l E. unfold pyslice. rewrite E, clip_nat by lia. destruct B as [-> |[-> ->]]; [rewrite clip_nat by lia|]; reflexivity. }
  rewrite (P _ _ L), (P _ _ eq_refl). unfold mk_xspec.
  assert (Lx : length (firstn (hi - lo) (skipn lo (xs s))) = (hi - lo)%nat) by (rewrite firstn_length, skipn_length; lia).
  assert (Ly : length (firstn (hi - lo) (skipn lo (ys s))) = (hi - lo)%nat) by (rewrite firstn_length, skipn_length; lia).
  rewrite Lx, Ly, Nat.eqb_refl. cbn [orb]. eexists. split; [reflexivity|]. cbn [xs ys xticks].
  split; [exact Lx|]. split; [exact Ly|]. split; [intros i Hi; split; apply nth_error_slice; exact Hi|].
  unfold cut_x_ticks. split; [destruct (xticks s); split; intros E; congruence|].
  intros ts tg z l Es Eg. rewrite Es in Eg. injection Eg as <-. rewrite in_map_iff. split.
  - intros (p & E & I). apply filter_In in I. destruct I as [I F]. apply andb_prop in F. destruct F as [F1 F2]. apply Z.leb_le in F1.
    destruct p as [pz pl]. cbn [fst snd] in *. injection E as <- <-. replace (pz - Z.of_nat lo + Z.of_nat lo)%Z with pz by lia.
    split; [exact I|]. split; [lia|]. intros N. destruct B as [-> |[-> _]]; [|congruence]. apply Z.ltb_lt in F2. lia.
  - intros (I & H0 & H1). exists ((z + Z.of_nat lo)%Z, l). cbn [fst snd]. split; [f_equal; lia|]. apply filter_In. split; [exact I|]. cbn [fst snd].
    apply andb_true_intro. split; [apply Z.leb_le; lia|]. destruct B as [-> |[-> _]]; [|reflexivity]. apply Z.ltb_lt. apply H1. discriminate.
Qed.

Lemma split_from {A} (s : xspec A) a idx : length (xs s) = length (ys s) -> StronglySorted lt (a :: idx) -> (forall b, In b (a :: idx) -> (b <= length (ys s))%nat) ->
  exists segs, mapE (fun r => mk_xspec (pyslice (xs s) (fst r) (snd r)) (pyslice (ys s) (fst r) (snd r)) (cut_x_ticks (xticks s) (fst r) (snd r)))
                 (pairs_from (Z.of_nat a) (map Z.of_nat idx)) = Ok segs /\ length segs = S (length idx) /\
  forall m g, nth_error segs m = Some g -> let lo := nth m (a :: idx) 0%nat in let hi := end_of idx (length (ys s)) m in
    (lo <= hi <= length (ys s))%nat /\ length (xs g) = (hi - lo)%nat /\ length (ys g) = (hi - lo)%nat /\
    (forall i, (i < hi - lo)%nat -> nth_error (xs g) i = nth_error (xs s) (lo + i) /\ nth_error (ys g) i = nth_error (ys s) (lo + i)) /\
    (xticks s = None <-> xticks g = None) /\
    forall ts tg z l, xticks s = Some ts -> xticks g = Some tg -> (In (z, l) tg <-> In ((z + Z.of_nat lo)%Z, l) ts /\ (0 <= z)%Z /\ ((m < length idx)%nat -> (z + Z.of_nat lo < Z.of_nat hi)%Z)).
Proof.
  intros L. revert a. induction idx as [|b idx IH]; intros a St Hb.
  - assert (Ha : (a <= length (ys s))%nat) by (apply Hb; left; reflexivity).
    destruct (cut_one s a (length (ys s)) None L ltac:(lia) (or_intror (conj eq_refl eq_refl))) as (g & E & G1 & G2 & G3 & G4 & G5).
    exists [g]. cbn [pairs_from map mapE fst snd]. rewrite E. split; [reflexivity|]. split; [reflexivity|].
    intros m g' Em. destruct m as [|m]; [|destruct m; discriminate]. injection Em as <-. cbn [nth]. unfold end_of. cbn [app nth].
    split; [lia|]. split; [exact G1|]. split; [exact G2|]. split; [exact G3|]. split; [exact G4|].
    intros ts tg z l E1 E2. rewrite (G5 ts tg z l E1 E2). cbn [length]. split; intros (I & Z0 & _); split; try exact I; split; try exact Z0; intros; [lia|congruence].
  - apply StronglySorted_inv in St. destruct St as [St Fa]. assert (Hab : (a < b)%nat) by (apply (proj1 (Forall_forall _ _) Fa); left; reflexivity).
    assert (Bb : (b <= length (ys s))%nat) by (apply Hb; right; left; reflexivity).
    destruct (cut_one s a b (Some (Z.of_nat b)) L ltac:(lia) (or_introl eq_refl)) as (g & E & G1 & G2 & G3 & G4 & G5).
    destruct (IH b St) as (segs & Es & Ls & N); [intros c I; apply Hb; right; exact I|].
    exists (g :: segs). cbn [pairs_from map mapE fst snd]. rewrite E, Es. split; [reflexivity|]. split; [cbn [length]; lia|].
    intros m g' Em. destruct m as [|m].
    + injection Em as <-. cbn [nth]. unfold end_of. cbn [app nth].
      split; [lia|]. split; [exact G1|]. split; [exact G2|]. split; [exact G3|]. split; [exact G4|].
      intros ts tg z l E1 E2. rewrite (G5 ts tg z l E1 E2). cbn [length]. split; intros (I & Z0 & Z1); split; try exact I; split; try exact Z0; intros; apply Z1; [discriminate|lia].
    + cbn [nth_error] in Em. specialize (N m g' Em). cbn [nth] in N |- *. unfold end_of in *. cbn [app nth length].
      destruct N as (N1 & N2 & N3 & N4 & N5 & N6). split; [exact N1|]. split; [exact N2|]. split; [exact N3|]. split; [exact N4|]. split; [exact N5|].
      intros ts tg z l E1 E2. rewrite (N6 ts tg z l E1 E2). split; intros (I & Z0 & Z1); split; try exact I; split; try exact Z0; intros; apply Z1; lia.
Qed.
Lemma split_cut {A} (s : xspec A) idx : length (xs s) = length (ys s) -> StronglySorted lt idx -> (forall b, In b idx -> (0 < b <= length (ys s))%nat) ->
  exists segs, split s (Some (map Z.of_nat idx)) None = Ok segs /\ cut_at s idx segs.
Proof.
  intros L St Hb. destruct (split_from s 0 idx L) as (segs & E & Ls & N).
  - constructor; [exact St|]. apply Forall_forall. intros b I. apply Hb in I. lia.
  - intros b [<-|I]; [lia|apply Hb in I; lia].
  - exists segs. split; [exact E|]. split; [exact Ls|exact N].
Qed.

Lemma break_starts labels : region_starts labels (cli_break_points labels).
Proof.
  split; [|intros b; apply break_points_spec]. unfold cli_break_points, where_true. set (l := filter _ _).
  assert (S0 : StronglySorted lt l) by (unfold l; apply filter_sorted, seq_sorted).
  clearbody l. induction S0 as [|x l S0 IH F]; [constructor|]. cbn [map]. constructor; [exact IH|]. apply Forall_map. apply (Forall_impl _ (P := lt x)); [intros; lia|exact F].
Qed.

(** Splitting does not look at the data. *)
Lemma pyslice_map {A B} (f : A -> B) l a b : pyslice (map f l) a b = map f (pyslice l a b).
Proof. unfold pyslice. rewrite map_length, skipn_map, firstn_map. reflexivity. Qed.
Definition over {A B} (f : A -> B) (s : xspec A) : xspec B := mkX (xs s) (map f (ys s)) (xticks s).
Lemma split_idx_map {A B} (f : A -> B) s idx : split_by_indices (over f s) idx = match split_by_indices s idx with Ok l => Ok (map (over f) l) | Err e => Err e end.
Proof.
  unfold split_by_indices. set (F := fun r : Z * option Z => mk_xspec (pyslice (xs s) (fst r) (snd r)) (pyslice (ys s) (fst r) (snd r)) (cut_x_ticks (xticks s) (fst r) (snd r))).
  set (G := fun r : Z * option Z => mk_xspec (pyslice (xs (over f s)) (fst r) (snd r)) _ _).
  assert (FG : forall r, G r = match F r with Ok g => Ok (over f g) | Err e => Err e end).
  { intros r. unfold G, F. cbn [over xs ys xticks]. rewrite pyslice_map. unfold mk_xspec. rewrite map_length. destruct (_ || _)%bool; reflexivity. }
  clearbody F G. induction (ranges_from_indices idx) as [|r l IH]; [reflexivity|]. cbn [mapE]. rewrite FG, IH. destruct (F r); [|reflexivity]. destruct (mapE F l); reflexivity.
Qed.
Lemma i_split_map a d f s : i_split a d (over f s) = match i_split a d s with Ok l => Ok (map (over f) l) | Err e => Err e end.
Proof. unfold i_split. destruct d; cbn [split]; apply split_idx_map. Qed.

(** ** Rows *)
Lemma dos_rows k bins t wmin : 0 < k -> increasing bins -> (2 <= length bins)%nat -> (forall q, (q < nq t)%nat -> wt t q <> 0) ->
  exists z, calculate_dos_map k bins t None wmin = Ok z /\ length z = nq t /\ rect (length bins - 1) z /\
  forall i j, (i < nq t)%nat -> (j < length bins - 1)%nat ->
    cell z i j * (nth (S j) bins 0 - nth j bins 0) = 3 / INR (nm t) * modes_in k t (nth j bins 0) (nth (S j) bins 0) i.
Proof.
  intros Hk Hb Lb Hw.
  assert (R : forall i, (i < nq t)%nat -> exists d, calculate_dos_data k bins (row_table t i) None None wmin Reference = Ok d /\ length d = (length bins - 1)%nat /\
    forall j, (j < length bins - 1)%nat -> nth j d 0 * (nth (S j) bins 0 - nth j bins 0) = 3 / INR (nm t) * modes_in k t (nth j bins 0) (nth (S j) bins 0) i).
  { intros i Hi. assert (T : total_weight (row_table t i) = wt t i) by (unfold total_weight, row_table; cbn; lra).
    destruct (dos_data_hist k bins (row_table t i) None wmin Reference Hk Hb Lb) as (d & D1 & D2 & D3); [rewrite T; apply Hw, Hi|].
    exists d. split; [exact D1|]. split; [exact D2|]. intros j Hj. rewrite (D3 j Hj). unfold wmean. rewrite T. cbn [nq row_table seq]. rewrite Sum_cons, Sum_nil. cbn [wt nm freq row_table].
    rewrite modes_in_sum, Rplus_0_r. match goal with |- ?w * ?S / ?w = _ => replace (w * S / w) with S by (field; apply Hw, Hi) end. rewrite <- Sum_scal. apply Sum_ext. intros m _. destruct (inside _ _ _); lra. }
  unfold calculate_dos_map. cbv iota. revert R. generalize (nq t). intros n R.
  enough (G : forall l, (forall i, In i l -> (i < n)%nat) -> exists z, mapE (fun i => calculate_dos_data k bins (row_table t i) None None wmin Reference) l = Ok z /\ length z = length l /\ rect (length bins - 1) z /\
     forall p j, (p < length l)%nat -> (j < length bins - 1)%nat -> cell z p j * (nth (S j) bins 0 - nth j bins 0) = 3 / INR (nm t) * modes_in k t (nth j bins 0) (nth (S j) bins 0) (nth p l 0%nat)).
  { destruct (G (seq 0 n)) as (z & E & L & Rz & N); [intros i I; apply in_seq in I; lia|]. rewrite seq_length in *. exists z. split; [exact E|]. split; [exact L|]. split; [exact Rz|].
    intros i j Hi Hj. rewrite (N i j Hi Hj), nth_seq_id by exact Hi. reflexivity. }
  induction l as [|i l IH]; intros Hl.
  - exists []. split; [reflexivity|]. split; [reflexivity|]. split; [intros r []|]. cbn. intros; lia.
  - destruct (R i (Hl i (or_introl eq_refl))) as (d & D1 & D2 & D3). destruct IH as (z & E & L & Rz & N); [intros; apply Hl; right; assumption|].
    exists (d :: z). cbn [mapE]. rewrite D1, E. split; [reflexivity|]. split; [cbn; lia|]. split; [intros r [<-|I]; [exact D2|apply Rz, I]|].
    intros p j Hp Hj. destruct p as [|p]; [apply D3, Hj|]. cbn [length] in Hp. apply (N p j); lia.
Qed.
