(** Lemmas on broadening of 2-D spectra (C77). *)
From Coq Require Import String.
From Verif Require Import Base L_util M_cell L_cell M_qpts L_qpts L_path M_path M_broad S_broad L_broad L_broad2 L_broad3 M_dos L_dos L_dos2 M_bins S_bins L_bins M_reorder S_reorder L_reorder L_reorder2 M_sf L_tight M_fixed S_fixed L_fixed L_fixed2 L_fixed3.
Open Scope R_scope.

(** What a kernel does along one axis. *)
Definition acts (k : kern) (K : Z -> R) : Prop :=
  match k with
  | Skip => untouched K
  | Weights w => forall a i, (i < length a)%nat -> nth i (correlate a w) 0 = spread K a i
  | Nans => False
  end.

Lemma spread_untouched K a i : untouched K -> (i < length a)%nat -> spread K a i = nth i a 0.
Proof.
  intros U Hi. unfold spread. rewrite (sumn_single _ _ i Hi).
  - rewrite U, Z.sub_diag. cbn. ring.
  - intros k _ N. rewrite U. destruct (Z.eqb_spec (Z.of_nat i - Z.of_nat k) 0); [lia|ring].
Qed.

Lemma gauss_acts a h n c w : 0 < h -> regular a h n c -> (2 <= n)%nat -> 0 < w -> h < 10 ^ 14 * w ->
  exists k K M, axis_kern Gauss (Some w) c = Ok k /\ acts k K /\ shares K M /\ gaussian_of_fwhm w h K M.
Proof.
  intros Hh Rg Hn Hw Ht. destruct (gauss_kernel a h n c w Hh Rg Hn Hw (sigma_lower w h Hw Hh Ht)) as (wt & Ek & Lw & Sy & Sh & Gs).
  eexists (Weights wt), _, _. cbn [axis_kern acts]. split; [exact Ek|]. split; [|split; [exact Sh|exact Gs]].
  intros b i Hi. apply correlate_spread; assumption.
Qed.
Lemma lorentz_acts a h n c w : 0 < h -> regular a h n c -> (2 <= n)%nat -> 0 < w ->
  exists k K, axis_kern Lorentz (Some w) c = Ok k /\ acts k K /\ shares K n /\ lorentzian_of_fwhm (w * (INR n / (INR n - 1))) h K n.
Proof.
  intros Hh Rg Hn Hw. destruct (lorentz_kernel a h n c w Hh Rg Hn Hw) as (wt & Ek & Lw & Sy & Sh & Gs).
  eexists (Weights wt), _. cbn [axis_kern acts]. split; [rewrite Ek; reflexivity|]. split; [|split; [exact Sh|exact Gs]].
  intros b i Hi. apply correlate_spread; assumption.
Qed.
Lemma none_acts sh c : exists k K, axis_kern sh None c = Ok k /\ acts k K /\ untouched K.
Proof. exists Skip, (fun d => if (d =? 0)%Z then 1 else 0). split; [reflexivity|]. split; intros d; reflexivity. Qed.

(** ** Rectangular arrays *)

Lemma columns_cell n z i j : (j < length z)%nat -> (i < n)%nat -> cell (columns n z) i j = cell z j i.
Proof.
  intros Hj Hi. unfold cell, columns. rewrite (map_nth_indep _ _ _ 0%nat []) by (rewrite seq_length; exact Hi).
  rewrite nth_seq_id by exact Hi. rewrite (map_nth_indep _ _ _ [] 0) by exact Hj. reflexivity.
Qed.
Lemma columns_len n z : length (columns n z) = n.
Proof. unfold columns. rewrite map_length, seq_length. reflexivity. Qed.
Lemma columns_rect n z : rect (length z) (columns n z).
Proof. intros r I. unfold columns in I. apply in_map_iff in I. destruct I as (j & <- & _). rewrite map_length. reflexivity. Qed.
Lemma rect_nth ny z i : rect ny z -> (i < length z)%nat -> length (nth i z []) = ny.
Proof. intros H Hi. apply H, nth_In. exact Hi. Qed.

Lemma along_y_spec k K ny z : acts k K -> rect ny z -> exists z', along_y k z = Some z' /\ length z' = length z /\ rect ny z' /\
  forall i j, (i < length z)%nat -> (j < ny)%nat -> cell z' i j = sumn ny (fun j' => cell z i j' * K (Z.of_nat j - Z.of_nat j')%Z).
Proof.
  intros A Rz. destruct k as [|w|]; [| |contradiction].
  - exists z. split; [reflexivity|]. split; [reflexivity|]. split; [exact Rz|]. intros i j Hi Hj. unfold cell at 1.
    rewrite <- (spread_untouched K (nth i z []) j A) by (rewrite (rect_nth ny z i Rz Hi); exact Hj).
    unfold spread. rewrite (rect_nth ny z i Rz Hi). reflexivity.
  - eexists. split; [reflexivity|]. split; [apply map_length|]. split.
    + intros r I. apply in_map_iff in I. destruct I as (r0 & <- & I0). rewrite length_correlate. apply Rz. exact I0.
    + intros i j Hi Hj. unfold cell at 1. rewrite (map_nth_indep _ _ _ [] []) by exact Hi.
      rewrite (A (nth i z []) j) by (rewrite (rect_nth ny z i Rz Hi); exact Hj). unfold spread. rewrite (rect_nth ny z i Rz Hi). reflexivity.
Qed.
Lemma along_x_spec k K ny z : acts k K -> rect ny z -> exists z', along_x k ny z = Some z' /\ length z' = length z /\ rect ny z' /\
  forall i j, (i < length z)%nat -> (j < ny)%nat -> cell z' i j = sumn (length z) (fun i' => cell z i' j * K (Z.of_nat i - Z.of_nat i')%Z).
Proof.
  intros A Rz. destruct k as [|w|]; [| |contradiction].
  - exists z. split; [reflexivity|]. split; [reflexivity|]. split; [exact Rz|]. intros i j Hi Hj.
    rewrite (sumn_single _ _ i Hi).
    + rewrite A, Z.sub_diag. cbn. ring.
    + intros q _ N. rewrite A. destruct (Z.eqb_spec (Z.of_nat i - Z.of_nat q) 0); [lia|ring].
  - eexists. split; [reflexivity|]. split; [apply columns_len|]. split.
    + pose proof (columns_rect (length z) (map (fun r => correlate r w) (columns ny z))) as C. rewrite map_length, columns_len in C. exact C.
    + intros i j Hi Hj. rewrite columns_cell by (rewrite ?map_length, ?columns_len; assumption).
      unfold cell at 1. rewrite (map_nth_indep _ _ _ [] []) by (rewrite columns_len; exact Hj).
      assert (Lc : length (nth j (columns ny z) []) = length z) by (apply (rect_nth (length z)); [apply columns_rect|rewrite columns_len; exact Hj]).
      rewrite (A (nth j (columns ny z) []) i) by (rewrite Lc; exact Hi). unfold spread. rewrite Lc. apply sumn_ext. intros i' Hi'.
      f_equal. apply (columns_cell ny z j i' Hi' Hj).
Qed.

Lemma ncols_rect ny z : rect ny z -> z <> [] -> ncols z = ny.
Proof. intros H N. destruct z as [|r z]; [congruence|]. apply H. left. reflexivity. Qed.

Lemma checked_two ax ay hx hy nx ny cx cy wx wy shape sh m : regular ax hx nx cx -> regular ay hy ny cy -> (2 <= nx)%nat -> (2 <= ny)%nat ->
  shape_of shape = Ok sh -> method_ok m = true -> checked [(wx, cx); (wy, cy)] shape m = Ok (sh, false).
Proof.
  intros Rx Ry Hx Hy Es Em. unfold checked. rewrite Es, Em. cbn [any_unequal].
  rewrite (regular_equal _ _ _ _ Rx Hx), (regular_equal _ _ _ _ Ry Hy). destruct wx, wy; reflexivity.
Qed.

(** The fixed stage where the check of the axes succeeds, for kernels acting as Kx and Ky. *)
Lemma fixed_stage_checked st r z ny warned cx cy wx wy shape sh m kx ky Kx Ky :
  rect ny z -> (1 <= length z)%nat ->
  get_bin_centres (length z) (sx (get st r)) = Ok cx ->
  get_bin_centres ny (sy (get st r)) = Ok cy ->
  (truthy wx || truthy wy)%bool = true -> checked [(wx, cx); (wy, cy)] shape m = Ok (sh, warned) ->
  axis_kern sh wx cx = Ok kx -> acts kx Kx -> axis_kern sh wy cy = Ok ky -> acts ky Ky ->
  exists z', fixed_stage st r z wx wy shape m = Ok (st ++ [mk2 (sx (get st r)) (sy (get st r)) (Some z')], length st) /\
  length z' = length z /\ rect ny z' /\
  forall i j, (i < length z)%nat -> (j < ny)%nat -> cell z' i j =
    sumn ny (fun j' => sumn (length z) (fun i' => cell z i' j' * Kx (Z.of_nat i - Z.of_nat i')%Z) * Ky (Z.of_nat j - Z.of_nat j')%Z).
Proof.
  intros Rz Hx Ex Ey T Ec Akx Akx' Aky Aky'.
  assert (Nc : ncols z = ny) by (apply ncols_rect; [exact Rz|destruct z; [cbn in Hx; lia|discriminate]]).
  unfold fixed_stage. rewrite T, Nc, Ex, Ey. cbn [lift]. unfold broaden_data2.
  rewrite Ec, Akx, Aky.
  destruct (along_x_spec kx Kx ny z Akx' Rz) as (z1 & E1 & L1 & R1 & N1). rewrite E1.
  destruct (along_y_spec ky Ky ny z1 Aky' R1) as (z2 & E2 & L2 & R2 & N2). rewrite E2.
  exists z2. split; [reflexivity|]. split; [congruence|]. split; [exact R2|]. intros i j Hi Hj.
  rewrite N2 by (rewrite ?L1; assumption). apply sumn_ext. intros j' Hj'. rewrite N1 by assumption. reflexivity.
Qed.

(** The fixed stage on evenly spaced axes, for kernels acting as Kx and Ky. *)
Lemma fixed_stage_spec st r z ny ax ay hx hy cx cy wx wy shape sh m kx ky Kx Ky :
  rect ny z -> (2 <= length z)%nat -> (2 <= ny)%nat ->
  get_bin_centres (length z) (sx (get st r)) = Ok cx -> regular ax hx (length z) cx ->
  get_bin_centres ny (sy (get st r)) = Ok cy -> regular ay hy ny cy ->
  (truthy wx || truthy wy)%bool = true -> shape_of shape = Ok sh -> method_ok m = true ->
  axis_kern sh wx cx = Ok kx -> acts kx Kx -> axis_kern sh wy cy = Ok ky -> acts ky Ky ->
  exists z', fixed_stage st r z wx wy shape m = Ok (st ++ [mk2 (sx (get st r)) (sy (get st r)) (Some z')], length st) /\
  length z' = length z /\ rect ny z' /\
  forall i j, (i < length z)%nat -> (j < ny)%nat -> cell z' i j =
    sumn ny (fun j' => sumn (length z) (fun i' => cell z i' j' * Kx (Z.of_nat i - Z.of_nat i')%Z) * Ky (Z.of_nat j - Z.of_nat j')%Z).
Proof.
  intros Rz Hx Hy Ex Rx Ey Ry T Es Em Akx Akx' Aky Aky'.
  apply (fixed_stage_checked st r z ny false cx cy wx wy shape sh m kx ky Kx Ky); try assumption; [lia|].
  exact (checked_two ax ay hx hy _ _ cx cy wx wy shape sh m Rx Ry Hx Hy Es Em).
Qed.

(** ** Objects *)
Lemma get_app st s : get (st ++ [s]) (length st) = s.
Proof. unfold get. rewrite app_nth2, Nat.sub_diag by lia. reflexivity. Qed.
Lemma get_old st l r : (r < length st)%nat -> get (st ++ l) r = get st r.
Proof. intros H. unfold get. apply app_nth1. exact H. Qed.
Lemma get_put_same st r s : (r < length st)%nat -> get (put st r s) r = s.
Proof.
  intros H. unfold get, put. rewrite app_nth2; rewrite firstn_length_le by lia; [|lia]. rewrite Nat.sub_diag. reflexivity.
Qed.
Lemma get_put_other st r s q : (r < length st)%nat -> q <> r -> get (put st r s) q = get st q.
Proof.
  intros H N. unfold get, put. assert (Lf : length (firstn r st) = r) by (apply firstn_length_le; lia).
  destruct (Nat.lt_ge_cases q r) as [L|L].
  - rewrite app_nth1 by lia. rewrite <- (firstn_skipn r st) at 2. rewrite app_nth1 by lia. reflexivity.
  - rewrite app_nth2 by lia. rewrite Lf. destruct (q - r)%nat as [|k] eqn:E; [lia|]. cbn [app nth].
    rewrite <- (firstn_skipn (S r) st) at 2. rewrite app_nth2; rewrite firstn_length_le by lia; [|lia]. f_equal. lia.
Qed.

Definition extends (st st' : store) : Prop := exists l, st' = st ++ l.
Lemma extends_get st st' r : extends st st' -> (r < length st)%nat -> get st' r = get st r.
Proof. intros [l ->]. apply get_old. Qed.

Lemma varying_stage_extends coeffs isx wd shape lower conv error fit sr sr' :
  varying_stage coeffs isx wd shape lower conv error fit sr = Ok sr' ->
  extends (fst sr) (fst sr') /\ ((exists f, wd = Varying f) /\ (length (fst sr) <= snd sr' < length (fst sr'))%nat \/ (forall f, wd <> Varying f) /\ sr' = sr).
Proof.
  unfold varying_stage. destruct wd as [|w|f].
  - intros H. injection H as <-. split; [exists []; rewrite app_nil_r; reflexivity|]. right. split; [discriminate|reflexivity].
  - intros H. injection H as <-. split; [exists []; rewrite app_nil_r; reflexivity|]. right. split; [discriminate|reflexivity].
  - destruct (shape_of shape); [|discriminate]. destruct (varying_axis _ _ _ _ _ _ _ _ _); [|discriminate].
    intros H. injection H as <-. cbn. split; [eexists; reflexivity|]. left. split; [exists f; reflexivity|]. rewrite app_length. cbn. lia.
Qed.
Lemma fixed_stage_extends st r z wx wy shape m sr : fixed_stage st r z wx wy shape m = Ok sr ->
  extends st (fst sr) /\ ((truthy wx || truthy wy)%bool = true /\ (length st <= snd sr < length (fst sr))%nat \/ (truthy wx || truthy wy)%bool = false /\ sr = (st, r)).
Proof.
  unfold fixed_stage. destruct (truthy wx || truthy wy)%bool.
  - destruct (lift _); [|discriminate]. destruct (lift _); [|discriminate]. destruct (broaden_data2 _ _ _ _ _ _ _ _) as [[b d]|]; [|discriminate].
    intros H. injection H as <-. cbn. split; [eexists; reflexivity|]. left. split; [reflexivity|]. rewrite app_length. cbn. lia.
  - intros H. injection H as <-. split; [exists []; rewrite app_nil_r; reflexivity|]. right. split; reflexivity.
Qed.
Lemma extends_trans a b c : extends a b -> extends b c -> extends a c.
Proof. intros [l ->] [m ->]. exists (l ++ m). rewrite app_assoc. reflexivity. Qed.
Lemma extends_len a b : extends a b -> (length a <= length b)%nat.
Proof. intros [l ->]. rewrite app_length. lia. Qed.

Lemma truthy_effective w : truthy (fixed_part w) = true <-> exists v, w = Fixed v /\ v <> 0.
Proof.
  destruct w as [|v|f]; cbn; try (split; [discriminate|intros (v & E & _); discriminate]).
  destruct (Reqb_spec v 0); cbn; split; intros H; try discriminate; try reflexivity; try (exists v; split; [reflexivity|assumption]).
  destruct H as (u & E & N). injection E as <-. contradiction.
Qed.

Lemma broaden2d_new coeffs st r wx wy shape m lowx lowy conv error fit st' r' : (r < length st)%nat -> sz (get st r) <> None ->
  broaden2d coeffs st r wx wy shape m lowx lowy conv error fit = Ok (st', r') ->
  extends st st' /\ (effective wx \/ effective wy -> (length st <= r' < length st')%nat) /\
  (~ effective wx -> ~ effective wy -> st' = st /\ r' = r).
Proof.
  intros Hr Hz. unfold broaden2d. destruct (sz (get st r)) as [z|]; [|congruence].
  destruct (fixed_stage _ _ _ _ _ _ _) as [sr|] eqn:E1; [|discriminate].
  destruct (varying_stage coeffs true _ _ _ _ _ _ _) as [sr2|] eqn:E2; [|discriminate]. intros E3.
  destruct (fixed_stage_extends _ _ _ _ _ _ _ _ E1) as [X1 C1].
  destruct (varying_stage_extends _ _ _ _ _ _ _ _ _ _ E2) as [X2 C2].
  destruct (varying_stage_extends _ _ _ _ _ _ _ _ _ _ E3) as [X3 C3]. cbn [fst snd] in X3, C3.
  pose proof (extends_len _ _ X1). pose proof (extends_len _ _ X2). pose proof (extends_len _ _ X3).
  split; [exact (extends_trans _ _ _ X1 (extends_trans _ _ _ X2 X3))|]. split.
  - intros Ef. destruct C3 as [[_ B3]|[N3 Q3]]; [lia|]. destruct C2 as [[_ B2]|[N2 Q2]]; [subst sr2; cbn [fst snd] in *; lia|]. subst sr2.
    destruct C1 as [[_ B1]|[T1 Q1]]; [subst sr; cbn [fst snd] in *; lia|]. exfalso. apply Bool.orb_false_iff in T1. destruct T1 as [Ta Tb].
    destruct Ef as [Ef|Ef]; [destruct wx as [|v|f]|destruct wy as [|v|f]]; cbn in Ef; try contradiction.
    + cbn in Ta. destruct (Reqb_spec v 0); [contradiction|discriminate].
    + apply (N2 f). reflexivity.
    + cbn in Tb. destruct (Reqb_spec v 0); [contradiction|discriminate].
    + apply (N3 f). reflexivity.
  - intros Nx Ny. destruct C3 as [[[f ->] _]|[_ Q3]]; [exfalso; apply Ny; exact I|].
    destruct C2 as [[[f ->] _]|[_ Q2]]; [exfalso; apply Nx; exact I|].
    destruct C1 as [[T1 _]|[_ Q1]].
    + exfalso. apply Bool.orb_true_iff in T1. destruct T1 as [T|T]; apply truthy_effective in T; destruct T as (v & -> & Hv); cbn in Nx, Ny; tauto.
    + subst sr2. rewrite Q1 in Q3. injection Q3 as -> ->. split; reflexivity.
Qed.
