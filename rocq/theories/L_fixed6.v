(** Lemmas assembling the statements on 2-D spectra (C77) and the examples of C76. *)
From Coq Require Import String.
From Verif Require Import Base L_util M_cell L_cell M_qpts L_qpts L_path M_path M_broad S_broad L_broad L_broad2 L_broad3 M_dos L_dos L_dos2 M_bins S_bins L_bins M_reorder S_reorder L_reorder L_reorder2 M_sf L_tight M_fixed S_fixed L_fixed L_fixed2 L_fixed3 L_fixed4 L_fixed5.
Open Scope R_scope.

Lemma gauss_axis h n x wd : 0 < h -> even_axis h n x -> (2 <= n)%nat ->
  (wd = NoWidth \/ exists w, wd = Fixed w /\ 0 < w /\ h < 10 ^ 14 * w) ->
  exists a c k K, get_bin_centres n x = Ok c /\ regular a h n c /\ axis_kern Gauss (fixed_part wd) c = Ok k /\ acts k K /\
  ((wd = NoWidth /\ untouched K) \/ exists w M, wd = Fixed w /\ shares K M /\ gaussian_of_fwhm w h K M).
Proof.
  intros Hh Ha Hn Hw. destruct (even_centres h n x Ha ltac:(lia)) as (c & a & Ec & Rg). exists a, c.
  destruct Hw as [->|(w & -> & Hw & Ht)].
  - destruct (none_acts Gauss c) as (k & K & E & A & U). exists k, K. split; [exact Ec|]. split; [exact Rg|]. split; [exact E|]. split; [exact A|]. left. split; [reflexivity|exact U].
  - destruct (gauss_acts a h n c w Hh Rg Hn Hw Ht) as (k & K & M & E & A & Sh & G). exists k, K.
    split; [exact Ec|]. split; [exact Rg|]. split; [exact E|]. split; [exact A|]. right. exists w, M. split; [reflexivity|]. split; assumption.
Qed.
Lemma lorentz_axis h n x wd : 0 < h -> even_axis h n x -> (2 <= n)%nat ->
  (wd = NoWidth \/ exists w, wd = Fixed w /\ 0 < w) ->
  exists a c k K, get_bin_centres n x = Ok c /\ regular a h n c /\ axis_kern Lorentz (fixed_part wd) c = Ok k /\ acts k K /\
  ((wd = NoWidth /\ untouched K) \/ exists w, wd = Fixed w /\ shares K n /\ lorentzian_of_fwhm (w * (INR n / (INR n - 1))) h K n).
Proof.
  intros Hh Ha Hn Hw. destruct (even_centres h n x Ha ltac:(lia)) as (c & a & Ec & Rg). exists a, c.
  destruct Hw as [->|(w & -> & Hw)].
  - destruct (none_acts Lorentz c) as (k & K & E & A & U). exists k, K. split; [exact Ec|]. split; [exact Rg|]. split; [exact E|]. split; [exact A|]. left. split; [reflexivity|exact U].
  - destruct (lorentz_acts a h n c w Hh Rg Hn Hw) as (k & K & E & A & Sh & G). exists k, K.
    split; [exact Ec|]. split; [exact Rg|]. split; [exact E|]. split; [exact A|]. right. exists w. split; [reflexivity|]. split; assumption.
Qed.

Lemma two_fixed coeffs st r z ny hx hy wx wy shape sh m lowx lowy conv error fit ax ay cx cy kx ky Kx Ky :
  sz (get st r) = Some z -> rect ny z -> (2 <= length z)%nat -> (2 <= ny)%nat ->
  get_bin_centres (length z) (sx (get st r)) = Ok cx -> regular ax hx (length z) cx ->
  get_bin_centres ny (sy (get st r)) = Ok cy -> regular ay hy ny cy ->
  effective wx \/ effective wy -> (forall f, wx <> Varying f) -> (forall f, wy <> Varying f) ->
  shape_of shape = Ok sh -> method_ok m = true ->
  axis_kern sh (fixed_part wx) cx = Ok kx -> acts kx Kx -> axis_kern sh (fixed_part wy) cy = Ok ky -> acts ky Ky ->
  exists z', broaden2d coeffs st r wx wy shape m lowx lowy conv error fit
             = Ok (st ++ [mk2 (sx (get st r)) (sy (get st r)) (Some z')], length st) /\
  length z' = length z /\ rect ny z' /\
  forall i j, (i < length z)%nat -> (j < ny)%nat -> cell z' i j =
    sumn ny (fun j' => sumn (length z) (fun i' => cell z i' j' * Kx (Z.of_nat i - Z.of_nat i')%Z) * Ky (Z.of_nat j - Z.of_nat j')%Z).
Proof.
  intros Ez Rz Hx Hy Ex Rx Ey Ry Ef Nx Ny Es Em Ak A Bk B.
  assert (T : (truthy (fixed_part wx) || truthy (fixed_part wy))%bool = true).
  { apply Bool.orb_true_iff. destruct Ef as [Ef|Ef]; [left|right]; apply truthy_effective.
    - destruct wx as [|v|f]; cbn in Ef; [contradiction|exists v; split; [reflexivity|exact Ef]|exfalso; apply (Nx f); reflexivity].
    - destruct wy as [|v|f]; cbn in Ef; [contradiction|exists v; split; [reflexivity|exact Ef]|exfalso; apply (Ny f); reflexivity]. }
  destruct (fixed_stage_spec st r z ny ax ay hx hy cx cy (fixed_part wx) (fixed_part wy) shape sh m kx ky Kx Ky) as (z' & E & L & Rc & N); try assumption.
  exists z'. split; [|split; [exact L|split; [exact Rc|exact N]]].
  unfold broaden2d. rewrite Ez, E. cbv iota.
  destruct wx as [|vx|fx]; [| |exfalso; apply (Nx fx); reflexivity]; (destruct wy as [|vy|fy]; [| |exfalso; apply (Ny fy); reflexivity]); reflexivity.
Qed.

Lemma gauss_map coeffs st r z ny hx hy wx wy m lowx lowy conv error fit :
  sz (get st r) = Some z -> rect ny z -> (2 <= length z)%nat -> (2 <= ny)%nat -> 0 < hx -> 0 < hy ->
  even_axis hx (length z) (sx (get st r)) -> even_axis hy ny (sy (get st r)) ->
  (wx = NoWidth \/ exists w, wx = Fixed w /\ 0 < w /\ hx < 10 ^ 14 * w) ->
  (wy = NoWidth \/ exists w, wy = Fixed w /\ 0 < w /\ hy < 10 ^ 14 * w) -> (wx <> NoWidth \/ wy <> NoWidth) -> method_ok m = true ->
  exists z' Kx Ky, broaden2d coeffs st r wx wy "gauss" m lowx lowy conv error fit
             = Ok (st ++ [mk2 (sx (get st r)) (sy (get st r)) (Some z')], length st) /\ length z' = length z /\ rect ny z' /\
  ((wx = NoWidth /\ untouched Kx) \/ exists w M, wx = Fixed w /\ shares Kx M /\ gaussian_of_fwhm w hx Kx M) /\
  ((wy = NoWidth /\ untouched Ky) \/ exists w M, wy = Fixed w /\ shares Ky M /\ gaussian_of_fwhm w hy Ky M) /\
  forall i j, (i < length z)%nat -> (j < ny)%nat -> cell z' i j =
    sumn ny (fun j' => sumn (length z) (fun i' => cell z i' j' * Kx (Z.of_nat i - Z.of_nat i')%Z) * Ky (Z.of_nat j - Z.of_nat j')%Z).
Proof.
  intros Ez Rz Hx Hy Px Py Ax Ay Wx Wy Ne Em.
  destruct (gauss_axis hx _ _ wx Px Ax Hx Wx) as (ax & cx & kx & Kx & Ex & Rx & Ekx & Akx & Dx).
  destruct (gauss_axis hy _ _ wy Py Ay Hy Wy) as (ay & cy & ky & Ky & Ey & Ry & Eky & Aky & Dy).
  destruct (two_fixed coeffs st r z ny hx hy wx wy "gauss" Gauss m lowx lowy conv error fit ax ay cx cy kx ky Kx Ky) as (z' & E & L & Rc & N); try assumption; try reflexivity.
  - destruct Ne as [Ne|Ne]; [left; destruct Wx as [->|(w & -> & P & _)]|right; destruct Wy as [->|(w & -> & P & _)]]; try congruence; cbn; lra.
  - intros f ->. destruct Wx as [W|(w & W & _)]; discriminate.
  - intros f ->. destruct Wy as [W|(w & W & _)]; discriminate.
  - exists z', Kx, Ky. repeat (split; try assumption).
Qed.
Lemma lorentz_map coeffs st r z ny hx hy wx wy m lowx lowy conv error fit :
  sz (get st r) = Some z -> rect ny z -> (2 <= length z)%nat -> (2 <= ny)%nat -> 0 < hx -> 0 < hy ->
  even_axis hx (length z) (sx (get st r)) -> even_axis hy ny (sy (get st r)) ->
  (wx = NoWidth \/ exists w, wx = Fixed w /\ 0 < w) ->
  (wy = NoWidth \/ exists w, wy = Fixed w /\ 0 < w) -> (wx <> NoWidth \/ wy <> NoWidth) -> method_ok m = true ->
  exists z' Kx Ky, broaden2d coeffs st r wx wy "lorentz" m lowx lowy conv error fit
             = Ok (st ++ [mk2 (sx (get st r)) (sy (get st r)) (Some z')], length st) /\ length z' = length z /\ rect ny z' /\
  ((wx = NoWidth /\ untouched Kx) \/ exists w, wx = Fixed w /\ shares Kx (length z) /\
      lorentzian_of_fwhm (w * (INR (length z) / (INR (length z) - 1))) hx Kx (length z)) /\
  ((wy = NoWidth /\ untouched Ky) \/ exists w, wy = Fixed w /\ shares Ky ny /\ lorentzian_of_fwhm (w * (INR ny / (INR ny - 1))) hy Ky ny) /\
  forall i j, (i < length z)%nat -> (j < ny)%nat -> cell z' i j =
    sumn ny (fun j' => sumn (length z) (fun i' => cell z i' j' * Kx (Z.of_nat i - Z.of_nat i')%Z) * Ky (Z.of_nat j - Z.of_nat j')%Z).
Proof.
  intros Ez Rz Hx Hy Px Py Ax Ay Wx Wy Ne Em.
  destruct (lorentz_axis hx _ _ wx Px Ax Hx Wx) as (ax & cx & kx & Kx & Ex & Rx & Ekx & Akx & Dx).
  destruct (lorentz_axis hy _ _ wy Py Ay Hy Wy) as (ay & cy & ky & Ky & Ey & Ry & Eky & Aky & Dy).
  destruct (two_fixed coeffs st r z ny hx hy wx wy "lorentz" Lorentz m lowx lowy conv error fit ax ay cx cy kx ky Kx Ky) as (z' & E & L & Rc & N); try assumption; try reflexivity.
  - destruct Ne as [Ne|Ne]; [left; destruct Wx as [->|(w & -> & P)]|right; destruct Wy as [->|(w & -> & P)]]; try congruence; cbn; lra.
  - intros f ->. destruct Wx as [W|(w & W & _)]; discriminate.
  - intros f ->. destruct Wy as [W|(w & W & _)]; discriminate.
  - exists z', Kx, Ky. repeat (split; try assumption).
Qed.

(** ** Functions of constant value *)
Lemma shape_in shape : In shape ["gauss"; "lorentz"]%string -> exists sh, shape_of shape = Ok sh.
Proof. intros [<-|[<-|[]]]; eexists; reflexivity. Qed.

Lemma function_y coeffs st r z ny a h w shape sh m lowx lowy lim conv error fit sp s :
  sz (get st r) = Some z -> rect ny z -> z <> [] -> (1 <= ny)%nat -> 0 < h -> regular a h (ny + 1) (sy (get st r)) ->
  shape_of shape = Ok sh -> 0 < error -> get_spacing error sh fit = Ok sp ->
  sigma_function conv sh (fun _ => w) = Ok s -> 0 < Rmax (s 0) lim -> (lowy = Some lim \/ lowy = None /\ lim = h) ->
  exists z', broaden2d coeffs st r NoWidth (Varying (fun _ => w)) shape m lowx lowy conv error fit
             = Ok (st ++ [mk2 (sx (get st r)) (sy (get st r)) (Some z')], length st) /\ length z' = length z /\ rect ny z' /\
  forall i j, (i < length z)%nat -> (j < ny)%nat -> cell z' i j = by_bins sh (Rmax (s 0) lim) h h (nth i z []) ny j.
Proof.
  intros Ez Rz Ne Hy Hh Rg Es He Hs Esg Hp Hl.
  destruct (rows_edges coeffs a h ny (sy (get st r)) z w lowy lim conv error sh fit sp s He Hs Hh Hy Rg Rz Esg Hp Hl) as (z' & E & L & Rc & N).
  exists z'. split; [|split; [exact L|split; [exact Rc|intros i j Hi Hj; apply N; assumption]]].
  unfold broaden2d. rewrite Ez. cbn [fixed_part]. rewrite fixed_none. cbv iota.
  change (varying_stage coeffs true NoWidth shape lowx conv error fit (st, r)) with (@Ok (store * nat) fwerr (st, r)). cbv iota.
  unfold varying_stage. rewrite Es. cbn [fst snd]. unfold varying_axis. rewrite Ez, (ncols_rect ny z Rz Ne), E. reflexivity.
Qed.
Lemma function_y_points coeffs st r z ny a h w shape sh m lowx lowy lim conv error fit sp s :
  sz (get st r) = Some z -> rect ny z -> z <> [] -> (3 <= ny)%nat -> 1 / 10 ^ 7 < h -> regular a h ny (sy (get st r)) ->
  shape_of shape = Ok sh -> 0 < error -> get_spacing error sh fit = Ok sp ->
  sigma_function conv sh (fun _ => w) = Ok s -> 0 < Rmax (s 0) lim -> (lowy = Some lim \/ lowy = None /\ lim = h) ->
  exists z', broaden2d coeffs st r NoWidth (Varying (fun _ => w)) shape m lowx lowy conv error fit
             = Ok (st ++ [mk2 (sx (get st r)) (sy (get st r)) (Some z')], length st) /\ length z' = length z /\ rect ny z' /\
  forall i j, (i < length z)%nat -> (j < ny)%nat -> cell z' i j = by_bins sh (Rmax (s 0) lim) ((INR ny - 1) * h / INR ny) (h / 2) (nth i z []) ny j.
Proof.
  intros Ez Rz Ne Hy Hh Rg Es He Hs Esg Hp Hl.
  destruct (rows_points coeffs a h ny (sy (get st r)) z w lowy lim conv error sh fit sp s He Hs Hh Hy Rg Rz Esg Hp Hl) as (z' & E & L & Rc & N).
  exists z'. split; [|split; [exact L|split; [exact Rc|intros i j Hi Hj; apply N; assumption]]].
  unfold broaden2d. rewrite Ez. cbn [fixed_part]. rewrite fixed_none. cbv iota.
  change (varying_stage coeffs true NoWidth shape lowx conv error fit (st, r)) with (@Ok (store * nat) fwerr (st, r)). cbv iota.
  unfold varying_stage. rewrite Es. cbn [fst snd]. unfold varying_axis. rewrite Ez, (ncols_rect ny z Rz Ne), E. reflexivity.
Qed.
Lemma function_x coeffs st r z ny a h w shape sh m lowx lowy lim conv error fit sp s :
  sz (get st r) = Some z -> rect ny z -> z <> [] -> 0 < h -> regular a h (length z + 1) (sx (get st r)) ->
  shape_of shape = Ok sh -> 0 < error -> get_spacing error sh fit = Ok sp ->
  sigma_function conv sh (fun _ => w) = Ok s -> 0 < Rmax (s 0) lim -> (lowx = Some lim \/ lowx = None /\ lim = h) ->
  exists z', broaden2d coeffs st r (Varying (fun _ => w)) NoWidth shape m lowx lowy conv error fit
             = Ok (st ++ [mk2 (sx (get st r)) (sy (get st r)) (Some z')], length st) /\ length z' = length z /\ rect ny z' /\
  forall i j, (i < length z)%nat -> (j < ny)%nat ->
    cell z' i j = by_bins sh (Rmax (s 0) lim) h h (map (fun row => nth j row 0) z) (length z) i.
Proof.
  intros Ez Rz Ne Hh Rg Es He Hs Esg Hp Hl.
  assert (Hx : (1 <= length z)%nat) by (destruct z; [congruence|cbn; lia]).
  destruct (rows_edges coeffs a h (length z) (sx (get st r)) (columns ny z) w lowx lim conv error sh fit sp s He Hs Hh Hx Rg (columns_rect ny z) Esg Hp Hl) as (t & E & L & Rc & N).
  rewrite columns_len in L, N.
  exists (columns (length z) t). split; [|split; [apply columns_len|split]].
  - unfold broaden2d. rewrite Ez. cbn [fixed_part]. rewrite fixed_none. cbv iota.
    unfold varying_stage. rewrite Es. cbn [fst snd]. unfold varying_axis. rewrite Ez, (ncols_rect ny z Rz Ne), E. reflexivity.
  - rewrite <- L. apply columns_rect.
  - intros i j Hi Hj. rewrite columns_cell by lia. rewrite (N j Hj i Hi). f_equal. unfold columns.
    rewrite (map_nth_indep _ _ _ 0%nat []) by (rewrite seq_length; exact Hj). rewrite nth_seq_id by exact Hj. reflexivity.
Qed.

(** ** The object returned *)
Lemma imul_new st st' r r' k : (r < length st)%nat -> extends st st' -> (length st <= r' < length st')%nat ->
  get (imul st' r' k) r = get st r.
Proof.
  intros Hr X H. unfold imul. rewrite get_put_other by lia. apply extends_get; assumption.
Qed.
Lemma imul_same st r k z : (r < length st)%nat -> sz (get st r) = Some z -> sz (get (imul st r k) r) = Some (map (map (fun v => v * k)) z).
Proof. intros Hr E. unfold imul. rewrite get_put_same by exact Hr. cbn [sz]. rewrite E. reflexivity. Qed.

Lemma nothing_to_do coeffs st r wx wy shape m lowx lowy conv error fit : ~ effective wx -> ~ effective wy ->
  broaden2d coeffs st r wx wy shape m lowx lowy conv error fit = Ok (st, r).
Proof.
  intros Nx Ny. unfold broaden2d. destruct (sz (get st r)) as [z|]; [|reflexivity].
  assert (T : (truthy (fixed_part wx) || truthy (fixed_part wy))%bool = false).
  { apply Bool.orb_false_iff. split; apply Bool.not_true_iff_false; intros T; apply truthy_effective in T; destruct T as (v & -> & Hv); [apply Nx|apply Ny]; exact Hv. }
  unfold fixed_stage. rewrite T.
  destruct wx as [|v|f]; [| |exfalso; apply Nx; exact I]; (destruct wy as [|u|g]; [| |exfalso; apply Ny; exact I]); reflexivity.
Qed.
