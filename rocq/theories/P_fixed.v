(** C76 (broadening with a fixed width) and C77 (broadening of maps). *)
From Coq Require Import String.
From Verif Require Import Base M_cell M_path M_broad S_broad M_bins S_bins L_broad2 M_fixed S_fixed L_fixed L_fixed2 L_fixed3 L_fixed4 L_fixed5 L_fixed6 L_fixed7.
Open Scope R_scope.

(** C76.  A Gaussian of fixed width on an evenly spaced axis: every value is shared out
    among its neighbours with shares that add up to the whole and follow a Gaussian whose
    full width at half maximum is the one asked for; the shares reach four standard
    deviations.  (Widths below 1e-14 of a bin are ignored.) *)
Theorem C76_gauss : forall coeffs x y w h m lower conv error fit, 0 < h -> even_axis h (length y) x -> (2 <= length y)%nat ->
  0 < w -> h < 10 ^ 14 * w -> m = None \/ m = Some "convolve"%string ->
  exists K M out, broaden1d coeffs x y (Fixed w) "gauss" m lower conv error fit = Ok (false, Some out) /\
  length out = length y /\ shares K M /\ gaussian_of_fwhm w h K M /\
  (4 * (w / (2 * sqrt (2 * ln 2))) - h / 2 < INR M * h <= 4 * (w / (2 * sqrt (2 * ln 2))) + h / 2) /\
  forall i, (i < length y)%nat -> nth i out 0 = spread K y i.
Proof. intros coeffs x y w h m lower conv error fit A B C D E [-> | ->]; apply gauss_1d; auto. Qed.
Print Assumptions C76_gauss.
Example C76_gauss_meets : even_axis 1 (length [1; 5]) [0; 1; 2] /\ 1 < 10 ^ 14 * (1 / 2).
Proof. split; [exact even_edges_012|]. assert (10 ^ 1 <= 10 ^ 14) by (apply Rle_pow; [lra|lia]). lra. Qed.

(** C76.  A Lorentzian: the same, except that the width drawn is larger than the width
    asked for by the factor n/(n-1), n being the number of bins.  Partial for that reason. *)
Theorem C76_lorentz_partial : forall coeffs x y w h m lower conv error fit, 0 < h -> even_axis h (length y) x -> (2 <= length y)%nat ->
  0 < w -> m = None \/ m = Some "convolve"%string ->
  exists K out, broaden1d coeffs x y (Fixed w) "lorentz" m lower conv error fit = Ok (false, Some out) /\
  length out = length y /\ shares K (length y) /\
  lorentzian_of_fwhm (w * (INR (length y) / (INR (length y) - 1))) h K (length y) /\
  forall i, (i < length y)%nat -> nth i out 0 = spread K y i.
Proof. intros coeffs x y w h m lower conv error fit A B C D [-> | ->]; apply lorentz_1d; auto. Qed.
Print Assumptions C76_lorentz_partial.

(** C76, refuted for Lorentzians: a peak broadened with a full width at half maximum of 2
    still has four fifths of its height one unit away. *)
Theorem C76_lorentz_width_refuted : forall coeffs lower conv error fit, exists x y out, even_axis 1 (length y) x /\
  broaden1d coeffs x y (Fixed 2) "lorentz" None lower conv error fit = Ok (false, Some out) /\
  y = [1; 0] /\ 0 < nth 0 out 0 /\ nth 1 out 0 = 4 / 5 * nth 0 out 0.
Proof.
  intros. destruct (lorentz_wide coeffs None lower conv error fit eq_refl) as (out & E & P & H).
  exists [0; 1], [1; 0], out. split; [exact even_01|]. split; [exact E|]. split; [reflexivity|]. split; assumption.
Qed.
Print Assumptions C76_lorentz_width_refuted.

(** C76.  Broadening makes no intensity: values that are not negative stay so and their
    sum does not grow; data that are zero near both ends keep their sum. *)
Theorem C76_total : forall K M a out, shares K M -> length out = length a ->
  (forall i, (i < length a)%nat -> nth i out 0 = spread K a i) ->
  ((forall v, In v a -> 0 <= v) -> (forall v, In v out -> 0 <= v) /\ total out <= total a) /\
  ((forall j, (j < length a)%nat -> (j < M \/ length a <= j + M)%nat -> nth j a 0 = 0) -> total out = total a).
Proof.
  intros K M a out Sh L H. split; [apply (spread_le K M a out Sh L H)|apply (spread_eq K M a out Sh L H)].
Qed.
Print Assumptions C76_total.

(** C76.  Uneven bins are refused unless convolution is asked for by name, and then there
    is a warning; even bins are silent; other names are refused; one bin is an error. *)
Theorem C76_uneven_bins : forall coeffs x y c w lower conv error fit, get_bin_centres (length y) x = Ok c ->
  let b := fun shape m => broaden1d coeffs x y (Fixed w) shape m lower conv error fit in
  (forall shape, In shape ["gauss"; "lorentz"]%string ->
     ((2 <= length c)%nat -> uneven c -> b shape None = Err UnequalBins) /\
     (forall m, m = None \/ m = Some "convolve"%string -> (length c <= 1)%nat -> b shape m = Err OneBin) /\
     (forall s, s <> "convolve"%string -> b shape (Some s) = Err BadMethodName)) /\
  (forall shape d wn, (2 <= length c)%nat -> b shape (Some "convolve"%string) = Ok (wn, d) -> (wn = true <-> uneven c)) /\
  (forall shape m, ~ In shape ["gauss"; "lorentz"]%string -> b shape m = Err BadShapeName).
Proof.
  intros coeffs x y c w lower conv error fit Hc b. split; [|split].
  - intros shape Is. split; [intros L U; apply (refuse_uneven coeffs x y c w lower conv error fit Hc shape Is L U)|]. split.
    + intros m Hm L. apply (one_bin coeffs x y c w lower conv error fit Hc shape m Is); [destruct Hm as [-> | ->]; reflexivity|exact L].
    + intros s Hs. exact (proj2 (bad_names coeffs x y c w lower conv error fit Hc shape (Some s)) Is s eq_refl Hs).
  - intros shape d wn L E. exact (warn_uneven coeffs x y c w lower conv error fit Hc shape d wn L E).
  - intros shape m N. exact (proj1 (bad_names coeffs x y c w lower conv error fit Hc shape m) N).
Qed.
Print Assumptions C76_uneven_bins.
Example C76_uneven_meets : get_bin_centres (length [1; 1; 1]) [0; 1; 3] = Ok [0; 1; 3] /\ uneven [0; 1; 3].
Proof.
  split; [reflexivity|]. exists 1%nat. split; [cbn; lia|]. unfold step. cbn [nth].
  rewrite (Rabs_pos_eq (1 - 0)), (Rabs_pos_eq (3 - 1 - (1 - 0))) by lra.
  assert (10 ^ 1 <= 10 ^ 8) by (apply Rle_pow; [lra|lia]). assert (10 ^ 1 <= 10 ^ 5) by (apply Rle_pow; [lra|lia]).
  assert (1 / 10 ^ 8 <= 1 / 10) by (unfold Rdiv; rewrite !Rmult_1_l; apply Rinv_le_contravar; lra).
  assert (1 / 10 ^ 5 <= 1 / 10) by (unfold Rdiv; rewrite !Rmult_1_l; apply Rinv_le_contravar; lra). lra.
Qed.

(** C76, refuted for fine axes: bins that differ ninefold are taken as equal, without a
    warning, when they are narrower than 1e-8 of the axis unit. *)
Theorem C76_fine_bins_refuted : exists x c y, get_bin_centres (length y) x = Ok c /\ nth 1 c 0 - nth 0 c 0 = 1 / 10 ^ 9 /\
  nth 2 c 0 - nth 1 c 0 = 9 * (1 / 10 ^ 9) /\
  forall coeffs w lower conv error fit, exists d, broaden1d coeffs x y (Fixed w) "gauss" None lower conv error fit = Ok (false, d).
Proof. exact tiny_uneven. Qed.
Print Assumptions C76_fine_bins_refuted.

(** C76.  A Gaussian of width zero changes nothing. *)
Theorem C76_zero_gauss : forall coeffs x y h m lower conv error fit, even_axis h (length y) x -> (2 <= length y)%nat -> h <> 0 ->
  m = None \/ m = Some "convolve"%string -> broaden1d coeffs x y (Fixed 0) "gauss" m lower conv error fit = Ok (false, Some y).
Proof. intros coeffs x y h m lower conv error fit A B C [-> | ->]; apply (gauss_unchanged coeffs x y 0 h); auto; lra. Qed.
Print Assumptions C76_zero_gauss.

(** C76, refuted: on an axis in descending order a Gaussian of any width is silently not
    applied. *)
Theorem C76_descending_refuted : forall coeffs x y w h m lower conv error fit, even_axis h (length y) x -> (2 <= length y)%nat ->
  h < 0 -> 0 < w -> m = None \/ m = Some "convolve"%string ->
  broaden1d coeffs x y (Fixed w) "gauss" m lower conv error fit = Ok (false, Some y).
Proof. intros coeffs x y w h m lower conv error fit A B C D [-> | ->]; apply (gauss_unchanged coeffs x y w h); auto; nra. Qed.
Print Assumptions C76_descending_refuted.

(** C76, refuted: a Lorentzian of width zero turns all data into NaN. *)
Theorem C76_zero_lorentz_refuted : forall coeffs x y h m lower conv error fit, even_axis h (length y) x -> (2 <= length y)%nat ->
  m = None \/ m = Some "convolve"%string -> broaden1d coeffs x y (Fixed 0) "lorentz" m lower conv error fit = Ok (false, None).
Proof. intros coeffs x y h m lower conv error fit A B [-> | ->]; apply (lorentz_zero coeffs x y h); auto. Qed.
Print Assumptions C76_zero_lorentz_refuted.

(** C76.  A collection is broadened line by line, each as if it stood alone. *)
Theorem C76_lines : forall coeffs x ys wd shape m lower conv error fit,
  let one := fun y => broaden1d coeffs x y wd shape m lower conv error fit in
  let all := broaden_lines coeffs x ys wd shape m lower conv error fit in
  (forall b ds, all = Ok (b, ds) -> length ds = length ys /\
     forall i, (i < length ys)%nat -> exists bi, one (nth i ys []) = Ok (bi, nth i ds None)) /\
  ((forall y, In y ys -> exists b d, one y = Ok (b, d)) -> exists b ds, all = Ok (b, ds)) /\
  (forall e, all = Err e -> exists y, In y ys /\ one y = Err e).
Proof. intros. split; [apply lines_each|split; [apply lines_all|apply lines_first]]. Qed.
Print Assumptions C76_lines.

(** C77.  A map broadened with fixed Gaussian widths: both axes at once, each on its own;
    an axis without a width is left as it is; the result is a new object beside the old
    ones, with the same axes. *)
Theorem C77_gauss_map : forall coeffs st r z ny hx hy wx wy m lowx lowy conv error fit,
  sz (get st r) = Some z -> rect ny z -> (2 <= length z)%nat -> (2 <= ny)%nat -> 0 < hx -> 0 < hy ->
  even_axis hx (length z) (sx (get st r)) -> even_axis hy ny (sy (get st r)) ->
  (wx = NoWidth \/ exists w, wx = Fixed w /\ 0 < w /\ hx < 10 ^ 14 * w) ->
  (wy = NoWidth \/ exists w, wy = Fixed w /\ 0 < w /\ hy < 10 ^ 14 * w) -> (wx <> NoWidth \/ wy <> NoWidth) -> method_ok m = true ->
  exists z' Kx Ky, broaden2d coeffs st r wx wy "gauss" m lowx lowy conv error fit
             = Ok (st ++ [mk2 (sx (get st r)) (sy (get st r)) (Some z')], length st) /\ length z' = length z /\ rect ny z' /\
  ((wx = NoWidth /\ untouched Kx) \/ exists w M, wx = Fixed w /\ shares Kx M /\ gaussian_of_fwhm w hx Kx M) /\
  ((wy = NoWidth /\ untouched Ky) \/ exists w M, wy = Fixed w /\ shares Ky M /\ gaussian_of_fwhm w hy Ky M) /\
  forall i j, (i < length z)%nat -> (j < ny)%nat -> cell z' i j =
    sumn ny (fun j' => sumn (length z) (fun i' => cell z i' j' * Kx (Z.of_nat i - Z.of_nat i')%Z) * Ky (Z.of_nat j - Z.of_nat j')%Z).
Proof. exact gauss_map. Qed.
Print Assumptions C77_gauss_map.

(** C77.  The same with Lorentzians; partial because the widths are too large by n/(n-1),
    n being the number of bins along the axis (see C76). *)
Theorem C77_lorentz_map_partial : forall coeffs st r z ny hx hy wx wy m lowx lowy conv error fit,
  sz (get st r) = Some z -> rect ny z -> (2 <= length z)%nat -> (2 <= ny)%nat -> 0 < hx -> 0 < hy ->
  even_axis hx (length z) (sx (get st r)) -> even_axis hy ny (sy (get st r)) ->
  (wx = NoWidth \/ exists w, wx = Fixed w /\ 0 < w) ->
  (wy = NoWidth \/ exists w, wy = Fixed w /\ 0 < w) -> (wx <> NoWidth \/ wy <> NoWidth) -> method_ok m = true ->
  exists z' Kx Ky, broaden2d coeffs st r wx wy "lorentz" m lowx lowy conv error fit
             = Ok (st ++ [mk2 (sx (get st r)) (sy (get st r)) (Some z')], length st) /\ length z' = length z /\ rect ny z' /\
  ((wx = NoWidth /\ untouched Kx) \/ exists w, wx = Fixed w /\ shares Kx (length z) /\
      lorentzian_of_fwhm (w * (INR (length z) / (INR (length z) - 1))) hx Kx (length z)) /\
  ((wy = NoWidth /\ untouched Ky) \/ exists w, wy = Fixed w /\ shares Ky ny /\ lorentzian_of_fwhm (w * (INR ny / (INR ny - 1))) hy Ky ny) /\
  forall i j, (i < length z)%nat -> (j < ny)%nat -> cell z' i j =
    sumn ny (fun j' => sumn (length z) (fun i' => cell z i' j' * Kx (Z.of_nat i - Z.of_nat i')%Z) * Ky (Z.of_nat j - Z.of_nat j')%Z).
Proof. exact lorentz_map. Qed.
Print Assumptions C77_lorentz_map_partial.
Example C77_map_meets : let st := [mk2 [0; 1] [0; 1; 2] (Some [[1; 2]; [3; 4]])] in
  sz (get st 0) = Some [[1; 2]; [3; 4]] /\ rect 2 [[1; 2]; [3; 4]] /\
  even_axis 1 2 (sx (get st 0)) /\ even_axis 1 2 (sy (get st 0)).
Proof.
  split; [reflexivity|]. split; [intros r [<-|[<-|[]]]; reflexivity|]. split; [exact even_01|exact even_edges_012].
Qed.

(** C77.  A function of the y value that is constant, on evenly spaced bin edges: every row
    is drawn with that width (raised to the lower limit, by default the bin width), each
    value counting as the intensity of its bin, up to half the number of bins away. *)
Theorem C77_function_y : forall coeffs st r z ny a h w shape sh m lowx lowy lim conv error fit sp s,
  sz (get st r) = Some z -> rect ny z -> z <> [] -> (1 <= ny)%nat -> 0 < h -> regular a h (ny + 1) (sy (get st r)) ->
  shape_of shape = Ok sh -> 0 < error -> get_spacing error sh fit = Ok sp ->
  sigma_function conv sh (fun _ => w) = Ok s -> 0 < Rmax (s 0) lim -> (lowy = Some lim \/ lowy = None /\ lim = h) ->
  exists z', broaden2d coeffs st r NoWidth (Varying (fun _ => w)) shape m lowx lowy conv error fit
             = Ok (st ++ [mk2 (sx (get st r)) (sy (get st r)) (Some z')], length st) /\ length z' = length z /\ rect ny z' /\
  forall i j, (i < length z)%nat -> (j < ny)%nat -> cell z' i j = by_bins sh (Rmax (s 0) lim) h h (nth i z []) ny j.
Proof. exact function_y. Qed.
Print Assumptions C77_function_y.

(** C77.  The same along x: columns instead of rows. *)
Theorem C77_function_x : forall coeffs st r z ny a h w shape sh m lowx lowy lim conv error fit sp s,
  sz (get st r) = Some z -> rect ny z -> z <> [] -> 0 < h -> regular a h (length z + 1) (sx (get st r)) ->
  shape_of shape = Ok sh -> 0 < error -> get_spacing error sh fit = Ok sp ->
  sigma_function conv sh (fun _ => w) = Ok s -> 0 < Rmax (s 0) lim -> (lowx = Some lim \/ lowx = None /\ lim = h) ->
  exists z', broaden2d coeffs st r (Varying (fun _ => w)) NoWidth shape m lowx lowy conv error fit
             = Ok (st ++ [mk2 (sx (get st r)) (sy (get st r)) (Some z')], length st) /\ length z' = length z /\ rect ny z' /\
  forall i j, (i < length z)%nat -> (j < ny)%nat ->
    cell z' i j = by_bins sh (Rmax (s 0) lim) h h (map (fun row => nth j row 0) z) (length z) i.
Proof. exact function_x. Qed.
Print Assumptions C77_function_x.
Example C77_function_meets : exists sp, get_spacing (/ 10 ^ 2) Gauss ChebyLog = Ok sp /\ 0 < Rmax 0 1.
Proof. destruct (gauss_accepts 2 ltac:(lia)) as [sp E]. exists sp. split; [exact E|]. rewrite Rmax_right; lra. Qed.

(** C77, refuted for axes of points: with three or more evenly spaced points the kernel is
    drawn in steps of half the spacing, so that it comes out twice as wide, and every value
    counts as the intensity of a bin too narrow by (n-1)/n.  Nothing is raised. *)
Theorem C77_function_points_refuted : forall coeffs st r z ny a h w shape sh m lowx lowy lim conv error fit sp s,
  sz (get st r) = Some z -> rect ny z -> z <> [] -> (3 <= ny)%nat -> 1 / 10 ^ 7 < h -> regular a h ny (sy (get st r)) ->
  shape_of shape = Ok sh -> 0 < error -> get_spacing error sh fit = Ok sp ->
  sigma_function conv sh (fun _ => w) = Ok s -> 0 < Rmax (s 0) lim -> (lowy = Some lim \/ lowy = None /\ lim = h) ->
  exists z', broaden2d coeffs st r NoWidth (Varying (fun _ => w)) shape m lowx lowy conv error fit
             = Ok (st ++ [mk2 (sx (get st r)) (sy (get st r)) (Some z')], length st) /\ length z' = length z /\ rect ny z' /\
  forall i j, (i < length z)%nat -> (j < ny)%nat ->
    cell z' i j = by_bins sh (Rmax (s 0) lim) ((INR ny - 1) * h / INR ny) (h / 2) (nth i z []) ny j.
Proof. exact function_y_points. Qed.
Print Assumptions C77_function_points_refuted.

(** C77.  Fixed widths come first, then the function of x, then that of y: one call does
    the same as the three calls one after the other. *)
Theorem C77_order : forall coeffs st r wx wy shape m lowx lowy conv error fit st' r', sz (get st r) <> None ->
  broaden2d coeffs st r wx wy shape m lowx lowy conv error fit = Ok (st', r') -> sz (get st' r') <> None ->
  exists st1 r1 st2 r2,
    broaden2d coeffs st r (fixed_only wx) (fixed_only wy) shape m lowx lowy conv error fit = Ok (st1, r1) /\
    broaden2d coeffs st1 r1 (function_only wx) NoWidth shape m lowx lowy conv error fit = Ok (st2, r2) /\
    broaden2d coeffs st2 r2 NoWidth (function_only wy) shape m lowx lowy conv error fit = Ok (st', r').
Proof. exact steps. Qed.
Print Assumptions C77_order.

(** C77.  With a non-zero width or a function the result is a new object: whatever is done
    to it in place, the original keeps its values.  No object is ever changed by the call. *)
Theorem C77_new_object_partial : forall coeffs st r wx wy shape m lowx lowy conv error fit st' r', (r < length st)%nat -> sz (get st r) <> None ->
  broaden2d coeffs st r wx wy shape m lowx lowy conv error fit = Ok (st', r') ->
  (forall q, (q < length st)%nat -> get st' q = get st q) /\
  (effective wx \/ effective wy -> forall k, get (imul st' r' k) r = get st r).
Proof.
  intros coeffs st r wx wy shape m lowx lowy conv error fit st' r' Hr Hz E.
  destruct (broaden2d_new _ _ _ _ _ _ _ _ _ _ _ _ _ _ Hr Hz E) as (X & F & _). split.
  - intros q Hq. apply extends_get; assumption.
  - intros Ef k. exact (imul_new st st' r r' k Hr X (F Ef)).
Qed.
Print Assumptions C77_new_object_partial.

(** C77, refuted: without a width, or with zero widths, the "new" spectrum is the original
    itself, so that scaling it in place changes the original. *)
Theorem C77_same_object_refuted : exists (st : store) r z, sz (get st r) = Some z /\ (r < length st)%nat /\
  forall coeffs shape m lowx lowy conv error fit, In shape ["gauss"; "lorentz"]%string ->
  exists st' r', broaden2d coeffs st r (Fixed 0) NoWidth shape m lowx lowy conv error fit = Ok (st', r') /\
  sz (get (imul st' r' 2) r) <> sz (get st r).
Proof. exact alias. Qed.
Print Assumptions C77_same_object_refuted.
