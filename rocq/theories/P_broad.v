(** Properties C35, C36, C56: interpolated variable-width broadening. *)
From Verif Require Import Base M_broad S_broad L_broad L_broad2 L_broad3 L_tight.
Open Scope R_scope.

(** C35.  Every point is drawn with two neighbouring kernel widths that bracket
    its own width, its weight being split between them: [a + b] is the full
    weight.  Partial: a point whose width is exactly the largest sample loses its
    upper share (b = 0), see the next theorem.  [n] is the number of steps from
    the smallest sample to the largest. *)
Theorem C35_weight_split_partial : forall coeffs bins pts error shape fit sp, 0 < error ->
  get_spacing error shape fit = Ok sp -> pts <> [] -> (forall p, In p pts -> 0 < pwidth p) ->
  increasing bins -> (2 <= length bins)%nat ->
  exists wmin wmax n y (k : point -> nat) (a b : point -> R),
    is_min wmin (map pwidth pts) /\ is_max wmax (map pwidth pts) /\ wmax <= sp ^ n * wmin /\
    interpolated_broadening coeffs bins pts error shape fit = Ok y /\ length y = (length bins - 1)%nat /\
    (forall p, In p pts ->
       sp ^ k p * wmin <= pwidth p < sp ^ S (k p) * wmin /\ (k p <= n)%nat /\
       (n <> 0%nat -> a p = polyval (coeffs sp) (pwidth p / (sp ^ k p * wmin)) * pweight p) /\
       ((n = 0%nat \/ k p < n)%nat -> a p + b p = pweight p) /\
       ((k p = n)%nat -> pwidth p = sp ^ n * wmin /\ b p = 0)) /\
    forall i, (i < length bins - 1)%nat ->
      nth i y 0 = Sum pts (fun p =>
        a p * peak shape bins (nth 1 bins 0 - nth 0 bins 0) (sp ^ k p * wmin) (px p) i
        + b p * peak shape bins (nth 1 bins 0 - nth 0 bins 0) (sp ^ S (k p) * wmin) (px p) i).
Proof. exact weight_split. Qed.
Print Assumptions C35_weight_split_partial.

(** C35, the remaining case: unless the fitted polynomial is exactly 1 at 1, a
    lone contributing point of the largest width is not drawn with its full
    weight. *)
Theorem C35_widest_point_partial : forall coeffs sp, get_spacing (/ 10 ^ 2) Lorentz ChebyLog = Ok sp ->
  polyval (coeffs sp) 1 <> 1 ->
  exists y, interpolated_broadening coeffs [0; 1; 2] [(1/2, 1, 0); (1/2, sp, 1)] (/ 10 ^ 2) Lorentz ChebyLog = Ok y /\
  nth 0 y 0 <> 1 * lorentzian sp 0.
Proof. exact widest_point. Qed.
Print Assumptions C35_widest_point_partial.

Example C35_nonvacuous : (exists sp, get_spacing (/ 10 ^ 2) Gauss ChebyLog = Ok sp) /\ increasing [0; 1; 2].
Proof. split; [apply gauss_accepts; lia|exact two_bins_inc]. Qed.

(** The spacing is always greater than one, so the samples are distinct. *)
Theorem C35_spacing_above_one : forall shape fit e s, 0 < e -> get_spacing e shape fit = Ok s -> 1 < s.
Proof. exact spacing_gt1. Qed.
Print Assumptions C35_spacing_above_one.

(** C36.  Gaussian kernels: a smaller error gives a smaller spacing, with either
    fit. *)
Theorem C36_gauss_monotone_partial : forall fit e1 e2 s1 s2, 0 < e1 -> e1 < e2 ->
  get_spacing e1 Gauss fit = Ok s1 -> get_spacing e2 Gauss fit = Ok s2 -> s1 < s2.
Proof. exact spacing_gauss_mono. Qed.
Print Assumptions C36_gauss_monotone_partial.

Example C36_nonvacuous : (exists s, get_spacing (/ 10 ^ 3) Gauss ChebyLog = Ok s) /\
  (exists s, get_spacing (/ 10 ^ 2) Gauss ChebyLog = Ok s) /\ / 10 ^ 3 < / 10 ^ 2.
Proof.
  split; [apply gauss_accepts; lia|]. split; [apply gauss_accepts; lia|].
  apply Rinv_lt_contravar; lra.
Qed.

(** C36, refuted for Lorentzian kernels: errors of 1e-2 and 1e-4 give the same
    spacing (the Chebyshev window [1, 1] has zero width). *)
Theorem C36_lorentz_refuted : exists e1 e2 s, 0 < e1 /\ e1 < e2 /\
  get_spacing e1 Lorentz ChebyLog = Ok s /\ get_spacing e2 Lorentz ChebyLog = Ok s.
Proof.
  exists (/ 10 ^ 4), (/ 10 ^ 2).
  destruct (lorentz_accepts 4 ltac:(lia)) as [s4 E4]. destruct (lorentz_accepts 2 ltac:(lia)) as [s2 E2].
  exists s4. split; [apply Rinv_0_lt_compat; lra|]. split; [apply Rinv_lt_contravar; lra|]. split; [exact E4|].
  rewrite (lorentz_constant _ _ E4), <- (lorentz_constant _ _ E2). exact E2.
Qed.
Print Assumptions C36_lorentz_refuted.

Theorem C36_lorentz_constant_refuted : forall e s, get_spacing e Lorentz ChebyLog = Ok s -> s = 199770784 / 10 ^ 8.
Proof. exact lorentz_constant. Qed.
Print Assumptions C36_lorentz_constant_refuted.

(** C56.  When all widths agree the interpolated method draws the exact kernel:
    each point adds its weight times the kernel at the distance between bins.
    Partial: only up to half the number of bins away. *)
Theorem C56_single_width_exact_partial : forall coeffs bins pts error shape fit sp w, 0 < error ->
  get_spacing error shape fit = Ok sp -> pts <> [] -> 0 < w -> (forall p, In p pts -> pwidth p = w) ->
  increasing bins -> (2 <= length bins)%nat ->
  exists y, interpolated_broadening coeffs bins pts error shape fit = Ok y /\ length y = (length bins - 1)%nat /\
  forall i, (i < length bins - 1)%nat ->
    nth i y 0 = Sum pts (fun p => pweight p * peak shape bins (nth 1 bins 0 - nth 0 bins 0) w (px p) i).
Proof. exact single_width. Qed.
Print Assumptions C56_single_width_exact_partial.

Theorem C56_peak_is_kernel : forall shape bins bw s x i j,
  increasing bins -> (j < length bins - 1)%nat -> in_bin bins j x = true -> (bdist i j <= (length bins - 1) / 2)%nat ->
  peak shape bins bw s x i = kernel_fun shape s ((INR i - INR j) * bw).
Proof.
  intros shape bins bw s x i j Hinc Hj Hin Hd. rewrite (peak_in shape bins bw s x i j Hinc Hj Hin).
  rewrite (proj2 (Nat.leb_le _ _) Hd). reflexivity.
Qed.
Print Assumptions C56_peak_is_kernel.

(** C56, refuted beyond half the range: ten unit bins, one peak in the first;
    the last bin gets exactly 0 although the kernel is positive there. *)
Theorem C56_far_tail_refuted : exists bins pts e sp, get_spacing e Lorentz ChebyLog = Ok sp /\
  (forall p, In p pts -> pwidth p = 1) /\
  forall coeffs, exists y, interpolated_broadening coeffs bins pts e Lorentz ChebyLog = Ok y /\
    nth 9 y 0 = 0 /\ 0 < kernel_fun Lorentz 1 ((INR 9 - INR 0) * 1).
Proof.
  destruct (lorentz_accepts 2 ltac:(lia)) as [sp E]. exists ten_bins, [(1/2, 1, 1)], (/ 10 ^ 2), sp.
  split; [exact E|]. split; [intros p [<-|[]]; reflexivity|]. intros coeffs. exact (far_tail coeffs Lorentz sp E).
Qed.
Print Assumptions C56_far_tail_refuted.

(** C56.  The width is the full width at half maximum: half that distance away from the
    centre the kernel has half its peak value. *)
Theorem C56_width_is_fwhm : forall shape w s x, sigma_function Fwhm shape w = Ok s -> 0 < w x ->
  kernel_fun shape (s x) (w x / 2) = kernel_fun shape (s x) 0 / 2.
Proof. exact half_maximum. Qed.
Print Assumptions C56_width_is_fwhm.

(** C56.  The drawn width is the requested one, raised to the given lower limit or, by
    default, to the widest bin. *)
Theorem C56_lower_limit : forall coeffs bins xw w (lower : option R) lim conv error shape fit sp s, 0 < error ->
  get_spacing error shape fit = Ok sp -> xw <> [] -> increasing bins -> (2 <= length bins)%nat ->
  sigma_function conv shape (fun _ => w) = Ok s -> 0 < Rmax (s 0) lim ->
  (lower = Some lim \/ lower = None /\ is_max lim (map (fun i => nth (S i) bins 0 - nth i bins 0) (seq 0 (length bins - 1)))) ->
  exists y, variable_width_broadening coeffs bins xw (fun _ => w) lower conv error shape fit = Ok y /\ length y = (length bins - 1)%nat /\
  forall i, (i < length bins - 1)%nat ->
    nth i y 0 = Sum xw (fun p => snd p * peak shape bins (nth 1 bins 0 - nth 0 bins 0) (Rmax (s 0) lim) (fst p) i).
Proof. exact widths_floor. Qed.
Print Assumptions C56_lower_limit.
