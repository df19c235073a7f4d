(** More of C76 (width functions in one dimension) and C79 (weighted lines, Lorentzian
    broadening after --adaptive, refusals). *)
From Coq Require Import String.
From Verif Require Import Base Cpx Vec3 M_cell M_path M_broad S_broad M_dos M_bins M_coll M_fixed M_clidos S_coll S_bins S_dos S_fixed S_clidos S_sphere
  L_broad2 L_clidos L_clidos2 L_weight L_clidos3.
Open Scope R_scope.

(** C76.  A width function that is constant, on evenly spaced bin edges: the line is drawn
    with that width (raised to the lower limit, by default the bin width), each value
    counting as the intensity of its bin, up to half the number of bins away. *)
Theorem C76_function : forall coeffs a h x y w shape sh m lower lim conv error fit sp s, 0 < h -> (1 <= length y)%nat -> regular a h (length y + 1) x ->
  shape_of shape = Ok sh -> 0 < error -> get_spacing error sh fit = Ok sp ->
  sigma_function conv sh (fun _ => w) = Ok s -> 0 < Rmax (s 0) lim -> (lower = Some lim \/ lower = None /\ lim = h) ->
  exists out, broaden1d coeffs x y (Varying (fun _ => w)) shape m lower conv error fit = Ok (false, Some out) /\ length out = length y /\
  forall j, (j < length y)%nat -> nth j out 0 = by_bins sh (Rmax (s 0) lim) h h y (length y) j.
Proof. exact function_1d. Qed.
Print Assumptions C76_function.

(** C76, refuted for evenly spaced points: any width function is refused, because the bins
    built around the points are not even. *)
Theorem C76_function_points_refuted : forall coeffs a h x y f shape m lower conv error fit, 0 < h -> (3 <= length y)%nat -> regular a h (length y) x ->
  broaden1d coeffs x y (Varying f) shape m lower conv error fit = Err (BinsErr NotRegular).
Proof. exact function_points. Qed.
Print Assumptions C76_function_points_refuted.
Example C76_function_meets : regular 0 1 4 [0; 1; 2; 3] /\ exists sp, get_spacing (/ 10 ^ 2) Gauss ChebyLog = Ok sp /\ sigma_function Std Gauss (fun _ => 2) = Ok (fun _ => 2) /\ 0 < Rmax 2 1.
Proof.
  split; [split; [reflexivity|]; intros i Hi; destruct i as [|[|[|[|i]]]]; cbn; try lra; lia|].
  destruct (gauss_accepts 2 ltac:(lia)) as [sp E]. exists sp. split; [exact E|]. split; [reflexivity|]. pose proof (Rmax_l 2 1). lra.
Qed.

(** C79.  --weighting by cross sections, with no broadening option and no --pdos: the value
    times the bin width is --scale times the sum over the atoms of the atom's cross section
    over its relative mass times its share of the modes of the bin. *)
Theorem C79_weighted : forall coeffs k wmin room src a d ww bins ls, 0 < k -> (1 <= a_ebins a)%nat ->
  (match d with Frequencies _ => True | Modes e => (0 < n_atoms e)%nat | ForceConsts _ on_grid _ => forall g, (0 < n_atoms (on_grid g))%nat end) ->
  weighting_named (a_weighting a) ww -> ww <> None -> a_pdos a = None -> a_adaptive a = false -> a_inst a = None -> a_eb a = None ->
  dos_tool coeffs k wmin room src a d = Ok (bins, ls) ->
  exists e y (f : nat -> R), (match d with Frequencies _ => False | Modes e' => e = e'
               | ForceConsts cell on_grid _ => exists g, grid_spec cell (a_grid a) (a_spacing a) = Some g /\ e = on_grid g end) /\
  ls = [Some y] /\ length bins = (a_ebins a + 1)%nat /\ length y = a_ebins a /\
  (forall b, (b < n_atoms e)%nat -> atom_factor ww (coherent_cs src) (incoherent_cs src) (element src) (mass src) (n_atoms e) b (f b)) /\
  forall i, (i < a_ebins a)%nat -> nth i bins 0 < nth (S i) bins 0 /\ nth i y 0 * (nth (S i) bins 0 - nth i bins 0)
    = factor (a_scale a) * Sum (seq 0 (n_atoms e)) (fun b => f b * wmean (et e) (atom_part k e (nth i bins 0) (nth (S i) bins 0) b)).
Proof. exact weighted_line. Qed.
Print Assumptions C79_weighted.
(** ... and there is a line whenever every cross section is known. *)
Theorem C79_weighted_runs : forall coeffs k wmin room src a e ww bins, 0 < k -> (1 <= a_ebins a)%nat -> (0 < n_atoms e)%nat ->
  weighting_named (a_weighting a) ww -> ww <> None -> a_pdos a = None -> a_adaptive a = false -> a_inst a = None -> a_eb a = None ->
  energy_bins k room a (et e) = Ok bins -> total_weight (et e) <> 0 ->
  (forall v b, ww = Some v -> (b < n_atoms e)%nat -> cross_section v (coherent_cs src) (incoherent_cs src) (element src b) <> None) ->
  exists ls, dos_tool coeffs k wmin room src a (Modes e) = Ok (bins, ls).
Proof. exact weighted_runs. Qed.
Print Assumptions C79_weighted_runs.
Example C79_weighted_meets : forall coeffs wmin room, exists ls,
  dos_tool coeffs 1 wmin room salt incoherent_args (Modes one_peak) = Ok (linspace (3 / 4) (7 / 4) 3, ls) /\
  weighting_named (a_weighting incoherent_args) (Some Incoherent).
Proof.
  intros coeffs wmin room. assert (W : weighting_named (a_weighting incoherent_args) (Some Incoherent)) by (right; right; left; split; reflexivity).
  assert (T : total_weight (et one_peak) <> 0) by (unfold total_weight, Sum; cbn; lra).
  destruct (weighted_runs coeffs 1 wmin room salt incoherent_args one_peak (Some Incoherent) (linspace (3 / 4) (7 / 4) 3)) as (ls & E);
    [lra|cbn; lia|cbn; lia|exact W|discriminate|reflexivity..|apply peak_bins; reflexivity|exact T|intros v b E _; injection E as <-; discriminate|].
  exists ls. split; [exact E|exact W].
Qed.

(** C79.  --adaptive with --shape lorentz and --instrument-broadening W: the line of
    --adaptive alone is broadened once more, with a Lorentzian of full width W n/(n-1),
    n being the number of bins.  Partial because of that factor. *)
Theorem C79_adaptive_lorentz_partial : forall coeffs k wmin room src a cell on_grid widths W, 0 < W -> (2 <= a_ebins a)%nat ->
  a_adaptive a = true -> a_inst a = None -> a_eb a = None -> a_shape a = "lorentz"%string ->
  forall bins y, dos_tool coeffs k wmin room src a (ForceConsts cell on_grid widths) = Ok (bins, [Some y]) -> length y = a_ebins a ->
  exists K z, dos_tool coeffs k wmin room src (set_inst a (Some [W])) (ForceConsts cell on_grid widths) = Ok (bins, [Some z]) /\ length z = length y /\ shares K (length y) /\
  lorentzian_of_fwhm (W * (INR (length y) / (INR (length y) - 1))) (nth 1 bins 0 - nth 0 bins 0) K (length y) /\
  forall i, (i < length y)%nat -> nth i z 0 = spread K y i.
Proof. exact lorentz_line. Qed.
Print Assumptions C79_adaptive_lorentz_partial.
Example C79_adaptive_lorentz_meets : forall coeffs wmin room src cell, exists y,
  dos_tool coeffs 1 wmin room src lorentz_args (ForceConsts cell (fun _ => one_peak) (fun _ _ _ => 0)) = Ok (linspace (3 / 4) (7 / 4) 3, [Some y]) /\ length y = a_ebins lorentz_args.
Proof.
  intros. assert (T : total_weight (et one_peak) <> 0) by (unfold total_weight, Sum; cbn; lra).
  apply (lorentz_runs coeffs 1 wmin room src lorentz_args cell (fun _ => one_peak) (fun _ _ _ => 0) (1, 1, 1)%Z); [cbn; lia|reflexivity..|apply peak_bins; reflexivity|exact T].
Qed.

(** C79.  What is refused, and how: frequencies without eigenvectors when a weighting or
    --pdos is asked for; --adaptive without force constants. *)
Theorem C79_refused : forall coeffs k wmin room src a,
  (forall t, a_weighting a <> "dos"%string \/ a_pdos a <> None -> dos_tool coeffs k wmin room src a (Frequencies t) = Err NeedEigenvectors) /\
  (forall t, a_weighting a = "dos"%string -> a_pdos a = None -> a_adaptive a = true -> dos_tool coeffs k wmin room src a (Frequencies t) = Err NeedForceConstants) /\
  (forall e, a_adaptive a = true -> dos_tool coeffs k wmin room src a (Modes e) = Err NeedForceConstants).
Proof.
  intros coeffs k wmin room src a. split; [|split].
  - intros t H. apply refused; [|reflexivity]. destruct (String.eqb_spec (a_weighting a) "dos") as [E|E]; [|reflexivity].
    destruct H as [H|H]; [contradiction|]. destruct (a_pdos a); [reflexivity|congruence].
  - intros t E1 E2 E3. unfold dos_tool. rewrite E1, E2, E3. reflexivity.
  - intros e E. apply refused; [reflexivity|exact E|reflexivity].
Qed.
Print Assumptions C79_refused.
