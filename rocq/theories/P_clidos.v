(** C78 (the lines of a PDOS plot) and C79 (the options of euphonic-dos). *)
From Coq Require Import String.
From Verif Require Import Base Cpx Vec3 M_cell M_path M_broad M_dos M_coll M_fixed M_clidos S_coll S_dos S_fixed S_clidos L_clidos L_clidos2.
Open Scope R_scope.

(** C78.  Without --pdos one line is drawn: the sum over all atoms. *)
Theorem C78_total : forall bins lines types wt, types <> [] -> length lines = length types ->
  (forall l m, In l lines -> In m lines -> length l = length m) ->
  exists s, arrange_pdos (pdos_collection bins lines types wt) None = Ok (OneSpectrum s) /\ s_axes s = [bins] /\
  line_sum lines (seq 0 (length types)) (s_data s).
Proof. intros bins lines types wt A B C. exact (no_option bins lines types wt A B C). Qed.
Print Assumptions C78_total.

(** C78.  With --pdos and no names, a crystal of several species gets a line "Total", the
    sum over all atoms, and then one line per species labelled with its name: the sum
    over the atoms of that species, in the order in which the species first appear. *)
Theorem C78_all_species_partial : forall bins lines types wt, types <> [] -> length lines = length types ->
  (forall l m, In l lines -> In m lines -> length l = length m) -> (exists x y, In x types /\ In y types /\ x <> y) ->
  exists c sp, arrange_pdos (pdos_collection bins lines types wt) (Some []) = Ok (Several c) /\ species_order types sp /\
  clen c = S (length sp) /\
  (exists d, drawn c 0 bins d "Total" /\ line_sum lines (seq 0 (length types)) d) /\
  forall k, (k < length sp)%nat -> exists d, drawn c (S k) bins d (nth k sp ""%string) /\
    line_sum lines (atoms_of types (nth k sp ""%string)) d.
Proof. intros bins lines types wt A B C D. exact (every_species bins lines types wt A B C D). Qed.
Print Assumptions C78_all_species_partial.

(** C78.  With names, only those species that some atom has are drawn, in the order of
    the request and without a total; if there is none the tool stops with an error. *)
Theorem C78_chosen_partial : forall bins lines types wt names, types <> [] -> length lines = length types ->
  (forall l m, In l lines -> In m lines -> length l = length m) -> (exists x y, In x types /\ In y types /\ x <> y) -> names <> [] ->
  (present types names = [] -> arrange_pdos (pdos_collection bins lines types wt) (Some names) = Err (CollErr NoMatch)) /\
  (present types names <> [] -> exists c, arrange_pdos (pdos_collection bins lines types wt) (Some names) = Ok (Several c) /\
     clen c = length (present types names) /\
     forall k, (k < length (present types names))%nat -> exists d, drawn c k bins d (nth k (present types names) ""%string) /\
       line_sum lines (atoms_of types (nth k (present types names) ""%string)) d).
Proof. intros bins lines types wt names A B C D E. exact (chosen_species bins lines types wt A B C D names E). Qed.
Print Assumptions C78_chosen_partial.
Example C78_meets : let types := ["Na"; "Cl"; "Na"]%string in let lines := [[1; 2]; [3; 4]; [5; 6]] in
  types <> [] /\ length lines = length types /\ (forall l m, In l lines -> In m lines -> length l = length m) /\
  (exists x y, In x types /\ In y types /\ x <> y) /\ present types ["Cl"; "H"]%string = ["Cl"%string] /\
  line_sum lines (atoms_of types "Na") [6; 8].
Proof.
  cbv zeta. split; [discriminate|]. split; [reflexivity|]. split; [intros l m Hl Hm; cbn in Hl, Hm; intuition (subst; reflexivity)|].
  split; [exists "Na"%string, "Cl"%string; cbn; split; [tauto|split; [tauto|discriminate]]|]. split; [reflexivity|].
  split; [intros l Hl; cbn in Hl; intuition (subst; reflexivity)|]. intros j. cbn [atoms_of filter seq length nth String.eqb Ascii.eqb Bool.eqb].
  unfold Sum. cbn. destruct j as [|[|[|j]]]; cbn; lra.
Qed.

(** C78.  The lines that are arranged are the PDOS of each atom, and with no broadening
    they reach the plot unchanged but for the factor of --scale. *)
Theorem C78_drawn : forall coeffs k wmin room src a e bins ls, (1 <= a_ebins a)%nat -> a_weighting a = "dos"%string -> a_pdos a <> None ->
  a_adaptive a = false -> a_inst a = None -> a_eb a = None ->
  dos_tool coeffs k wmin room src a (Modes e) = Ok (bins, ls) ->
  exists lines o, calculate_pdos k bins e None wmin (a_method a) None = Ok lines /\ length lines = n_atoms e /\
  (forall l m, In l lines -> In m lines -> length l = length m) /\
  arrange_pdos (pdos_collection bins lines (map (symbol src) (seq 0 (n_atoms e))) None) (a_pdos a) = Ok o /\
  ls = map (fun l => Some (map (fun v => v * factor (a_scale a)) l)) (lines_of o).
Proof. exact pdos_drawn. Qed.
Print Assumptions C78_drawn.

(** C78, refuted for crystals of one species: --pdos never draws anything, whatever the
    other options are. *)
Theorem C78_one_species_refuted : forall coeffs k wmin room src a d x names, (1 <= a_ebins a)%nat -> (forall i, symbol src i = x) ->
  a_pdos a = Some names ->
  (match d with Frequencies _ => True | Modes e => (0 < n_atoms e)%nat | ForceConsts _ on_grid _ => forall g, (0 < n_atoms (on_grid g))%nat end) ->
  forall r, dos_tool coeffs k wmin room src a d <> Ok r.
Proof. exact elemental_tool. Qed.
Print Assumptions C78_one_species_refuted.
Theorem C78_one_species_error_refuted : forall bins lines types wt x names, types <> [] -> length lines = length types ->
  (forall l m, In l lines -> In m lines -> length l = length m) -> (forall y, In y types -> y = x) ->
  arrange_pdos (pdos_collection bins lines types wt) (Some names) = Err NoLineData.
Proof. intros bins lines types wt x names A B C D. exact (elemental bins lines types wt A B C x names D). Qed.
Print Assumptions C78_one_species_error_refuted.

(** C79.  With no broadening option the line counts modes: its value times the bin width
    is the average number of modes of the bin, as a share of three times --scale. *)
Theorem C79_plain : forall coeffs k wmin room src a d bins ls, 0 < k -> (1 <= a_ebins a)%nat ->
  a_weighting a = "dos"%string -> a_pdos a = None -> a_adaptive a = false -> a_inst a = None -> a_eb a = None ->
  dos_tool coeffs k wmin room src a d = Ok (bins, ls) ->
  exists t y, (match d with Frequencies t' => t = t' | Modes e => t = et e
               | ForceConsts cell on_grid _ => exists g, grid_spec cell (a_grid a) (a_spacing a) = Some g /\ t = et (on_grid g) end) /\
  ls = [Some y] /\ length bins = (a_ebins a + 1)%nat /\ length y = a_ebins a /\
  forall i, (i < a_ebins a)%nat -> nth i bins 0 < nth (S i) bins 0 /\ nth i y 0 * (nth (S i) bins 0 - nth i bins 0)
    = factor (a_scale a) * (3 / INR (nm t) * wmean t (modes_in k t (nth i bins 0) (nth (S i) bins 0))).
Proof. exact plain_line. Qed.
Print Assumptions C79_plain.

(** C79.  --instrument-broadening W without --adaptive draws the same line with every bin
    shared out by a Gaussian of full width at half maximum W. *)
Theorem C79_fixed_width : forall coeffs k wmin room src a d W, 0 < k -> (2 <= a_ebins a)%nat -> 0 < W ->
  a_weighting a = "dos"%string -> a_pdos a = None -> a_adaptive a = false -> a_inst a = None -> a_eb a = None -> a_shape a = "gauss"%string ->
  forall bins y, dos_tool coeffs k wmin room src a d = Ok (bins, [Some y]) -> nth 1 bins 0 - nth 0 bins 0 < 10 ^ 14 * W ->
  exists K M z, dos_tool coeffs k wmin room src (set_inst a (Some [W])) d = Ok (bins, [Some z]) /\ length z = length y /\ shares K M /\
  gaussian_of_fwhm W (nth 1 bins 0 - nth 0 bins 0) K M /\ forall i, (i < length y)%nat -> nth i z 0 = spread K y i.
Proof. exact fixed_line. Qed.
Print Assumptions C79_fixed_width.

(** C79.  --adaptive: every mode is drawn as a Gaussian at its energy.  Its standard
    deviation is the mode's own width times --adaptive-scale, in quadrature with the
    polynomial of --instrument-broadening, and at least [wmin].  Partial: the documented
    meaning of the polynomial is a full width at half maximum. *)
Theorem C79_adaptive_partial : forall coeffs k wmin room src a cell on_grid widths s bins ls, 0 < k -> 0 < wmin -> (1 <= a_ebins a)%nat ->
  a_weighting a = "dos"%string -> a_pdos a = None -> a_adaptive a = true -> a_method a = Reference -> a_shape a = "gauss"%string -> a_eb a = None ->
  a_ascale a = None /\ s = 1 \/ a_ascale a = Some s /\ s <> 0 ->
  dos_tool coeffs k wmin room src a (ForceConsts cell on_grid widths) = Ok (bins, ls) ->
  exists g y, grid_spec cell (a_grid a) (a_spacing a) = Some g /\ ls = [Some y] /\ length bins = (a_ebins a + 1)%nat /\ length y = a_ebins a /\
  let t := et (on_grid g) in
  forall i, (i < a_ebins a)%nat -> nth i y 0 = factor (a_scale a) * wmean t (fun q => Sum (seq 0 (nm t)) (fun m =>
    3 / INR (nm t) * gaussian (drawn_sd s (a_inst a) (k * wmin) (k * widths g q m) (k * freq t q m)) (middle bins i - k * freq t q m))).
Proof.
  intros coeffs k wmin room src a cell on_grid widths s bins ls Hk Hw Hn A B C D E F G H.
  destruct (adaptive_line coeffs k wmin room src a cell on_grid widths bins ls Hk Hw Hn A B C D E F H) as (g & y & P1 & P2 & P3 & P4 & P5).
  exists g, y. split; [exact P1|]. split; [exact P2|]. split; [exact P3|]. split; [exact P4|]. cbv zeta in *. intros i Hi. rewrite (P5 i Hi).
  destruct G as [[-> ->] | [-> Ns]]; [reflexivity|]. destruct (Reqb_spec s 0) as [Z|_]; [contradiction|reflexivity].
Qed.
Print Assumptions C79_adaptive_partial.

(** C79, refuted: with --adaptive the width of --instrument-broadening is documented as a
    full width at half maximum, but half that width away from a sharp mode the line still
    has more than seven eighths of its height. *)
Theorem C79_instrument_width_refuted : forall coeffs wmin room src cell, 0 < wmin -> wmin <= 1 ->
  exists a on_grid bins y, a_adaptive a = true /\ a_inst a = Some [1] /\
  dos_tool coeffs 1 wmin room src a (ForceConsts cell on_grid (fun _ _ _ => 0)) = Ok (bins, [Some y]) /\
  (forall g q m, freq (et (on_grid g)) q m = 1) /\
  middle bins 0 = 1 /\ middle bins 1 = 1 + 1 / 2 /\ 0 < nth 0 y 0 /\ 7 / 8 * nth 0 y 0 < nth 1 y 0.
Proof.
  intros coeffs wmin room src cell H0 H1. destruct (wide_peak coeffs wmin room src cell H0 H1) as (bins & y & E & M0 & M1 & P & V).
  exists half_width_args, (fun _ => one_peak), bins, y. repeat (split; [first [reflexivity|assumption]|]).
  rewrite V. apply Rmult_lt_compat_r; [exact P|exact above_half].
Qed.
Print Assumptions C79_instrument_width_refuted.

(** C79, refuted: --adaptive-scale 0 is ignored. *)
Theorem C79_zero_scale_refuted : forall coeffs k wmin room src a d, a_eb a = None ->
  dos_tool coeffs k wmin room src (set_ascale a (Some 0)) d = dos_tool coeffs k wmin room src (set_ascale a None) d.
Proof. exact zero_scale. Qed.
Print Assumptions C79_zero_scale_refuted.

(** C79.  --energy-broadening stands for --adaptive-scale if --adaptive is given and there
    is a single number, and for --instrument-broadening otherwise; giving it together with
    the option it stands for is refused. *)
Theorem C79_alias : forall coeffs k wmin room src a d,
  let tool := fun a' => dos_tool coeffs k wmin room src a' d in
  (forall w, a_adaptive a = true -> a_ascale a = None -> a_eb a = None -> tool (set_eb a (Some [w])) = tool (set_ascale a (Some w))) /\
  (forall l, l <> [] -> a_adaptive a = false \/ (2 <= length l)%nat -> a_inst a = None -> a_eb a = None ->
     tool (set_eb a (Some l)) = tool (set_inst a (Some l))) /\
  (forall w r, a_eb a = Some (w :: r) -> is_force d = true ->
     (a_adaptive a = true -> r = [] -> a_ascale a <> None -> tool a = Err ScaleTwice) /\
     (a_adaptive a = false \/ r <> [] -> a_inst a <> None -> tool a = Err WidthTwice)).
Proof.
  intros coeffs k wmin room src a d tool. split; [|split].
  - intros w A B C. exact (eb_scale coeffs k wmin room src a d w A B C).
  - intros l A B C D. exact (eb_inst coeffs k wmin room src a d l A B C D).
  - intros w r A B. exact (eb_twice coeffs k wmin room src a d w r A B).
Qed.
Print Assumptions C79_alias.
Example C79_meets : forall room, energy_bins 1 room half_width_args (et one_peak) = Ok (linspace (3 / 4) (7 / 4) 3) /\ total_weight (et one_peak) = 1.
Proof. intros room. split; [exact (half_width_bins room)|]. unfold total_weight, Sum. cbn. lra. Qed.
