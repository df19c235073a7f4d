(** Lemmas: constant width functions in one dimension (C76); weighted lines, Lorentzian
    broadening after --adaptive, and refusals of euphonic-dos (C79). *)
From Coq Require Import String.
From Verif Require Import Base Cpx Vec3 M_cell M_path M_broad S_broad M_dos M_bins M_coll M_fixed M_clidos S_coll S_bins S_dos S_fixed S_clidos S_sphere
  L_util L_dos L_dos2 L_bins L_tight L_fixed L_fixed2 L_fixed5 L_clidos L_clidos2 L_sphere L_weight L_powder.
Open Scope R_scope.

Lemma function_1d coeffs a h x y w shape sh m lower lim conv error fit sp s : 0 < h -> (1 <= length y)%nat -> regular a h (length y + 1) x ->
  shape_of shape = Ok sh -> 0 < error -> get_spacing error sh fit = Ok sp ->
  sigma_function conv sh (fun _ => w) = Ok s -> 0 < Rmax (s 0) lim -> (lower = Some lim \/ lower = None /\ lim = h) ->
  exists out, broaden1d coeffs x y (Varying (fun _ => w)) shape m lower conv error fit = Ok (false, Some out) /\ length out = length y /\
  forall j, (j < length y)%nat -> nth j out 0 = by_bins sh (Rmax (s 0) lim) h h y (length y) j.
Proof.
  intros Hh Hn Rg Sh He Hs Es Hp Hl. destruct (even_edges a h _ x Hh Hn Rg) as (Inc & Ee & c & Ec & Lc & Hin & S1 & Mx & D).
  destruct Rg as [L R]. unfold broaden1d.
  assert (Ar : assert_regular_bins regular_rtol 0 (length y) x = Ok tt).
  { apply (regular_check (length y) x L ltac:(lia)). intros i Hi. rewrite S1, !R by lia. rewrite S_INR.
    match goal with |- Rabs ?t <= _ => replace t with 0 by ring end. rewrite Rabs_R0. pose proof (Rabs_pos h). lra. }
  rewrite Ar, Ee, Ec, Sh. cbn [lift]. rewrite D. replace (hd 0 (repeat h (length y))) with h by (destruct (length y); [lia|reflexivity]).
  destruct (vrow coeffs x c y h w (length y) lower lim conv error sh fit sp s He Hs Inc) as (o & Eo & Lo & No); try assumption; try reflexivity; try lia.
  - destruct Hl as [->|[-> ->]]; [left; reflexivity|right; split; [reflexivity|exact Mx]].
  - rewrite Eo. cbn [liftb]. exists o. split; [reflexivity|]. split; [exact Lo|]. intros j Hj. rewrite (No j Hj), S1. reflexivity.
Qed.

Lemma function_points coeffs a h x y f shape m lower conv error fit : 0 < h -> (3 <= length y)%nat -> regular a h (length y) x ->
  broaden1d coeffs x y (Varying f) shape m lower conv error fit = Err (BinsErr NotRegular).
Proof.
  intros Hh Hn Rg. unfold broaden1d. rewrite (regular_centres_rejected a h _ x Hh Hn Rg). cbn [lift]. reflexivity.
Qed.

Lemma refused coeffs k wmin room src a d :
  (negb (String.eqb (a_weighting a) "dos" && match a_pdos a with None => true | _ => false end) = true -> has_evecs d = false ->
   dos_tool coeffs k wmin room src a d = Err NeedEigenvectors) /\
  (has_evecs d = true -> a_adaptive a = true -> is_force d = false -> dos_tool coeffs k wmin room src a d = Err NeedForceConstants).
Proof.
  unfold dos_tool. split.
  - intros -> ->. reflexivity.
  - intros -> -> ->. rewrite andb_false_r. reflexivity.
Qed.

(** The table the lines come from. *)
Lemma modes_plain k a s inst d e w : a_adaptive a = false -> modes_of k a s inst d = Ok (e, w) -> w = None /\
  match d with Frequencies t => e = no_evecs t | Modes e' => e = e'
  | ForceConsts cell on_grid _ => exists g, grid_spec cell (a_grid a) (a_spacing a) = Some g /\ e = on_grid g end.
Proof.
  intros Ha. unfold modes_of. destruct d as [t|e'|cell g0 wd].
  - intros E. injection E as <- <-. split; reflexivity.
  - intros E. injection E as <- <-. split; reflexivity.
  - destruct (grid_spec _ _ _) as [g|]; [|discriminate]. rewrite Ha. intros E. injection E as <- <-. split; [reflexivity|]. exists g. split; reflexivity.
Qed.
Lemma any_method k bins e element M m1 m2 wmin w cs :
  calculate_pdos_weighted k bins e element M None wmin m1 w cs = calculate_pdos_weighted k bins e element M None wmin m2 w cs.
Proof. reflexivity. Qed.

Lemma weighted_line coeffs k wmin room src a d ww bins ls : 0 < k -> (1 <= a_ebins a)%nat ->
  (match d with Frequencies _ => True | Modes e => (0 < n_atoms e)%nat | ForceConsts _ on_grid _ => forall g, (0 < n_atoms (on_grid g))%nat end) ->
  weighting_named (a_weighting a) ww -> ww <> None -> a_pdos a = None -> a_adaptive a = false -> a_inst a = None -> a_eb a = None ->
  dos_tool coeffs k wmin room src a d = Ok (bins, ls) ->
  exists e y (f : nat -> R), (match d with Frequencies _ => False | Modes e' => e = e'
               | ForceConsts cell on_grid _ => exists g, grid_spec cell (a_grid a) (a_spacing a) = Some g /\ e = on_grid g end) /\
  ls = [Some y] /\ length bins = (a_ebins a + 1)%nat /\ length y = a_ebins a /\
  (forall b, (b < n_atoms e)%nat -> atom_factor ww (coherent_cs src) (incoherent_cs src) (element src) (mass src) (n_atoms e) b (f b)) /\
  forall i, (i < a_ebins a)%nat -> nth i bins 0 < nth (S i) bins 0 /\ nth i y 0 * (nth (S i) bins 0 - nth i bins 0)
    = factor (a_scale a) * Sum (seq 0 (n_atoms e)) (fun b => f b * wmean (et e) (atom_part k e (nth i bins 0) (nth (S i) bins 0) b)).
Proof.
  intros Hk Hn Hd Hw Hs Ep Ea Ei Ee. destruct (named _ _ Hw) as (_ & wo & Ewo & Eww).
  assert (Nd : String.eqb (a_weighting a) "dos" = false) by (destruct Hw as [[_ ->] | [[-> _] | [[-> _] | [-> _]]]]; [congruence|reflexivity..]).
  unfold dos_tool, resolve. rewrite Ep, Ea, Ei, Ee, Nd. cbn [andb negb]. destruct (has_evecs d) eqn:Hv; [|discriminate]. cbn [negb].
  destruct (modes_of k a (a_ascale a) None d) as [[e w]|] eqn:Em; [|discriminate]. destruct (modes_plain _ _ _ _ _ _ _ Ea Em) as [-> De].
  assert (Ne : (0 < n_atoms e)%nat) by (destruct d as [t|e'|cl g0 wd]; [discriminate|subst; exact Hd|destruct De as (g & _ & ->); apply Hd]).
  destruct (energy_bins k room a (et e)) as [b|] eqn:Eb; [|discriminate]. destruct (bins_inc _ _ _ _ _ Eb) as [Lb Ib].
  unfold dos_lines. rewrite Nd, Ep. cbn [andb]. rewrite Ewo, Eww.
  destruct (calculate_pdos_weighted _ _ _ _ _ _ _ _ _ _) as [lines|] eqn:El; [|discriminate]. rewrite (any_method _ _ _ _ _ _ Reference) in El.
  destruct (pdos_atoms (mass src) wmin k e (element src) ww (coherent_cs src) (incoherent_cs src) b lines Hk (incr_of_steps _ Ib) ltac:(lia) El) as [Ll Na].
  assert (Lw : forall l, In l lines -> length l = a_ebins a).
  { intros l I. destruct (In_nth _ _ [] I) as (i & Hi & <-). destruct (Na i ltac:(lia)) as (f & _ & Lf & _). lia. }
  destruct (no_option b lines (map (symbol src) (seq 0 (n_atoms e))) wo) as (s & Es & _ & Ls & Ls').
  { intros E. apply (f_equal (@List.length string)) in E. rewrite map_length, seq_length in E. cbn in E. lia. }
  { rewrite map_length, seq_length. exact Ll. }
  { intros l m Il Im. rewrite (Lw l Il), (Lw m Im). reflexivity. }
  rewrite Es. cbn [broaden_stage lines_of map]. intros E. injection E as <- <-. rewrite map_length, seq_length in Ls'.
  assert (Ly : length (s_data s) = a_ebins a).
  { assert (I0 : In (nth 0 lines []) lines) by (apply nth_In; lia). rewrite <- (Lw _ I0). apply Ls. exact I0. }
  assert (F : exists f : nat -> R, forall i, (i < n_atoms e)%nat -> atom_factor ww (coherent_cs src) (incoherent_cs src) (element src) (mass src) (n_atoms e) i (f i) /\
    forall j, (j < a_ebins a)%nat -> nth j (nth i lines []) 0 * (nth (S j) b 0 - nth j b 0) = f i * wmean (et e) (atom_part k e (nth j b 0) (nth (S j) b 0) i)).
  { exists (fun b => match ww with None => 1 | Some v => match cross_section v (coherent_cs src) (incoherent_cs src) (element src b) with
        | Some s => s / (mass src b / (Sum (seq 0 (n_atoms e)) (mass src) / INR (n_atoms e))) | None => 0 end end).
    intros c Hc. destruct (Na c Hc) as (f & Hf & _ & Hx). destruct ww as [v|]; cbn [atom_factor] in *.
    - destruct Hf as (s' & E1 & E2). rewrite E1. split; [exists s'; split; reflexivity|]. rewrite E2 in Hx. intros j Hj. apply Hx. lia.
    - congruence. }
  destruct F as [f F]. exists e, (map (fun v => v * factor (a_scale a)) (s_data s)), f.
  split; [destruct d; [discriminate|exact De|exact De]|]. split; [|split; [exact Lb|split; [rewrite map_length; exact Ly|split]]].
  - unfold scaled. destruct (a_scale a); cbn [factor]; [reflexivity|]. do 2 f_equal. rewrite <- (map_id (s_data s)) at 1. apply map_ext. intros; lra.
  - intros c Hc. apply F. exact Hc.
  - intros i Hi. split; [apply Ib; lia|]. rewrite (map_nth_indep _ _ _ 0 0) by lia.
    rewrite (Rmult_comm (nth i (s_data s) 0)), Rmult_assoc, Ls', <- Sum_scal_r. f_equal. apply Sum_ext. intros c Ic. apply in_seq in Ic. apply F; lia.
Qed.

(** --adaptive with --shape lorentz: the modes keep their own widths and the lines are
    broadened afterwards. *)
Lemma lorentz_line coeffs k wmin room src a cell on_grid widths W : 0 < W -> (2 <= a_ebins a)%nat ->
  a_adaptive a = true -> a_inst a = None -> a_eb a = None -> a_shape a = "lorentz"%string ->
  forall bins y, dos_tool coeffs k wmin room src a (ForceConsts cell on_grid widths) = Ok (bins, [Some y]) -> length y = a_ebins a ->
  exists K z, dos_tool coeffs k wmin room src (set_inst a (Some [W])) (ForceConsts cell on_grid widths) = Ok (bins, [Some z]) /\ length z = length y /\ shares K (length y) /\
  lorentzian_of_fwhm (W * (INR (length y) / (INR (length y) - 1))) (nth 1 bins 0 - nth 0 bins 0) K (length y) /\
  forall i, (i < length y)%nat -> nth i z 0 = spread K y i.
Proof.
  intros HW Hn Ea Ei Ee Es bins y. destruct a as [wg pd gr sp ad me er sc ins eb sh nb lo hi fc].
  cbn [a_adaptive a_inst a_eb a_shape a_ebins] in *. subst ad ins eb sh.
  unfold dos_tool, resolve, set_inst. cbn [a_eb a_adaptive a_ascale a_inst a_weighting a_pdos a_grid a_spacing a_method a_error a_shape a_ebins a_emin a_emax a_scale].
  set (A := mkArgs wg pd gr sp true me er sc None None "lorentz" nb lo hi fc). set (B := mkArgs wg pd gr sp true me er sc (Some [W]) None "lorentz" nb lo hi fc).
  cbn [has_evecs is_force andb negb]. rewrite andb_false_r.
  assert (Em : modes_of k B sc (Some [W]) (ForceConsts cell on_grid widths) = modes_of k A sc None (ForceConsts cell on_grid widths)) by reflexivity.
  rewrite Em. destruct (modes_of _ _ _ _ _) as [[e w]|]; [|discriminate]. change (energy_bins k room B (et e)) with (energy_bins k room A (et e)).
  destruct (energy_bins k room A (et e)) as [b|] eqn:Eb; [|discriminate]. change (dos_lines k wmin src B) with (dos_lines k wmin src A).
  destruct (dos_lines k wmin src A e w b) as [o|]; [|discriminate]. cbn [broaden_stage]. intros E Ly. injection E as <- El.
  destruct (lines_of o) as [|u [|u' r]] eqn:Eu; try discriminate. cbn [map] in El. injection El as El.
  assert (Yf : y = map (fun v => v * factor fc) u).
  { unfold scaled in El. destruct fc; injection El as <-; cbn [factor]; [reflexivity|]. rewrite <- (map_id u) at 1. apply map_ext. intros; lra. }
  assert (Lu : length u = nb) by (rewrite Yf, map_length in Ly; exact Ly).
  destruct (bins_even _ _ _ _ _ Eb Hn) as [Hp He]. cbn [a_ebins A] in He.
  destruct (lorentz_1d coeffs b u W (nth 1 b 0 - nth 0 b 0) None None Fwhm er ChebyLog Hp) as (K & out & Eo & Lo & Sh & Ga & Nx);
    [rewrite Lu; exact He|lia|exact HW|reflexivity|].
  unfold broaden_stage, B. cbn [a_shape a_adaptive a_error andb String.eqb Ascii.eqb Bool.eqb List.length Nat.ltb Nat.leb].
  unfold broaden_lines. cbn [lines_broadened]. rewrite Eo. cbn [map].
  replace (length y) with (length u) by (rewrite Yf, map_length; reflexivity).
  exists K, (map (fun v => v * factor fc) out). split; [|split; [|split; [exact Sh|split; [exact Ga|]]]].
  - unfold scaled. destruct fc; cbn [factor]; [reflexivity|]. do 4 f_equal. rewrite <- (map_id out) at 1. apply map_ext. intros; lra.
  - rewrite map_length. lia.
  - intros i Hi. rewrite Yf, spread_scaled. rewrite (map_nth_indep _ _ _ 0 0) by lia. rewrite Nx by lia. reflexivity.
Qed.

Lemma weighted_runs coeffs k wmin room src a e ww bins : 0 < k -> (1 <= a_ebins a)%nat -> (0 < n_atoms e)%nat ->
  weighting_named (a_weighting a) ww -> ww <> None -> a_pdos a = None -> a_adaptive a = false -> a_inst a = None -> a_eb a = None ->
  energy_bins k room a (et e) = Ok bins -> total_weight (et e) <> 0 ->
  (forall v b, ww = Some v -> (b < n_atoms e)%nat -> cross_section v (coherent_cs src) (incoherent_cs src) (element src b) <> None) ->
  exists ls, dos_tool coeffs k wmin room src a (Modes e) = Ok (bins, ls).
Proof.
  intros Hk Hn Ha Hw Hs Ep Ea Ei Ee Eb Tw Cs. destruct (named _ _ Hw) as (_ & wo & Ewo & Eww).
  assert (Nd : String.eqb (a_weighting a) "dos" = false) by (destruct Hw as [[_ ->] | [[-> _] | [[-> _] | [-> _]]]]; [congruence|reflexivity..]).
  unfold dos_tool, resolve. rewrite Ep, Ea, Ei, Ee, Nd. cbn [andb negb has_evecs modes_of]. rewrite Eb. destruct (bins_inc _ _ _ _ _ Eb) as [Lb Ib].
  unfold dos_lines. rewrite Nd, Ep. cbn [andb]. rewrite Ewo, Eww.
  assert (P : forall cs, exists p, calculate_pdos k bins e None wmin Reference cs = Ok p).
  { intros cs. apply mapE_each. intros b _. destruct (dos_data_hist k bins (et e) (Some (evec_weight e b)) wmin Reference Hk (incr_of_steps _ Ib) ltac:(lia) Tw) as (y & Ey & _).
    rewrite Ey. eexists. reflexivity. }
  assert (P' : exists ls, calculate_pdos_weighted k bins e (element src) (mass src) None wmin Reference ww (Dataset (coherent_cs src) (incoherent_cs src)) = Ok ls).
  { unfold calculate_pdos_weighted. destruct ww as [v|]; [|apply P]. cbn [choose_cross_sections].
    assert (Es : match v with Coherent => Some (coherent_cs src) | Incoherent => Some (incoherent_cs src)
        | Both => Some (fun el => match coherent_cs src el, incoherent_cs src el with Some x, Some y => Some (x + y) | _, _ => None end) end
        = Some (cross_section v (coherent_cs src) (incoherent_cs src))) by (destruct v; reflexivity).
    rewrite Es. unfold resolve_cs. replace (forallb _ _) with true; [apply P|]. symmetry. apply forallb_forall. intros b Hb. apply in_seq in Hb.
    destruct (cross_section _ _ _ _) eqn:E; [reflexivity|]. exfalso. exact (Cs v b eq_refl ltac:(lia) E). }
  destruct P' as [ls Els]. rewrite (any_method _ _ _ _ _ _ Reference), Els. assert (L1 : (1 <= length bins)%nat) by lia.
  destruct (pdos_lines_shape _ _ _ _ _ _ _ _ _ _ _ L1 Els) as [La Lw].
  destruct (no_option bins ls (map (symbol src) (seq 0 (n_atoms e))) wo) as (s & Es & _).
  { intros E. apply (f_equal (@List.length string)) in E. rewrite map_length, seq_length in E. cbn in E. lia. }
  { rewrite map_length, seq_length. exact La. }
  { intros l m Il Im. rewrite (Lw l Il), (Lw m Im). reflexivity. }
  rewrite Es. cbn [broaden_stage lines_of map]. eexists. reflexivity.
Qed.
Lemma lorentz_runs coeffs k wmin room src a cell on_grid widths g bins : (1 <= a_ebins a)%nat ->
  a_weighting a = "dos"%string -> a_pdos a = None -> a_adaptive a = true -> a_method a = Reference -> a_inst a = None -> a_eb a = None ->
  grid_spec cell (a_grid a) (a_spacing a) = Some g -> energy_bins k room a (et (on_grid g)) = Ok bins -> total_weight (et (on_grid g)) <> 0 ->
  exists y, dos_tool coeffs k wmin room src a (ForceConsts cell on_grid widths) = Ok (bins, [Some y]) /\ length y = a_ebins a.
Proof.
  intros Hk Ew Ep Ea Em Ei Ee Eg Eb Z. unfold dos_tool, resolve. rewrite Ew, Ep, Ea, Ei, Ee. cbn [String.eqb Ascii.eqb Bool.eqb andb negb has_evecs is_force].
  unfold modes_of. rewrite Eg, Ea. cbv zeta. rewrite Eb. destruct (bins_inc _ _ _ _ _ Eb) as [Lb _]. unfold dos_lines. rewrite Ew, Ep. cbn [String.eqb Ascii.eqb Bool.eqb andb].
  unfold calculate_dos, calculate_dos_data. rewrite Em. fold (total_weight (et (on_grid g))).
  destruct (Reqb_spec (total_weight (et (on_grid g))) 0) as [N|_]; [contradiction|].
  cbn [broaden_stage lines_of s_data map]. unfold scaled. destruct (a_scale a); eexists.
  - split; [reflexivity|]. rewrite !map_length. destruct (ref_linear (et (on_grid g)) (fun _ _ => 3 / INR (nm (et (on_grid g))))
      (fun q m => Rmax (combined_width k (a_ascale a) None (a_shape a) (et (on_grid g)) (widths g) q m) wmin) (map (fun b => b / k) bins)) as [Lr _]; [rewrite map_length; lia|].
    rewrite Lr, map_length. lia.
  - split; [reflexivity|]. rewrite !map_length. destruct (ref_linear (et (on_grid g)) (fun _ _ => 3 / INR (nm (et (on_grid g))))
      (fun q m => Rmax (combined_width k (a_ascale a) None (a_shape a) (et (on_grid g)) (widths g) q m) wmin) (map (fun b => b / k) bins)) as [Lr _]; [rewrite map_length; lia|].
    rewrite Lr, map_length. lia.
Qed.

Definition lorentz_args : dargs :=
  mkArgs "dos" None (Some (1, 1, 1)%Z) 1 true Reference (1 / 100) None None None "lorentz" 2 (Some (3 / 4)) (Some (7 / 4)) None.
Definition incoherent_args : dargs :=
  mkArgs "incoherent-dos" None None 1 false Reference (1 / 100) None None None "gauss" 2 (Some (3 / 4)) (Some (7 / 4)) (Some 2).
Lemma peak_bins room a : a_emin a = Some (3 / 4) -> a_emax a = Some (7 / 4) -> a_ebins a = 2%nat -> energy_bins 1 room a (et one_peak) = Ok (linspace (3 / 4) (7 / 4) 3).
Proof.
  intros E1 E2 E3. unfold energy_bins, all_freqs, pairs. cbn [one_peak et nq nm seq list_prod map app fst snd freq].
  unfold get_energy_bins. rewrite E1, E2, E3. destruct (Rleb_spec (7 / 4) (3 / 4)); [lra|reflexivity].
Qed.
