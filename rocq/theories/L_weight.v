(** Lemmas: what --weighting and --pdos choose in euphonic-powder-map (C80) and the coherent
    map of euphonic-intensity-map (C83). *)
From Coq Require Import String.
From Verif Require Import Base Cpx Vec3 M_grid M_cell M_qpts M_path M_broad S_broad M_dos M_bins M_sample M_coll M_clidos M_sf M_sphere M_powder M_weight
  S_dos S_sample S_sf S_coll S_clidos S_powder S_sphere L_util L_qpts L_path L_dos L_dos2 L_sf L_sqw L_sf2 L_conv L_powder L_clidos L_clidos2 L_sphere.
Open Scope R_scope.

(** A table that came out: its rows. *)
Lemma rows_inv coeffs hm room row f0 fs a edges bins z : 0 < q_spacing a -> q_min a < q_max a ->
  p_qb a = None -> p_eb a = None -> p_ei a = None -> p_ef a = None -> powder_tool coeffs hm room row f0 fs a = Ok (edges, bins, z) ->
  edges = q_edges a /\ p_energy_bins a f0 fs room = Ok bins /\ forall i, (i < Z.to_nat (n_q_bins a))%nat ->
  exists d, row bins (bin_middle edges i) (shell_npts a (bin_middle edges i)) = Ok d /\ forall j, z i j = Some (p_factor a * nth j d 0).
Proof.
  intros Hs Hq Wq We Ki Kf. destruct (q_axis a Hs Hq) as (Hn & [Le Ne] & _). pose proof (shells a Hs Hq) as Hp.
  assert (Lc : length (q_centres a) = Z.to_nat (n_q_bins a)) by (rewrite length_qc; lia).
  unfold powder_tool. destruct (Reqb_spec (q_spacing a) 0) as [Z|_]; [lra|]. destruct (Z.leb_spec (n_q_bins a) 0) as [Z|_]; [lia|].
  destruct (p_energy_bins a f0 fs room) as [b|]; [|discriminate]. destruct (mapE _ _) as [z0|] eqn:Ez; [|discriminate].
  unfold p_broaden. rewrite We, Wq. unfold p_constrain. rewrite Ki, Kf. intros E. injection E as <- <- <-. split; [reflexivity|]. split; [reflexivity|].
  intros i Hi. destruct (mapE_inv _ _ _ Ez) as [Lz Nz]. specialize (Nz i 0 [] ltac:(lia)). cbv beta in Nz. rewrite nth_qc in Nz by lia.
  exists (nth i z0 []). split; [exact Nz|]. intros j. unfold p_scaled, entries, option_map, p_factor. destruct (p_scale a); f_equal; lra.
Qed.

Section Weight.
Variable calc : list V3 -> option (list V3 * etable).
Variable cell : M3.
Variables (M : nat -> R) (pos : nat -> V3).
Variable solve : M3 -> V3 -> V3.
Variable ops : option (list symop).
Variables (chunk : nat) (kB fmin wmin k c : R).
Variable src : sources.
Variable sl : nat -> R.
Variables (rnd : R -> option (nat -> R * R)) (rnd2 : R -> option (nat -> nat -> R * R)) (always : R -> nat -> R * R).
Notation X := (mkX M pos (reciprocal_cell cell)).
Notation tool := (powder_map_tool calc cell X solve ops chunk kB fmin wmin k c src sl rnd rnd2 always).
Notation row := (weighted_row calc cell X solve ops chunk kB fmin wmin k c src sl rnd rnd2 always).
Notation dw_at grid spacing T d :=
  (match T with
   | None => d = None
   | Some t => exists g d0, grid_spec cell grid spacing = Some g /\ dw_on calc X ops chunk kB fmin g t d0 /\ d = Some d0
   end).

Lemma tool_dw_spec grid spacing T d : tool_dw calc cell X ops chunk kB fmin grid spacing T = Ok d -> dw_at grid spacing T d.
Proof.
  unfold tool_dw. destruct T as [T|]; [|intros E; injection E as <-; reflexivity]. destruct (grid_spec cell grid spacing) as [g|]; [|discriminate].
  destruct (debye_waller_on _ _ _ _ _ _ _ _) as [d0|] eqn:Ed; [|discriminate]. intros E. injection E as <-.
  exists g, d0. split; [reflexivity|]. split; [exact (dw_run _ _ _ _ _ _ _ _ _ _ _ Ed)|reflexivity].
Qed.
Lemma tool_dw_made grid spacing T d : dw_at grid spacing T d -> tool_dw calc cell X ops chunk kB fmin grid spacing T = Ok d.
Proof.
  unfold tool_dw. destruct T as [T|]; [|intros ->; reflexivity]. intros (g & d0 & -> & On & ->). rewrite (dw_made _ _ _ _ _ _ _ _ _ _ _ On). reflexivity.
Qed.

Lemma bins_ok coeffs hm room r f0 fs a edges bins z : (1 <= p_ebins a)%nat -> powder_tool coeffs hm room r f0 fs a = Ok (edges, bins, z) ->
  p_energy_bins a f0 fs room = Ok bins -> length bins = (p_ebins a + 1)%nat /\ increasing bins.
Proof. intros _ _ E. exact (pbins_inc _ _ _ _ _ E). Qed.

(** ** --weighting coherent *)
Lemma coherent_tool coeffs hm room f0 fs a w edges bins z : solves solve -> det3 cell <> 0 -> 0 < k -> (0 < chunk)%nat ->
  0 <= q_min a -> q_min a < q_max a -> 0 < q_spacing a -> (1 <= p_ebins a)%nat ->
  p_qb a = None -> p_eb a = None -> p_ei a = None -> p_ef a = None -> w_weighting w = "coherent"%string ->
  tool coeffs hm room f0 fs a w = Ok (edges, bins, z) ->
  length bins = (p_ebins a + 1)%nat /\ increasing bins /\ exists d, dw_at (w_grid w) (w_spacing w) (w_temperature w) d /\
  forall i, (i < Z.to_nat (n_q_bins a))%nat -> exists l ps qs e,
    get_qpts_sphere (shell_npts a (bin_middle edges i)) (w_sampling w) (rnd (bin_middle edges i)) (rnd2 (bin_middle edges i)) (always (bin_middle edges i)) = Ok l /\
    length ps = length l /\ on_shell (reciprocal_cell cell) (bin_middle edges i) ps /\ calc ps = Some (qs, e) /\ (0 < nq (et e))%nat /\
    forall j, (j < p_ebins a)%nat -> exists v, z i j = Some v /\ v * (nth (S j) bins 0 - nth j bins 0) =
      p_factor a * (c * average (seq 0 (nq (et e))) (scattered kB k (w_temperature w) cell sl M pos d qs e (nth j bins 0) (nth (S j) bins 0))).
Proof.
  intros So De Hk Hc H0 Hq Hs Hn Wq We Ki Kf Ew E. assert (Et : powder_tool coeffs hm room (row w) f0 fs a = Ok (edges, bins, z)).
  { unfold powder_map_tool in E. rewrite Ew in E. destruct (w_pdos w); [discriminate|exact E]. }
  destruct (rows_inv _ _ _ _ _ _ _ _ _ _ Hs Hq Wq We Ki Kf Et) as (Ee & Eb & Rs). destruct (pbins_inc _ _ _ _ _ Eb) as [Lb Ib].
  split; [exact Lb|]. split; [exact Ib|].
  assert (Ed : exists d, tool_dw calc cell X ops chunk kB fmin (w_grid w) (w_spacing w) (w_temperature w) = Ok d).
  { pose proof (shells a Hs Hq) as Hp. destruct (Rs 0%nat ltac:(lia)) as (y & Ey & _). unfold weighted_row in Ey. rewrite Ew in Ey. cbn [String.eqb Ascii.eqb Bool.eqb andb] in Ey.
    destruct (tool_dw _ _ _ _ _ _ _ _ _ _) as [d|]; [|discriminate]. exists d. reflexivity. }
  destruct Ed as [d Ed]. pose proof (tool_dw_spec _ _ _ _ Ed) as Hd. exists d. split; [exact Hd|]. intros i Hi.
  destruct (Rs i Hi) as (y & Ey & Nz). set (q := bin_middle edges i) in *.
  assert (Q0 : 0 <= q) by (unfold q; rewrite Ee; apply middle_nonneg; assumption).
  unfold weighted_row in Ey. rewrite Ew in Ey. cbn [String.eqb Ascii.eqb Bool.eqb andb] in Ey. rewrite Ed in Ey.
  destruct (sample_sphere_structure_factor _ _ _ _ _ _ _ _ _ _ _ _ _ _ _ _ _ _ _ _ _) as [[b' y']|] eqn:Es; [|discriminate]. cbn [shell_res] in Ey. injection Ey as ->.
  assert (Eb' : b' = bins).
  { unfold sample_sphere_structure_factor in Es. destruct (the_dw _ _ _ _ _ _ _ _ _ _); [|discriminate]. destruct (sphere_modes _ _ _ _ _ _ _ _ _ _ _) as [[[qs e] b2]|] eqn:Em; [|discriminate].
    destruct (modes_spec _ _ _ _ _ _ _ _ _ _ _ _ _ _ _ _ Em) as (_ & _ & _ & ->). destruct (calculate_structure_factor _ _ _ _ _); [|discriminate].
    destruct (calculate_1d_average _ _ _ _ _ _ _ _); [|discriminate]. injection Es as <- _. reflexivity. }
  subst b'. destruct (sf_average _ _ _ _ _ _ _ _ _ _ _ _ _ _ _ _ _ _ _ _ _ _ _ _ So De Q0 Hk Ib ltac:(lia) Es) as (l & ps & qs & e & d' & El & Ll & On & Ec & Np & Ud & Ly & Ny).
  assert (Dd : d' = d /\ option_map dw_t d' = w_temperature w).
  { destruct (w_temperature w) as [T|].
    - destruct Hd as (g & d0 & _ & Og & ->). destruct Ud as [-> _]. split; [reflexivity|]. cbn [option_map]. f_equal.
      unfold dw_on in Og. destruct g as [[n0 n1] n2]. destruct Og as (_ & _ & _ & mesh & qs' & e' & _ & _ & Edw). exact (dw_temperature _ _ _ _ _ _ _ _ _ _ Hc Edw).
    - rewrite Hd in Ud. rewrite Ud, Hd. split; reflexivity. }
  destruct Dd as [-> Td]. rewrite Td in Ny. exists l, ps, qs, e. split; [exact El|]. split; [exact Ll|]. split; [exact On|]. split; [exact Ec|]. split; [exact Np|].
  intros j Hj. exists (p_factor a * nth j y 0). split; [apply Nz|]. rewrite Rmult_assoc, Ny by lia. reflexivity.
Qed.
(** ** Densities of states *)
Lemma named w ww : weighting_named w ww -> w <> "coherent"%string /\ exists wo, pdos_weighting w = Ok wo /\
  match wo with None => Ok None | Some s => match weighting_of s with Ok v => Ok (Some v) | Err e => Err e end end = Ok ww.
Proof.
  intros [[-> ->] | [[-> ->] | [[-> ->] | [-> ->]]]]; (split; [discriminate|]); eexists; split; reflexivity.
Qed.
Lemma same_or_two (types : list string) : types <> [] -> (exists x, forall y, In y types -> y = x) \/ (exists x y, In x types /\ In y types /\ x <> y).
Proof.
  destruct types as [|x r]; [congruence|]. intros _. destruct (Forall_dec (fun y => y = x) (fun y => string_dec y x) (x :: r)) as [F|F].
  - left. exists x. intros y I. rewrite Forall_forall in F. exact (F y I).
  - right. apply neg_Forall_Exists_neg in F; [|intros y; apply string_dec]. apply Exists_exists in F. destruct F as (y & Iy & Ny).
    exists y, x. split; [exact Iy|]. split; [left; reflexivity|exact Ny].
Qed.
Lemma arranged_row bins lines types wt arg o d : types <> [] -> length lines = length types -> (forall l m, In l lines -> In m lines -> length l = length m) ->
  arrange_pdos (pdos_collection bins lines types wt) (option_map (fun s => [s]) arg) = Ok o -> one_row o = Ok d ->
  line_sum lines (match arg with None => seq 0 (length types) | Some s => atoms_of types s end) d.
Proof.
  intros Nt Ll Eq Eo Er. destruct arg as [s|]; cbn [option_map] in Eo.
  - destruct (same_or_two types Nt) as [(x & Hx)|Two].
    + rewrite (elemental bins lines types wt Nt Ll Eq x [s] Hx) in Eo. discriminate.
    + destruct (chosen_species bins lines types wt Nt Ll Eq Two [s] ltac:(discriminate)) as [C1 C2]. cbn [present filter] in C1, C2.
      unfold present in C1, C2. cbn [filter] in C1, C2. destruct (existsb (String.eqb s) types) eqn:Ex.
      * destruct (C2 ltac:(discriminate)) as (c' & Ec & Lc & Dc). rewrite Eo in Ec. injection Ec as ->. cbn [length] in Lc, Dc.
        destruct (Dc 0%nat ltac:(lia)) as (d' & (sp & Ap & _ & Ed & _) & Ls). cbn [nth] in Ls. unfold one_row, lines_of in Er. unfold clen in Lc.
        destruct (c_lines c') as [|l0 [|l1 lr]] eqn:El; try discriminate. injection Er as <-.
        unfold at_pos, get_int in Ap. rewrite El in Ap. cbn in Ap. destruct (take [] (iter_metadata c') 0) as [m|]; [|discriminate]. cbn in Ap. injection Ap as <-.
        cbn [s_data] in Ed. subst d'. exact Ls.
      * rewrite (C1 eq_refl) in Eo. discriminate.
  - destruct (no_option bins lines types wt Nt Ll Eq) as (s & Es & _ & Ls). rewrite Eo in Es. injection Es as ->. unfold one_row, lines_of in Er. injection Er as <-. exact Ls.
Qed.
Lemma plain_tool coeffs hm room f0 fs a w edges bins z : solves solve -> det3 cell <> 0 -> 0 < k ->
  0 <= q_min a -> q_min a < q_max a -> 0 < q_spacing a -> (1 <= p_ebins a)%nat ->
  p_qb a = None -> p_eb a = None -> p_ei a = None -> p_ef a = None -> w_weighting w = "dos"%string -> w_pdos w = None ->
  tool coeffs hm room f0 fs a w = Ok (edges, bins, z) ->
  length bins = (p_ebins a + 1)%nat /\ increasing bins /\
  forall i, (i < Z.to_nat (n_q_bins a))%nat -> exists l ps qs e,
    get_qpts_sphere (shell_npts a (bin_middle edges i)) (w_sampling w) (rnd (bin_middle edges i)) (rnd2 (bin_middle edges i)) (always (bin_middle edges i)) = Ok l /\
    length ps = length l /\ on_shell (reciprocal_cell cell) (bin_middle edges i) ps /\ calc ps = Some (qs, e) /\
    forall j, (j < p_ebins a)%nat -> exists v, z i j = Some v /\ v * (nth (S j) bins 0 - nth j bins 0) =
      p_factor a * (3 / INR (nm (et e)) * wmean (et e) (modes_in k (et e) (nth j bins 0) (nth (S j) bins 0))).
Proof.
  intros So De Hk H0 Hq Hs Hn Wq We Ki Kf Ew Ep E.
  assert (Et : powder_tool coeffs hm room (row w) f0 fs a = Ok (edges, bins, z)) by (unfold powder_map_tool in E; rewrite Ep in E; exact E).
  destruct (rows_inv _ _ _ _ _ _ _ _ _ _ Hs Hq Wq We Ki Kf Et) as (Ee & Eb & Rs). destruct (pbins_inc _ _ _ _ _ Eb) as [Lb Ib].
  split; [exact Lb|]. split; [exact Ib|]. intros i Hi.
  destruct (Rs i Hi) as (y & Ey & Nz). set (q := bin_middle edges i) in *.
  assert (Q0 : 0 <= q) by (unfold q; rewrite Ee; apply middle_nonneg; assumption).
  unfold weighted_row in Ey. rewrite Ew, Ep in Ey. change ((String.eqb "dos" "dos" && true)%bool) with true in Ey. cbv iota in Ey.
  destruct (sample_sphere_dos _ _ _ _ _ _ _ _ _ _ _ _) as [[b d]|] eqn:Ed; [|discriminate]. cbn [shell_res] in Ey. injection Ey as ->.
  assert (b = bins) as ->.
  { unfold sample_sphere_dos in Ed. destruct (sphere_modes _ _ _ _ _ _ _ _ _ _ _) as [[[qs e] b']|] eqn:Em; [|discriminate].
    destruct (modes_spec _ _ _ _ _ _ _ _ _ _ _ _ _ _ _ _ Em) as (_ & _ & _ & ->). destruct (calculate_dos _ _ _ _ _ _); [|discriminate]. injection Ed as <- _. reflexivity. }
  assert (L2 : (2 <= length bins)%nat) by lia.
  destruct (dos_average _ _ _ _ _ _ _ _ _ _ _ _ _ _ _ _ So De Q0 Hk Ib L2 Ed) as (l & ps & qs & e & El & Ll & On & Ec & _ & Nd).
  exists l, ps, qs, e. split; [exact El|]. split; [exact Ll|]. split; [exact On|]. split; [exact Ec|].
  intros j Hj. exists (p_factor a * nth j y 0). split; [apply Nz|]. rewrite Rmult_assoc, Nd by lia. reflexivity.
Qed.
Lemma pdos_tool coeffs hm room f0 fs a w ww edges bins z : solves solve -> det3 cell <> 0 -> 0 < k ->
  (forall ps qs e, calc ps = Some (qs, e) -> (0 < n_atoms e)%nat) ->
  0 <= q_min a -> q_min a < q_max a -> 0 < q_spacing a -> (1 <= p_ebins a)%nat ->
  p_qb a = None -> p_eb a = None -> p_ei a = None -> p_ef a = None ->
  weighting_named (w_weighting w) ww -> ~ (w_weighting w = "dos"%string /\ w_pdos w = None) ->
  tool coeffs hm room f0 fs a w = Ok (edges, bins, z) ->
  length bins = (p_ebins a + 1)%nat /\ increasing bins /\
  forall i, (i < Z.to_nat (n_q_bins a))%nat -> exists l ps qs e (f : nat -> R),
    get_qpts_sphere (shell_npts a (bin_middle edges i)) (w_sampling w) (rnd (bin_middle edges i)) (rnd2 (bin_middle edges i)) (always (bin_middle edges i)) = Ok l /\
    length ps = length l /\ on_shell (reciprocal_cell cell) (bin_middle edges i) ps /\ calc ps = Some (qs, e) /\
    (forall b, (b < n_atoms e)%nat -> atom_factor ww (coherent_cs src) (incoherent_cs src) (element src) M (n_atoms e) b (f b)) /\
    forall j, (j < p_ebins a)%nat -> exists v, z i j = Some v /\ v * (nth (S j) bins 0 - nth j bins 0) =
      p_factor a * Sum (match w_pdos w with None => seq 0 (n_atoms e) | Some s => atoms_of (map (symbol src) (seq 0 (n_atoms e))) s end)
        (fun b => f b * wmean (et e) (atom_part k e (nth j bins 0) (nth (S j) bins 0) b)).
Proof.
  intros So De Hk Hna H0 Hq Hs Hn Wq We Ki Kf Nw Nd E. destruct (named _ _ Nw) as (Nc & wo & Ewo & Eww).
  assert (Et : powder_tool coeffs hm room (row w) f0 fs a = Ok (edges, bins, z)).
  { unfold powder_map_tool in E. destruct (w_pdos w); [|exact E]. destruct (String.eqb_spec (w_weighting w) "coherent"); [contradiction|exact E]. }
  destruct (rows_inv _ _ _ _ _ _ _ _ _ _ Hs Hq Wq We Ki Kf Et) as (Ee & Eb & Rs). destruct (pbins_inc _ _ _ _ _ Eb) as [Lb Ib].
  split; [exact Lb|]. split; [exact Ib|]. intros i Hi.
  destruct (Rs i Hi) as (y & Ey & Nz). set (q := bin_middle edges i) in *.
  assert (Q0 : 0 <= q) by (unfold q; rewrite Ee; apply middle_nonneg; assumption).
  unfold weighted_row in Ey.
  assert (B : (String.eqb (w_weighting w) "dos" && match w_pdos w with None => true | Some _ => false end)%bool = false).
  { destruct (String.eqb_spec (w_weighting w) "dos") as [Z|]; [|reflexivity]. destruct (w_pdos w); [reflexivity|]. exfalso. apply Nd. split; [exact Z|reflexivity]. }
  rewrite B in Ey. destruct (String.eqb_spec (w_weighting w) "coherent"); [contradiction|]. rewrite Ewo, Eww in Ey.
  destruct (sphere_modes _ _ _ _ _ _ _ _ _ _ _) as [[[qs e] b2]|] eqn:Em; [|discriminate].
  destruct (modes_spec _ _ _ _ _ _ _ _ _ _ _ _ _ _ _ _ Em) as (ps & Ep & Ec & ->). destruct (points_spec _ _ _ _ _ _ _ _ _ _ _ So De Q0 Ep) as (l & El & Ll & On).
  unfold sample_sphere_pdos in Ey. rewrite Em in Ey.
  destruct (calculate_pdos_weighted _ _ _ _ _ _ _ _ _ _) as [ls|] eqn:Els; [|discriminate]. cbv beta iota in Ey.
  destruct (arrange_pdos _ _) as [o|] eqn:Eo; [|discriminate]. cbn [mass] in Els.
  destruct (pdos_atoms _ _ _ _ _ _ _ _ _ _ Hk Ib ltac:(lia) Els) as [La Na].
  assert (L1 : (1 <= length bins)%nat) by lia. destruct (pdos_lines_shape _ _ _ _ _ _ _ _ _ _ _ L1 Els) as [_ Lw].
  assert (Lt : length (map (symbol src) (seq 0 (n_atoms e))) = n_atoms e) by (rewrite map_length, seq_length; reflexivity).
  assert (Nt : map (symbol src) (seq 0 (n_atoms e)) <> []).
  { intros Z. rewrite Z in Lt. cbn in Lt. specialize (Hna _ _ _ Ec). lia. }
  assert (L2 : length ls = length (map (symbol src) (seq 0 (n_atoms e)))) by (rewrite Lt; exact La).
  pose proof (arranged_row _ _ _ _ _ _ _ Nt L2 (fun l m A B => eq_trans (Lw l A) (eq_sym (Lw m B))) Eo Ey) as [_ Ny]. rewrite Lt in Ny.
  assert (F : exists f : nat -> R, forall b, (b < n_atoms e)%nat -> atom_factor ww (coherent_cs src) (incoherent_cs src) (element src) M (n_atoms e) b (f b) /\
    forall i, (i < length bins - 1)%nat -> nth i (nth b ls []) 0 * (nth (S i) bins 0 - nth i bins 0) = f b * wmean (et e) (atom_part k e (nth i bins 0) (nth (S i) bins 0) b)).
  { exists (fun b => match ww with None => 1 | Some v => match cross_section v (coherent_cs src) (incoherent_cs src) (element src b) with
        | Some s => s / (M b / (Sum (seq 0 (n_atoms e)) M / INR (n_atoms e))) | None => 0 end end).
    intros b Hb. destruct (Na b Hb) as (f & Hf & _ & Hv). destruct ww as [v|]; cbn [atom_factor] in *.
    - destruct Hf as (s & E1 & E2). rewrite E1. split; [exists s; split; reflexivity|]. rewrite E2 in Hv. exact Hv.
    - rewrite Hf in Hv. split; [reflexivity|exact Hv]. }
  destruct F as [f F]. exists l, ps, qs, e, f. split; [exact El|]. split; [exact Ll|]. split; [exact On|]. split; [exact Ec|].
  split; [intros b Hb; apply F, Hb|]. intros j Hj. exists (p_factor a * nth j y 0). split; [apply Nz|]. rewrite Rmult_assoc, Ny, <- Sum_scal_r. f_equal.
  apply Sum_ext. intros b Ib'. assert (Hb : (b < n_atoms e)%nat).
  { destruct (w_pdos w); [unfold atoms_of in Ib'; apply filter_In in Ib'; destruct Ib' as [Ib' _]; rewrite Lt in Ib'|]; apply in_seq in Ib'; lia. }
  apply F; [exact Hb|lia].
Qed.
Lemma one_species_tool coeffs hm room f0 fs a w s x : q_min a < q_max a -> 0 < q_spacing a -> (1 <= p_ebins a)%nat ->
  (forall ps qs e, calc ps = Some (qs, e) -> (0 < n_atoms e)%nat) ->
  (forall i, symbol src i = x) -> w_pdos w = Some s -> forall r, tool coeffs hm room f0 fs a w <> Ok r.
Proof.
  intros Hq Hs Hn Hna Sx Es r. unfold powder_map_tool. rewrite Es. destruct (String.eqb_spec (w_weighting w) "coherent") as [|Nc]; [discriminate|].
  destruct (q_axis a Hs Hq) as (Hn' & [Le Ne] & _). pose proof (shells a Hs Hq) as Hp. assert (Lc : (0 < length (q_centres a))%nat) by (rewrite length_qc; lia).
  unfold powder_tool. destruct (Reqb_spec (q_spacing a) 0) as [Z|_]; [lra|]. destruct (Z.leb_spec (n_q_bins a) 0) as [Z|_]; [lia|].
  destruct (p_energy_bins a f0 fs room) as [b|] eqn:Eb; [|discriminate]. destruct (pbins_inc _ _ _ _ _ Eb) as [Lb Ib].
  destruct (mapE _ _) as [z0|] eqn:Ez; [|discriminate]. exfalso. destruct (mapE_inv _ _ _ Ez) as [_ Nz]. specialize (Nz 0%nat 0 [] Lc). cbv beta in Nz. revert Nz.
  unfold weighted_row. rewrite Es. rewrite andb_false_r. destruct (String.eqb_spec (w_weighting w) "coherent"); [contradiction|].
  destruct (pdos_weighting _) as [wo|]; [|discriminate]. destruct (match wo with None => _ | Some _ => _ end) as [ww|]; [|discriminate].
  destruct (sphere_modes _ _ _ _ _ _ _ _ _ _ _) as [[[qs e] b2]|] eqn:Em; [|discriminate].
  destruct (modes_spec _ _ _ _ _ _ _ _ _ _ _ _ _ _ _ _ Em) as (ps & _ & Ec & ->). unfold sample_sphere_pdos. rewrite Em.
  destruct (calculate_pdos_weighted _ _ _ _ _ _ _ _ _ _) as [ls|] eqn:Els; [|discriminate]. cbv beta iota.
  assert (L1 : (1 <= length b)%nat) by lia. destruct (pdos_lines_shape _ _ _ _ _ _ _ _ _ _ _ L1 Els) as [La Lw].
  assert (Lt : length (map (symbol src) (seq 0 (n_atoms e))) = n_atoms e) by (rewrite map_length, seq_length; reflexivity).
  assert (Nt : map (symbol src) (seq 0 (n_atoms e)) <> []).
  { intros Z. rewrite Z in Lt. cbn in Lt. specialize (Hna _ _ _ Ec). lia. }
  assert (L2 : length ls = length (map (symbol src) (seq 0 (n_atoms e)))) by (rewrite Lt; exact La).
  cbn [option_map]. rewrite (elemental b ls _ wo Nt L2 (fun l m A B => eq_trans (Lw l A) (eq_sym (Lw m B))) x [s]); [discriminate|].
  intros y I. apply in_map_iff in I. destruct I as (i & <- & _). apply Sx.
Qed.
(** ** When there is a result *)
Lemma coherent_runs coeffs hm room f0 fs a w bins d : solves solve -> det3 cell <> 0 -> 0 < k -> (0 < chunk)%nat ->
  0 <= q_min a -> q_min a < q_max a -> 0 < q_spacing a -> (1 <= p_ebins a)%nat ->
  p_qb a = None -> p_eb a = None -> p_ei a = None -> p_ef a = None -> w_weighting w = "coherent"%string -> w_pdos w = None ->
  p_energy_bins a f0 fs room = Ok bins -> dw_at (w_grid w) (w_spacing w) (w_temperature w) d ->
  (forall q, 0 <= q -> exists l, get_qpts_sphere (shell_npts a q) (w_sampling w) (rnd q) (rnd2 q) (always q) = Ok l /\ l <> [] /\ forall p, In p l -> on_sphere p) ->
  (forall ps, ps <> [] -> exists qs e, calc ps = Some (qs, e) /\ (0 < nq (et e))%nat /\
     (forall q m, (q < nq (et e))%nat -> (m < nm (et e))%nat -> freq (et e) q m <> 0) /\ (forall d0, d = Some d0 -> dw_n d0 = n_atoms e)) ->
  exists z, tool coeffs hm room f0 fs a w = Ok (q_edges a, bins, z).
Proof.
  intros So De Hk Hc H0 Hq Hs Hn Wq We Ki Kf Ew Ep Eb Hd Hl Hm. destruct (pbins_inc _ _ _ _ _ Eb) as [Lb Ib].
  unfold powder_map_tool. rewrite Ep. destruct (tool_rows coeffs hm room (row w) f0 fs a bins Hs Hq Eb Wq We Ki Kf) as (z & Ez & _); [|exists z; exact Ez].
  intros i Hi. set (q := bin_middle (q_edges a) i). assert (Q0 : 0 <= q) by (apply middle_nonneg; assumption). destruct (Hl q Q0) as (l & El & Nl & On).
  unfold weighted_row. rewrite Ew. cbn [String.eqb Ascii.eqb Bool.eqb andb]. rewrite (tool_dw_made _ _ _ _ Hd).
  destruct (sf_runs calc cell M pos solve ops chunk kB fmin k c sl d (25 / 1000) (w_temperature w) q (shell_npts a q) (w_sampling w) (rnd q) (rnd2 q) (always q) bins l So De Q0 Hk Ib El On) as [y Ey].
  - intros ps Lp _. apply Hm. intros ->. destruct l; [congruence|discriminate].
  - destruct (w_temperature w) as [T|]; [|exact I]. destruct Hd as (g & d0 & _ & Og & ->).
    unfold dw_on in Og. destruct g as [[n0 n1] n2]. destruct Og as (_ & _ & _ & mesh & qs' & e' & _ & _ & Edw). rewrite (dw_temperature _ _ _ _ _ _ _ _ _ _ Hc Edw). apply same_refl.
  - rewrite Ey. exists y. reflexivity.
Qed.
Lemma plain_runs coeffs hm room f0 fs a w bins : solves solve -> det3 cell <> 0 -> 0 < k ->
  0 <= q_min a -> q_min a < q_max a -> 0 < q_spacing a -> (1 <= p_ebins a)%nat ->
  p_qb a = None -> p_eb a = None -> p_ei a = None -> p_ef a = None -> w_weighting w = "dos"%string -> w_pdos w = None ->
  p_energy_bins a f0 fs room = Ok bins ->
  (forall q, 0 <= q -> exists l, get_qpts_sphere (shell_npts a q) (w_sampling w) (rnd q) (rnd2 q) (always q) = Ok l /\ l <> [] /\ forall p, In p l -> on_sphere p) ->
  (forall ps, ps <> [] -> exists qs e, calc ps = Some (qs, e) /\ total_weight (et e) <> 0) ->
  exists z, tool coeffs hm room f0 fs a w = Ok (q_edges a, bins, z).
Proof.
  intros So De Hk H0 Hq Hs Hn Wq We Ki Kf Ew Epd Eb Hl Hm. destruct (pbins_inc _ _ _ _ _ Eb) as [Lb Ib].
  unfold powder_map_tool. rewrite Epd. destruct (tool_rows coeffs hm room (row w) f0 fs a bins Hs Hq Eb Wq We Ki Kf) as (z & Ez & _); [|exists z; exact Ez].
  intros i Hi. set (q := bin_middle (q_edges a) i). assert (Q0 : 0 <= q) by (apply middle_nonneg; assumption). destruct (Hl q Q0) as (l & El & Nl & On).
  destruct (points_run cell M pos solve q (shell_npts a q) (w_sampling w) (rnd q) (rnd2 q) (always q) l El On) as (ps & Ep & Lp).
  destruct (Hm ps) as (qs & e & Ec & Tw); [intros ->; destruct l; [congruence|discriminate]|].
  unfold weighted_row. rewrite Ew, Epd. change ((String.eqb "dos" "dos" && true)%bool) with true. cbv iota. unfold sample_sphere_dos, sphere_modes. rewrite Ep, Ec.
  destruct (dos_bins_count k bins (et e) wmin Reference Hk Ib ltac:(lia) Tw) as (d2 & E2 & _). rewrite E2. eexists. reflexivity.
Qed.
Lemma pdos_runs coeffs hm room f0 fs a w ww bins : solves solve -> det3 cell <> 0 -> 0 < k ->
  0 <= q_min a -> q_min a < q_max a -> 0 < q_spacing a -> (1 <= p_ebins a)%nat ->
  p_qb a = None -> p_eb a = None -> p_ei a = None -> p_ef a = None -> weighting_named (w_weighting w) ww -> ~ (w_weighting w = "dos"%string /\ w_pdos w = None) ->
  p_energy_bins a f0 fs room = Ok bins ->
  (forall q, 0 <= q -> exists l, get_qpts_sphere (shell_npts a q) (w_sampling w) (rnd q) (rnd2 q) (always q) = Ok l /\ l <> [] /\ forall p, In p l -> on_sphere p) ->
  (forall ps, ps <> [] -> exists qs e, calc ps = Some (qs, e) /\ (0 < n_atoms e)%nat /\ total_weight (et e) <> 0 /\
     (forall v b, ww = Some v -> (b < n_atoms e)%nat -> cross_section v (coherent_cs src) (incoherent_cs src) (element src b) <> None) /\
     (forall s, w_pdos w = Some s -> exists b b', (b < n_atoms e)%nat /\ (b' < n_atoms e)%nat /\ symbol src b = s /\ symbol src b' <> s)) ->
  exists z, tool coeffs hm room f0 fs a w = Ok (q_edges a, bins, z).
Proof.
  intros So De Hk H0 Hq Hs Hn Wq We Ki Kf Nw Nd Eb Hl Hm. destruct (named _ _ Nw) as (Nc & wo & Ewo & Eww). destruct (pbins_inc _ _ _ _ _ Eb) as [Lb Ib].
  assert (Et : exists z, powder_tool coeffs hm room (row w) f0 fs a = Ok (q_edges a, bins, z)).
  2:{ unfold powder_map_tool. destruct (w_pdos w); [|exact Et]. destruct (String.eqb_spec (w_weighting w) "coherent"); [contradiction|exact Et]. }
  destruct (tool_rows coeffs hm room (row w) f0 fs a bins Hs Hq Eb Wq We Ki Kf) as (z & Ez & _); [|exists z; exact Ez].
  intros i Hi. set (q := bin_middle (q_edges a) i). assert (Q0 : 0 <= q) by (apply middle_nonneg; assumption). destruct (Hl q Q0) as (l & El & Nl & On).
  destruct (points_run cell M pos solve q (shell_npts a q) (w_sampling w) (rnd q) (rnd2 q) (always q) l El On) as (ps & Ep & Lp).
  destruct (Hm ps) as (qs & e & Ec & Na & Tw & Cs & Sp); [intros ->; destruct l; [congruence|discriminate]|].
  unfold weighted_row.
  assert (B : (String.eqb (w_weighting w) "dos" && match w_pdos w with None => true | Some _ => false end)%bool = false).
  { destruct (String.eqb_spec (w_weighting w) "dos") as [Z|]; [|reflexivity]. destruct (w_pdos w); [reflexivity|]. exfalso. apply Nd. split; [exact Z|reflexivity]. }
  rewrite B. destruct (String.eqb_spec (w_weighting w) "coherent"); [contradiction|]. rewrite Ewo, Eww. unfold sample_sphere_pdos, sphere_modes. rewrite Ep, Ec.
  assert (P : forall cs, exists p, calculate_pdos k bins e None wmin Reference cs = Ok p).
  { intros cs. apply mapE_each. intros b _. destruct (dos_data_hist k bins (et e) (Some (evec_weight e b)) wmin Reference Hk Ib ltac:(lia) Tw) as (y & Ey & _). rewrite Ey. eexists. reflexivity. }
  assert (P' : exists ls, calculate_pdos_weighted k bins e (element src) M None wmin Reference ww (Dataset (coherent_cs src) (incoherent_cs src)) = Ok ls).
  { unfold calculate_pdos_weighted. destruct ww as [v|]; [|apply P]. cbn [choose_cross_sections].
    assert (Es : match v with Coherent => Some (coherent_cs src) | Incoherent => Some (incoherent_cs src)
        | Both => Some (fun el => match coherent_cs src el, incoherent_cs src el with Some x, Some y => Some (x + y) | _, _ => None end) end
        = Some (cross_section v (coherent_cs src) (incoherent_cs src))) by (destruct v; reflexivity).
    rewrite Es. unfold resolve_cs. replace (forallb _ _) with true; [apply P|]. symmetry. apply forallb_forall. intros b Hb. apply in_seq in Hb.
    destruct (cross_section _ _ _ _) eqn:E; [reflexivity|]. exfalso. exact (Cs v b eq_refl ltac:(lia) E). }
  destruct P' as [ls Els]. cbn [mass]. rewrite Els. assert (L1 : (1 <= length bins)%nat) by lia.
  destruct (pdos_lines_shape _ _ _ _ _ _ _ _ _ _ _ L1 Els) as [La Lw].
  assert (Lt : length (map (symbol src) (seq 0 (n_atoms e))) = n_atoms e) by (rewrite map_length, seq_length; reflexivity).
  set (types := map (symbol src) (seq 0 (n_atoms e))) in *.
  assert (Nt : types <> []) by (intros Z; rewrite Z in Lt; cbn in Lt; lia).
  assert (L2 : length ls = length types) by (rewrite Lt; exact La).
  pose proof (fun l m A B => eq_trans (Lw l A) (eq_sym (Lw m B))) as Eq.
  destruct (w_pdos w) as [s|]; cbn [option_map].
  - destruct (Sp s eq_refl) as (b & b' & Hb & Hb' & Sb & Sb').
    assert (Ib1 : In s types) by (rewrite <- Sb; apply in_map, in_seq; lia). assert (Ib2 : In (symbol src b') types) by (apply in_map, in_seq; lia).
    assert (Two : exists x y, In x types /\ In y types /\ x <> y) by (exists s, (symbol src b'); split; [exact Ib1|]; split; [exact Ib2|congruence]).
    destruct (chosen_species bins ls types wo Nt L2 Eq Two [s] ltac:(discriminate)) as [_ C2]. unfold present in C2. cbn [filter] in C2.
    assert (Ex : existsb (String.eqb s) types = true) by (apply existsb_exists; exists s; split; [exact Ib1|apply String.eqb_refl]).
    rewrite Ex in C2. destruct (C2 ltac:(discriminate)) as (c' & Ec' & Lc & _). rewrite Ec'. unfold one_row, lines_of. unfold clen in Lc. cbn [length] in Lc.
    destruct (c_lines c') as [|l0 [|l1 lr]]; try discriminate. exists l0. reflexivity.
  - destruct (no_option bins ls types wo Nt L2 Eq) as (s & Es & _ & _). rewrite Es. unfold one_row, lines_of. eexists. reflexivity.
Qed.

Lemma coherent_pdos coeffs hm room f0 fs a w s : w_weighting w = "coherent"%string -> w_pdos w = Some s -> tool coeffs hm room f0 fs a w = Err PdosNeedsDos.
Proof. intros E1 E2. unfold powder_map_tool. rewrite E2, E1. reflexivity. Qed.
End Weight.

(** Sodium chloride with invented cross sections. *)
Definition salt : sources := mkSrc (fun _ => Some 1) (fun _ => Some 2) (fun a => a) (fun _ => 1) (fun a => if Nat.eqb a 0 then "Na" else "Cl")%string.
Lemma salt_maps M pos sl hm coeffs wmin room : 0 < room -> exists solve bins z z', solves solve /\ det3 cube <> 0 /\
  powder_map_tool flat_calc cube (mkX M pos (reciprocal_cell cube)) solve None 1 1 0 wmin 1 1 salt sl (fun _ => None) (fun _ => None) (fun _ _ => (0, 0))
    coeffs hm room 1 [1; 1] plain_args (mkWA "coherent" None None None 1 "golden") = Ok (q_edges plain_args, bins, z) /\
  powder_map_tool flat_calc cube (mkX M pos (reciprocal_cell cube)) solve None 1 1 0 wmin 1 1 salt sl (fun _ => None) (fun _ => None) (fun _ _ => (0, 0))
    coeffs hm room 1 [1; 1] plain_args (mkWA "coherent-dos" (Some "Cl"%string) None None 1 "golden") = Ok (q_edges plain_args, bins, z').
Proof.
  intros Hr. destruct L_sample4.solver_exists as [solve So]. destruct (far_bins room Hr) as (bins & Eb & _).
  assert (Sm : forall q : R, 0 <= q -> exists l, get_qpts_sphere (shell_npts plain_args q) "golden" None None (fun _ => (0, 0)) = Ok l /\ l <> [] /\ forall p, In p l -> on_sphere p).
  { intros q _. destruct (flat_golden None) as (l & El & Ll & On). exists l. split; [exact El|]. split; [|exact On]. intros ->. discriminate. }
  assert (H1 : q_min plain_args < q_max plain_args) by (cbn; lra). assert (H2 : 0 < q_spacing plain_args) by (cbn; lra).
  assert (H3 : 0 <= q_min plain_args) by (cbn; lra). assert (H4 : (1 <= p_ebins plain_args)%nat) by (cbn; lia).
  destruct (coherent_runs flat_calc cube M pos solve None 1 1 0 wmin 1 1 salt sl (fun _ => None) (fun _ => None) (fun _ _ => (0, 0)) coeffs hm room 1 [1; 1] plain_args
    (mkWA "coherent" None None None 1 "golden") bins None So cube_det Rlt_0_1 ltac:(lia) H3 H1 H2 H4 eq_refl eq_refl eq_refl eq_refl eq_refl eq_refl Eb eq_refl Sm) as [z Ez].
  { intros ps Np. exists ps, (flat_modes ps). split; [reflexivity|]. split; [destruct ps; [congruence|cbn; lia]|]. split; [apply flat_nonzero|discriminate]. }
  destruct (pdos_runs flat_calc cube M pos solve None 1 1 0 wmin 1 1 salt sl (fun _ => None) (fun _ => None) (fun _ _ => (0, 0)) coeffs hm room 1 [1; 1] plain_args
    (mkWA "coherent-dos" (Some "Cl"%string) None None 1 "golden") (Some Coherent) bins So cube_det Rlt_0_1 H3 H1 H2 H4 eq_refl eq_refl eq_refl eq_refl) as [z' Ez'].
  { right. left. split; reflexivity. } { intros [Z _]. discriminate. } { exact Eb. } { exact Sm. }
  { intros ps Np. exists ps, (flat_modes ps). split; [reflexivity|]. split; [cbn; lia|]. split; [rewrite (flat_total ps Np); lra|]. split.
    - intros v b E _. injection E as <-. discriminate.
    - intros s E. injection E as <-. exists 1%nat, 0%nat. split; [cbn; lia|]. split; [cbn; lia|]. split; [reflexivity|discriminate]. }
  exists solve, bins, z, z'. split; [exact So|]. split; [exact cube_det|]. split; [exact Ez|exact Ez'].
Qed.
