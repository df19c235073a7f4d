(** Lemmas for C100, continued: what the map shows. *)
From Coq Require Import String Permutation FunctionalExtensionality.
From Verif Require Import Base Cpx Vec3 M_path M_broad M_dos M_bins M_coll M_fixed M_style M_clidos M_sample M_sf M_sphere M_powder M_weight M_grid M_cell M_qpts M_dynmat M_dipole M_struct M_asr M_calc M_doscalc M_powcalc M_dosmain M_powmain
  S_broad S_dos S_sample S_powder S_sphere S_qpts S_dynmat S_dipole S_asr S_calc S_unique S_doscalc S_powcalc S_dosmain S_powmain L_powmain.
From Verif Require M_parser S_parser S_manual L_parser L_parser3 L_manual L_dosmain L_powder L_powcalc L_powcalc2 L_cell.
Import M_parser (val(..), namespace).
Open Scope R_scope.
Open Scope string_scope.
Import S_manual.

Ltac in_manual := cbn; repeat (first [left; reflexivity | right]).
Ltac row_of T N nm d k v := apply (row_default _ _ _ _ (mkRow nm d k v) T); [in_manual|cbn; intros ? ?; apply N; cbn; tauto].
Lemma scale_of ns a b : says_map ns b a -> asked_scale ns (p_factor a).
Proof.
  intros H. do 16 destruct H as [_ H]. unfold asked_scale, p_factor. destruct (p_scale a) as [f|]; cbn [maybe] in H; [right; exact H|left; split; [exact H|reflexivity]].
Qed.
Section Main.
Variables (int_of : string -> option Z) (float_of : string -> option R).
Context {E : Type}. Variable load : string -> res (option (fcobj * sources * (nat -> R))) E.
Variables (hartree bohr : string -> option R) (room hbar2 : string -> R) (pretty pretty_q : string -> string).
Variables (erfc : R -> R) (reigh : real_eigh) (ceigh : complex_eigh) (argsort : list R -> list nat) (chunk : nat).
Variables (junk : list V3 -> nat -> nat -> nat -> R) (before : list V3 -> list ((nat -> nat -> nat -> R) * options)).
Variables (solve : M3 -> V3 -> V3) (ops : fcobj -> option (list symop)) (dw_chunk : nat) (kB fmin wmin c : R) (coeffs : R -> list R).
Variables (jit : R -> nat -> R * R) (jit2 : R -> nat -> nat -> R * R) (always : R -> nat -> R * R).
Variables (inch : string -> option R) (sheets : string -> option sheet) (rc : string -> value).
Notation tool_args := (M_parser.tool_args int_of float_of M_parser.PowderMap).
Notation main := (powder_main int_of float_of load hartree bohr room hbar2 pretty pretty_q erfc reigh ceigh argsort chunk junk before solve ops dw_chunk kB fmin wmin c coeffs jit jit2 always inch sheets rc).

(** The axis of any map that was made *)
Lemma main_axis line ns file u k lu b nb d mass born diel src sl q0 q1 qs edges bins z lim fig :
  tool_args line = Ok ns -> ns "filename" = Some (VStr file) -> load file = Ok (Some (new_fc d mass born diel, src, sl)) ->
  ns "energy_unit" = Some (VStr u) -> hartree u = Some k -> ns "length_unit" = Some (VStr lu) -> bohr lu = Some b -> 0 < b ->
  ns "ebins" = Some (VInt (Z.of_nat nb)) -> ns "use_brille" = Some (VBool false) ->
  ns "q_min" = Some (VFloat q0) -> ns "q_max" = Some (VFloat q1) -> ns "q_spacing" = Some (VFloat qs) -> q0 < q1 -> 0 < qs ->
  main line = Ok (edges, bins, z, lim, fig) ->
  exists a w rnd rnd2 edges' param asr N, edges = map (fun q => q / b) edges' /\ says_map ns b a /\ says_weight ns b w /\ says_jitter ns jit rnd /\ says_jitter ns jit2 rnd2 /\ says_limits ns lim /\
    ns "dipole_parameter" = Some (VFloat param) /\ says_asr ns asr /\
    powder_from_fc erfc reigh ceigh argsort chunk junk before asr param solve (ops (new_fc d mass born diel)) dw_chunk kB fmin wmin k c src sl rnd rnd2 always coeffs (hbar2 u) (room u) a w (new_fc d mass born diel)
      = Ok (edges', bins, z) /\
    N = Z.to_nat (n_q_bins a) /\ q_min a = q0 * b /\ q_max a = q1 * b /\ M_powder.q_spacing a = qs * b /\ p_ebins a = nb /\
    (1 <= N)%nat /\ length edges' = (N + 1)%nat /\ even_bins q0 q1 N edges /\ (q1 - q0) / INR N <= qs /\ forall m, (1 <= m)%nat -> (q1 - q0) / INR m <= qs -> (N <= m)%nat.
Proof.
  intros T Nf Hl Nu Hu Nl Hb B0 Nb Nr Q0 Q1 Qs Hq Hs H.
  destruct (main_ok _ _ _ _ _ _ _ _ _ _ _ _ _ _ _ _ _ _ _ _ _ _ _ _ _ _ _ _ _ _ _ _ H) as (ns' & _ & _ & _ & _ & _ & _ & param & asr & _ & _ & _ & T' & _ & _ & _ & _ & _ & _ & _ & Np & Na & _).
  assert (ns' = ns) by congruence. subst ns'.
  destruct (main_settings int_of float_of load hartree bohr room hbar2 pretty pretty_q erfc reigh ceigh argsort chunk junk before solve ops dw_chunk kB fmin wmin c coeffs jit jit2 always inch sheets rc
    line ns file u k lu b nb param asr _ src sl T Nf Hl Nu Hu Nl Hb ltac:(lra) Nb Np Na Nr) as (a & w & p & lim' & rnd & rnd2 & Sa & Sw & _ & Sl & J1 & J2 & M).
  cbv beta in M. rewrite M in H. destruct (powder_from_fc _ _ _ _ _ _ _ _ _ _ _ _ _ _ _ _ _ _ _ _ _ _ _ _ _ _ _) as [[[e' bins'] z']|] eqn:P; [|discriminate].
  assert (bins' = bins) by congruence. assert (z' = z) by congruence. assert (lim' = lim) by congruence. assert (Ee : edges = map (fun q => q / b) e') by congruence. subst bins' z' lim'.
  assert (X : e' = q_edges a) by (eapply edges_of; exact P).
  pose proof Sa as Sa'. destruct Sa' as ((x0 & X0 & A0) & (x1 & X1 & A1) & (xs & Xs & As) & _ & _ & _ & _ & Ab & _).
  assert (x0 = q0) by congruence. assert (x1 = q1) by congruence. assert (xs = qs) by congruence. subst x0 x1 xs.
  assert (Eb : p_ebins a = nb) by (rewrite Nb in Ab; injection Ab as Ab; lia).
  assert (Hs' : 0 < M_powder.q_spacing a) by (rewrite As; apply Rmult_lt_0_compat; lra).
  assert (Hq' : q_min a < q_max a) by (rewrite A0, A1; apply Rmult_lt_compat_r; lra).
  destruct (L_powder.q_axis a Hs' Hq') as (N1 & Ev & W & Mn). set (N := Z.to_nat (n_q_bins a)) in *. assert (Nn : 0 < INR N) by (apply lt_0_INR; lia).
  exists a, w, rnd, rnd2, e', param, asr, N. repeat (split; [first [exact Ee | exact Sa | exact Sw | exact J1 | exact J2 | exact Sl | exact Np | exact Na | exact P | reflexivity | assumption]|]).
  split; [rewrite X; exact (proj1 Ev)|]. split; [rewrite Ee, X; apply axis_bohr; [lra|]; rewrite <- A0, <- A1; exact Ev|].
  rewrite A0, A1, As in W, Mn. split.
  - apply (Rmult_le_reg_r b); [exact B0|]. replace ((q1 - q0) / INR N * b) with ((q1 * b - q0 * b) / INR N) by (field; lra). exact W.
  - intros m Hm Hw. apply Mn; [exact Hm|]. assert (0 < INR m) by (apply lt_0_INR; lia). apply (Rmult_le_compat_r b) in Hw; [|lra]. replace ((q1 * b - q0 * b) / INR m) with ((q1 - q0) / INR m * b) by (field; lra). exact Hw.
Qed.

Lemma plain_map line ns : tool_args line = Ok ns -> (forall o, In o not_plain_map -> ~ In o line) ->
  ns "weighting" = Some (VStr "dos") /\ ns "pdos" = Some VNone /\ ns "asr" = Some VNone /\ ns "energy_broadening" = Some VNone /\ ns "q_broadening" = Some VNone /\ ns "e_i" = Some VNone /\ ns "e_f" = Some VNone /\
  ns "use_brille" = Some (VBool false).
Proof.
  intros T N.
  split; [row_of T N ["--weighting"; "-w"] "weighting" (OneOf ["dos"; "coherent-dos"; "incoherent-dos"; "coherent-plus-incoherent-dos"; "coherent"]) (VStr "dos")|].
  split; [row_of T N ["--pdos"] "pdos" (Optional (Exactly 1 Text)) VNone|].
  split; [row_of T N ["--asr"] "asr" (Optional (OneOf ["reciprocal"; "realspace"])) VNone|].
  split; [row_of T N ["--energy-broadening"; "--eb"] "energy_broadening" (Optional (OneOrMore Number)) VNone|].
  split; [row_of T N ["--q-broadening"; "--qb"] "q_broadening" (Optional (OneOrMore Number)) VNone|].
  split; [row_of T N ["--e-incident"; "--e-i"] "e_i" (Optional Number) VNone|].
  split; [row_of T N ["--e-final"; "--e-f"] "e_f" (Optional Number) VNone|].
  row_of T N ["--use-brille"] "use_brille" YesNo (VBool false).
Qed.
Lemma no_extras ns b a : says_map ns b a -> ns "energy_broadening" = Some VNone -> ns "q_broadening" = Some VNone -> ns "e_i" = Some VNone -> ns "e_f" = Some VNone ->
  p_qb a = None /\ p_eb a = None /\ p_ei a = None /\ p_ef a = None.
Proof.
  intros (_ & _ & _ & _ & _ & _ & _ & _ & _ & _ & Ki & Kf & _ & Wq & We & _) N1 N2 N3 N4. unfold numbers in *. split; [destruct (p_qb a); [destruct Wq as (? & X & _); congruence|reflexivity]|].
  split; [destruct (p_eb a); cbn [maybe] in We; [congruence|reflexivity]|]. split; [destruct (p_ei a); cbn [maybe] in Ki; [congruence|reflexivity]|]. destruct (p_ef a); cbn [maybe] in Kf; [congruence|reflexivity].
Qed.
Lemma main_counts d mass born diel : home_first d -> search_complete d -> det3 (zrows (f_sc d)) <> 0 -> fc_symmetric d -> symmetric3 diel -> csolves ceigh ->
  exists L, shares_images d L /\
  forall line ns file u k lu b param nb q0 q1 qs src sl edges bins z lim fig,
  tool_args line = Ok ns -> (forall o, In o not_plain_map -> ~ In o line) ->
  ns "filename" = Some (VStr file) -> load file = Ok (Some (new_fc d mass born diel, src, sl)) ->
  ns "energy_unit" = Some (VStr u) -> hartree u = Some k -> 0 < k -> ns "length_unit" = Some (VStr lu) -> bohr lu = Some b -> 0 < b ->
  ns "dipole_parameter" = Some (VFloat param) -> ns "ebins" = Some (VInt (Z.of_nat nb)) -> (1 <= nb)%nat ->
  ns "q_min" = Some (VFloat q0) -> ns "q_max" = Some (VFloat q1) -> ns "q_spacing" = Some (VFloat qs) -> 0 <= q0 -> q0 < q1 -> 0 < qs ->
  S_sample.solves solve -> det3 (f_cell d) <> 0 ->
  main line = Ok (edges, bins, z, lim, fig) ->
  exists N f, (1 <= N)%nat /\ even_bins q0 q1 N edges /\ (q1 - q0) / INR N <= qs /\ (forall m, (1 <= m)%nat -> (q1 - q0) / INR m <= qs -> (N <= m)%nat) /\ asked_scale ns f /\
  length bins = (nb + 1)%nat /\ increasing bins /\
  forall i, (i < N)%nat -> let q := bin_middle edges i in exists np way rnd rnd2 l ps e,
    asked_points ns q np /\ ns "sampling" = Some (VStr way) /\ says_jitter ns jit rnd /\ says_jitter ns jit2 rnd2 /\
    get_qpts_sphere np way (rnd (q * b)) (rnd2 (q * b)) (always (q * b)) = Ok l /\
    length ps = length l /\ on_shell (reciprocal_cell (f_cell d)) (q * b) ps /\ crystal_modes erfc d mass born diel param L ps e /\
    forall j, (j < nb)%nat -> exists v, z i j = Some v /\ v * (nth (S j) bins 0 - nth j bins 0) =
      f * (3 / INR (3 * M_dynmat.n_atoms d) * average (seq 0 (length ps)) (modes_in k (et e) (nth j bins 0) (nth (S j) bins 0))).
Proof.
  intros Hh Hc Hd Hf He Hsv. destruct (L_powcalc.powder_counts erfc reigh argsort chunk ceigh d mass born diel Hh Hc Hd Hf He Hsv) as (L & HL & P). exists L. split; [exact HL|].
  intros line ns file u k lu b param nb q0 q1 qs src sl edges bins z lim fig T Np Nf Hl Nu Hu Hk Nl Hb B0 Npar Nb Hn Q0 Q1 Qs H0 Hq Hs Hso Hdc H.
  destruct (plain_map line ns T Np) as (Dw & Dp & Da & De & Dq & Di & Df & Dbr).
  destruct (main_axis line ns file u k lu b nb d mass born diel src sl q0 q1 qs edges bins z lim fig T Nf Hl Nu Hu Nl Hb B0 Nb Dbr Q0 Q1 Qs Hq Hs H)
    as (a & w & rnd & rnd2 & e' & param' & asr & N & Ee & Sa & Sw & J1 & J2 & Sl & Spar & Sasr & R0 & En & A0 & A1 & As & Ab & N1 & Le & Ev & W & Mn).
  assert (param' = param) by congruence. subst param'. assert (asr = None) by (destruct Sasr as [[_ X]|[[X _]|[X _]]]; [exact X|congruence|congruence]). subst asr.
  destruct (no_extras ns b a Sa De Dq Di Df) as (Wq & We & Ki & Kf).
  pose proof Sw as (W1 & W2 & _ & _ & _ & W6). assert (Ew : w_weighting w = "dos") by congruence. assert (Ep : w_pdos w = None) by (rewrite Dp in W2; destruct (w_pdos w); [discriminate W2|reflexivity]).
  exists N, (p_factor a). split; [exact N1|]. split; [exact Ev|]. split; [exact W|]. split; [exact Mn|]. split; [exact (scale_of ns a b Sa)|].
  assert (H0' : 0 <= q_min a) by (rewrite A0; apply Rmult_le_pos; lra). assert (Hq' : q_min a < q_max a) by (rewrite A0, A1; apply Rmult_lt_compat_r; lra). assert (Hs' : 0 < M_powder.q_spacing a) by (rewrite As; apply Rmult_lt_0_compat; lra).
  assert (Hn' : (1 <= p_ebins a)%nat) by lia.
  destruct (P junk before param solve (ops (new_fc d mass born diel)) dw_chunk kB fmin wmin k c src sl rnd rnd2 always coeffs (hbar2 u) (room u) a w e' bins z Hso Hdc Hk H0' Hq' Hs' Hn' Wq We Ki Kf Ew Ep R0) as (Lb & Ib & Rows).
  split; [rewrite Lb; lia|]. split; [exact Ib|]. intros i Hi q. destruct (Rows i ltac:(lia)) as (l & ps & e & G & Lp & Os & Cm & V).
  assert (Mq : bin_middle e' i = q * b) by (unfold q; rewrite Ee; apply middle_bohr; [lra|lia]). rewrite Mq in G, Os.
  exists (shell_npts a (q * b)), (w_sampling w), rnd, rnd2, l, ps, e. split; [apply points_asked; assumption|]. split; [exact W6|]. split; [exact J1|]. split; [exact J2|]. split; [exact G|]. split; [exact Lp|]. split; [exact Os|]. split; [exact Cm|].
  intros j Hj. apply V. lia.
Qed.
Lemma main_coherent d mass born diel : home_first d -> search_complete d -> det3 (zrows (f_sc d)) <> 0 -> fc_symmetric d -> symmetric3 diel -> csolves ceigh ->
  exists L, shares_images d L /\
  forall line ns file u k lu b param nb q0 q1 qs src sl edges bins z lim fig,
  tool_args line = Ok ns -> ns "weighting" = Some (VStr "coherent") -> (forall o, In o not_plain_map -> ~ In o ["--weighting"; "-w"] -> ~ In o line) ->
  ns "filename" = Some (VStr file) -> load file = Ok (Some (new_fc d mass born diel, src, sl)) ->
  ns "energy_unit" = Some (VStr u) -> hartree u = Some k -> 0 < k -> ns "length_unit" = Some (VStr lu) -> bohr lu = Some b -> 0 < b ->
  ns "dipole_parameter" = Some (VFloat param) -> ns "ebins" = Some (VInt (Z.of_nat nb)) -> (1 <= nb)%nat -> (0 < dw_chunk)%nat ->
  ns "q_min" = Some (VFloat q0) -> ns "q_max" = Some (VFloat q1) -> ns "q_spacing" = Some (VFloat qs) -> 0 <= q0 -> q0 < q1 -> 0 < qs ->
  S_sample.solves solve -> det3 (f_cell d) <> 0 ->
  main line = Ok (edges, bins, z, lim, fig) ->
  exists N f t dd, (1 <= N)%nat /\ even_bins q0 q1 N edges /\ (q1 - q0) / INR N <= qs /\ (forall m, (1 <= m)%nat -> (q1 - q0) / INR m <= qs -> (N <= m)%nat) /\ asked_scale ns f /\
  length bins = (nb + 1)%nat /\ increasing bins /\ ns "temperature" = Some (maybe VFloat t) /\
  (match t with
   | None => dd = None
   | Some t => exists g mesh e d0, asked_grid ns (f_cell d) b g /\ grid_points g = Some mesh /\ crystal_modes erfc d mass born diel param L mesh e /\
       calculate_debye_waller dw_chunk e (M_sf.mkX mass (fun a => nth a (f_atom_r d) vzero) (reciprocal_cell (f_cell d))) kB t fmin (ops (new_fc d mass born diel)) = Ok d0 /\ dd = Some d0
   end) /\
  forall i, (i < N)%nat -> let q := bin_middle edges i in exists np way rnd rnd2 l ps e,
    asked_points ns q np /\ ns "sampling" = Some (VStr way) /\ says_jitter ns jit rnd /\ says_jitter ns jit2 rnd2 /\
    get_qpts_sphere np way (rnd (q * b)) (rnd2 (q * b)) (always (q * b)) = Ok l /\
    length ps = length l /\ on_shell (reciprocal_cell (f_cell d)) (q * b) ps /\ crystal_modes erfc d mass born diel param L ps e /\ ps <> [] /\
    forall j, (j < nb)%nat -> exists v, z i j = Some v /\ v * (nth (S j) bins 0 - nth j bins 0) =
      f * (c * average (seq 0 (length ps)) (scattered kB k t (f_cell d) sl mass (fun a => nth a (f_atom_r d) vzero) dd ps e (nth j bins 0) (nth (S j) bins 0))).
Proof.
  intros Hh Hc Hd Hf He Hsv. destruct (L_powcalc.powder_coherent erfc reigh argsort chunk ceigh d mass born diel Hh Hc Hd Hf He Hsv) as (L & HL & P). exists L. split; [exact HL|].
  intros line ns file u k lu b param nb q0 q1 qs src sl edges bins z lim fig T Dw Np Nf Hl Nu Hu Hk Nl Hb B0 Npar Nb Hn Hdw Q0 Q1 Qs H0 Hq Hs Hso Hdc H.
  assert (Dm : ns "asr" = Some VNone /\ ns "energy_broadening" = Some VNone /\ ns "q_broadening" = Some VNone /\ ns "e_i" = Some VNone /\ ns "e_f" = Some VNone /\ ns "use_brille" = Some (VBool false)).
  { assert (K : forall o, In o ["--asr"; "--energy-broadening"; "--eb"; "--q-broadening"; "--qb"; "--e-incident"; "--e-i"; "--e-final"; "--e-f"; "--use-brille"] -> ~ In o line).
    { intros o Io. apply Np; [cbn in Io |- *; tauto|]. intros X. cbn in Io, X. destruct X as [<-|[<-|[]]]; repeat (destruct Io as [Io|Io]; [discriminate Io|]); exact Io. }
    split; [row_of T K ["--asr"] "asr" (Optional (OneOf ["reciprocal"; "realspace"])) VNone|].
    split; [row_of T K ["--energy-broadening"; "--eb"] "energy_broadening" (Optional (OneOrMore Number)) VNone|].
    split; [row_of T K ["--q-broadening"; "--qb"] "q_broadening" (Optional (OneOrMore Number)) VNone|].
    split; [row_of T K ["--e-incident"; "--e-i"] "e_i" (Optional Number) VNone|].
    split; [row_of T K ["--e-final"; "--e-f"] "e_f" (Optional Number) VNone|].
    row_of T K ["--use-brille"] "use_brille" YesNo (VBool false). }
  destruct Dm as (Da & De & Dq & Di & Df & Dbr).
  destruct (main_axis line ns file u k lu b nb d mass born diel src sl q0 q1 qs edges bins z lim fig T Nf Hl Nu Hu Nl Hb B0 Nb Dbr Q0 Q1 Qs Hq Hs H)
    as (a & w & rnd & rnd2 & e' & param' & asr & N & Ee & Sa & Sw & J1 & J2 & Sl & Spar & Sasr & R0 & En & A0 & A1 & As & Ab & N1 & Le & Ev & W & Mn).
  assert (param' = param) by congruence. subst param'. assert (asr = None) by (destruct Sasr as [[_ X]|[[X _]|[X _]]]; [exact X|congruence|congruence]). subst asr.
  destruct (no_extras ns b a Sa De Dq Di Df) as (Wq & We & Ki & Kf).
  pose proof Sw as (W1 & W2 & W3 & W4 & (gs & W5 & W5') & W6). assert (Ew : w_weighting w = "coherent") by congruence.
  assert (H0' : 0 <= q_min a) by (rewrite A0; apply Rmult_le_pos; lra). assert (Hq' : q_min a < q_max a) by (rewrite A0, A1; apply Rmult_lt_compat_r; lra). assert (Hs' : 0 < M_powder.q_spacing a) by (rewrite As; apply Rmult_lt_0_compat; lra).
  assert (Hn' : (1 <= p_ebins a)%nat) by lia.
  destruct (P junk before param solve (ops (new_fc d mass born diel)) dw_chunk kB fmin wmin k c src sl rnd rnd2 always coeffs (hbar2 u) (room u) a w e' bins z Hso Hdc Hk Hdw H0' Hq' Hs' Hn' Wq We Ki Kf Ew R0) as (Lb & Ib & dd & Dd & Rows).
  exists N, (p_factor a), (w_temperature w), dd. split; [exact N1|]. split; [exact Ev|]. split; [exact W|]. split; [exact Mn|]. split; [exact (scale_of ns a b Sa)|].
  split; [rewrite Lb; lia|]. split; [exact Ib|]. split; [exact W3|]. split.
  { destruct (w_temperature w) as [t|]; [|exact Dd]. destruct Dd as (g & mesh & e & d0 & G & Gp & Cm & Dw' & X). exists g, mesh, e, d0. split; [|split; [exact Gp|split; [exact Cm|split; [exact Dw'|exact X]]]].
    unfold asked_grid. destruct g as [[g0 g1] g2]. unfold grid_spec in G. destruct (w_grid w) as [[[h0 h1] h2]|]; cbn [maybe] in W4.
    - left. assert (Y : (h0, h1, h2) = (g0, g1, g2)) by congruence. injection Y as -> -> ->. exact W4.
    - right. split; [exact W4|]. exists gs. split; [exact W5|]. rewrite <- W5'. exact G. }
  intros i Hi q. destruct (Rows i ltac:(lia)) as (l & ps & e & G & Lp & Os & Cm & Ne & V).
  assert (Mq : bin_middle e' i = q * b) by (unfold q; rewrite Ee; apply middle_bohr; [lra|lia]). rewrite Mq in G, Os.
  exists (shell_npts a (q * b)), (w_sampling w), rnd, rnd2, l, ps, e. split; [apply points_asked; assumption|]. split; [exact W6|]. split; [exact J1|]. split; [exact J2|]. split; [exact G|]. split; [exact Lp|]. split; [exact Os|]. split; [exact Cm|]. split; [exact Ne|].
  intros j Hj. apply V. lia.
Qed.

(** The line with nothing but the file *)
Lemma bare_settings file ns : tool_args [file] = Ok ns -> ns "filename" = Some (VStr file) /\ (forall r, In r (manual M_parser.PowderMap) -> ns (r_setting r) = Some (r_default r)) /\ forall o, In o not_plain_map -> ~ In o [file].
Proof.
  intros T. destruct (L_parser3.tool_inv int_of float_of M_parser.PowderMap _ [file] ns (L_parser3.parser_ok _) T) as (bef & bvs & after & avs & f & El & _ & _ & W & _ & _ & (Ef & _)).
  destruct bef as [|u bef]; [|exfalso; apply (f_equal (@List.length string)) in El; rewrite app_length in El; cbn in El; lia].
  cbn in El. assert (file = f) by congruence. subst f. split; [exact Ef|]. destruct W as [W _]. split.
  - intros r Ir. apply (row_default int_of float_of [file] ns r T Ir).
    intros s Is [<-|[]]. apply W. apply in_flat_map. destruct (proj1 (L_manual.manual_names M_parser.PowderMap _ r file (L_parser3.parser_ok _) Ir) Is) as (o & Io & _ & Jo & _). exists o. split; assumption.
  - intros o Io [<-|[]]. apply W.
    assert (X : incl not_plain_map (flat_map M_parser.o_names (L_parser3.options_of M_parser.PowderMap))) by (apply L_parser3.incl_strings; vm_compute; reflexivity). apply X. exact Io.
Qed.
Lemma main_bare d mass born diel : home_first d -> search_complete d -> det3 (zrows (f_sc d)) <> 0 -> fc_symmetric d -> symmetric3 diel -> csolves ceigh ->
  exists L, shares_images d L /\
  forall file k b src sl edges bins z lim fig,
  load file = Ok (Some (new_fc d mass born diel, src, sl)) -> hartree "meV" = Some k -> 0 < k -> bohr "angstrom" = Some b -> 0 < b ->
  S_sample.solves solve -> det3 (f_cell d) <> 0 ->
  main [file] = Ok (edges, bins, z, lim, fig) ->
  length edges = 121%nat /\ (forall i, (i <= 120)%nat -> nth i edges 0 = INR i * (25 / 1000)) /\ length bins = 201%nat /\ increasing bins /\ lim = (None, None) /\
  forall i, (i < 120)%nat -> let q := bin_middle edges i in exists l ps e,
    get_qpts_sphere (Z.to_nat 1000) "golden" None None (always (q * b)) = Ok l /\ length ps = length l /\ on_shell (reciprocal_cell (f_cell d)) (q * b) ps /\ crystal_modes erfc d mass born diel 1 L ps e /\
    forall j, (j < 200)%nat -> exists v, z i j = Some v /\ v * (nth (S j) bins 0 - nth j bins 0) =
      3 / INR (3 * M_dynmat.n_atoms d) * average (seq 0 (length ps)) (modes_in k (et e) (nth j bins 0) (nth (S j) bins 0)).
Proof.
  intros Hh Hc Hd Hf He Hsv. destruct (main_counts d mass born diel Hh Hc Hd Hf He Hsv) as (L & HL & M). exists L. split; [exact HL|].
  intros file k b src sl edges bins z lim fig Hl Hu Hk Hb B0 Hso Hdc H.
  destruct (main_ok _ _ _ _ _ _ _ _ _ _ _ _ _ _ _ _ _ _ _ _ _ _ _ _ _ _ _ _ _ _ _ _ H) as (ns & _ & _ & _ & _ & _ & _ & _ & _ & _ & _ & _ & T & _).
  destruct (bare_settings file ns T) as (Nf & D & Np).
  assert (Dc : ns "scale" = Some VNone) by (apply (D (mkRow ["--scale"] "scale" (Optional Number) VNone)); in_manual).
  assert (De : ns "energy_unit" = Some (VStr "meV")) by (apply (D (mkRow ["--energy-unit"; "-u"] "energy_unit" Text (VStr "meV"))); in_manual).
  assert (Dl : ns "length_unit" = Some (VStr "angstrom")) by (apply (D (mkRow ["--length-unit"] "length_unit" Text (VStr "angstrom"))); in_manual).
  assert (Dp : ns "dipole_parameter" = Some (VFloat 1)) by (apply (D (mkRow ["--dipole-parameter"] "dipole_parameter" Number (VFloat 1))); in_manual).
  assert (Db : ns "ebins" = Some (VInt (Z.of_nat 200))) by (apply (D (mkRow ["--ebins"] "ebins" Whole (VInt 200))); in_manual).
  assert (D0 : ns "q_min" = Some (VFloat 0)) by (apply (D (mkRow ["--q-min"] "q_min" Number (VFloat 0))); in_manual).
  assert (D1 : ns "q_max" = Some (VFloat 3)) by (apply (D (mkRow ["--q-max"] "q_max" Number (VFloat 3))); in_manual).
  assert (Ds : ns "q_spacing" = Some (VFloat (25 / 1000))) by (apply (D (mkRow ["--q-spacing"] "q_spacing" Number (VFloat (25 / 1000)))); in_manual).
  assert (Dn : ns "npts" = Some (VInt 1000)) by (apply (D (mkRow ["--npts"; "-n"] "npts" Whole (VInt 1000))); in_manual).
  assert (Dd : ns "npts_density" = Some VNone) by (apply (D (mkRow ["--npts-density"] "npts_density" (Optional Whole) VNone)); in_manual).
  assert (Dj : ns "jitter" = Some (VBool false)) by (apply (D (mkRow ["--jitter"] "jitter" YesNo (VBool false))); in_manual).
  assert (Dv : ns "vmin" = Some VNone) by (apply (D (mkRow ["--v-min"; "--vmin"] "vmin" (Optional Number) VNone)); in_manual).
  assert (Dx : ns "vmax" = Some VNone) by (apply (D (mkRow ["--v-max"; "--vmax"] "vmax" (Optional Number) VNone)); in_manual).
  assert (Da : ns "sampling" = Some (VStr "golden")).
  { apply (D (mkRow ["--sampling"] "sampling" (OneOf ["golden"; "sphere-projected-grid"; "spherical-polar-grid"; "spherical-polar-improved"; "random-sphere"]) (VStr "golden"))); in_manual. }
  destruct (plain_map [file] ns T Np) as (_ & _ & _ & _ & _ & _ & _ & Dbr).
  destruct (main_axis [file] ns file "meV" k "angstrom" b 200 d mass born diel src sl 0 3 (25 / 1000) edges bins z lim fig T Nf Hl De Hu Dl Hb B0 Db Dbr D0 D1 Ds ltac:(lra) ltac:(lra) H)
    as (_ & _ & _ & _ & _ & _ & _ & _ & _ & _ & _ & _ & _ & (V1 & V2) & _).
  destruct (M [file] ns file "meV" k "angstrom" b 1 200%nat 0 3 (25 / 1000) src sl edges bins z lim fig T Np Nf Hl De Hu Hk Dl Hb B0 Dp Db ltac:(lia) D0 D1 Ds ltac:(lra) ltac:(lra) ltac:(lra) Hso Hdc H)
    as (N & f & N1 & Ev & W & Mn & Fs & Lb & Ib & Rows).
  assert (EN : N = 120%nat).
  { apply Nat.le_antisymm; [apply Mn; [lia|]; rewrite INR_IZR_INZ; cbn [Z.of_nat Pos.of_succ_nat Pos.succ]; lra|]. apply INR_le. rewrite (INR_IZR_INZ 120). cbn [Z.of_nat Pos.of_succ_nat Pos.succ].
    assert (0 < INR N) by (apply lt_0_INR; lia). apply (Rmult_le_compat_r (INR N)) in W; [|lra]. unfold Rdiv in W at 1. rewrite Rmult_assoc, Rinv_l in W by lra. lra. }
  subst N. destruct Ev as [Le Ne]. assert (f = 1) by (destruct Fs as [[_ F]|F]; [exact F|congruence]). subst f.
  split; [exact Le|]. split; [intros i Hi; rewrite Ne by exact Hi; rewrite (INR_IZR_INZ 120); cbn [Z.of_nat Pos.of_succ_nat Pos.succ]; lra|]. split; [exact Lb|]. split; [exact Ib|].
  split; [destruct lim as [lo hi]; cbn [fst snd] in *; rewrite Dv in V1; rewrite Dx in V2; destruct lo; [discriminate V1|]; destruct hi; [discriminate V2|]; reflexivity|].
  intros i Hi q. destruct (Rows i Hi) as (np & way & rnd & rnd2 & l & ps & e & Ap & Aw & J1 & J2 & G & Lp & Os & Cm & V). exists l, ps, e.
  assert (way = "golden") by congruence. subst way.
  assert (np = Z.to_nat 1000) by (destruct Ap as [[_ (zz & X & ->)]|(? & ? & ? & ? & X & _)]; [congruence|congruence]). subst np.
  destruct J1 as [[X _]|[_ J1]]; [congruence|]. destruct J2 as [[X _]|[_ J2]]; [congruence|]. rewrite J1, J2 in G.
  split; [exact G|]. split; [exact Lp|]. split; [exact Os|]. split; [exact Cm|]. intros j Hj. destruct (V j Hj) as (v & Ev & Eq). exists v. split; [exact Ev|]. rewrite Eq. ring.
Qed.
End Main.
Section Same.
Variables (int_of : string -> option Z) (float_of : string -> option R).
Context {E : Type}. Variable load : string -> res (option (fcobj * sources * (nat -> R))) E.
Variables (hartree bohr : string -> option R) (room hbar2 : string -> R) (pretty pretty_q : string -> string).
Variables (erfc : R -> R) (reigh : real_eigh) (argsort : list R -> list nat) (chunk : nat).
Variables (solve : M3 -> V3 -> V3) (ops : fcobj -> option (list symop)) (dw_chunk : nat) (kB fmin wmin c : R) (coeffs : R -> list R).
Variables (jit : R -> nat -> R * R) (jit2 : R -> nat -> nat -> R * R) (always : R -> nat -> R * R).
Variables (inch : string -> option R) (sheets : string -> option sheet) (rc : string -> value).
Notation main ceigh junk before := (powder_main int_of float_of load hartree bohr room hbar2 pretty pretty_q erfc reigh ceigh argsort chunk junk before solve ops dw_chunk kB fmin wmin c coeffs jit jit2 always inch sheets rc).
Hypothesis read_new : forall file x src sl, load file = Ok (Some (x, src, sl)) -> exists d mass born diel, x = new_fc d mass born diel.
Lemma main_history ceigh junk junk' before before' line : main ceigh junk before line = main ceigh junk' before' line.
Proof.
  unfold powder_main. destruct (M_parser.tool_args _ _ _ _) as [ns|]; [|reflexivity]. destruct (powder_settings ns) as [s|]; [|reflexivity]. unfold powder_data.
  destruct (load (ps_file s)) as [[[[x src] sl]|]|] eqn:Hl; [|reflexivity|reflexivity]. destruct (read_new _ _ _ _ Hl) as (d & mass & born & diel & ->).
  destruct (pdos_clash _); [reflexivity|]. destruct (ps_brille s); [reflexivity|]. destruct (bohr _); [|reflexivity]. destruct (hartree _); [|reflexivity]. destruct (_ <? _)%Z; [reflexivity|].
  rewrite (L_powcalc.run_history erfc reigh argsort chunk ceigh d mass born diel junk before junk' before'). reflexivity.
Qed.
Lemma main_solvers ceigh ceigh' junk junk' before before' line ns r r' : csolves ceigh -> csolves ceigh' -> csorts ceigh -> csorts ceigh' ->
  M_parser.tool_args int_of float_of M_parser.PowderMap line = Ok ns -> ns "asr" <> Some (VStr "reciprocal") ->
  main ceigh junk before line = Ok r -> main ceigh' junk' before' line = Ok r' -> r = r'.
Proof.
  intros C C' O O' T Nr H H'. unfold powder_main in H, H'. rewrite T in H, H'. destruct (powder_settings ns) as [s|] eqn:S; [|discriminate].
  assert (Na : ps_asr s <> Some Reciprocal).
  { intros X. destruct (settings_says _ _ S) as (_ & Sa & _). destruct Sa as [[_ Y]|[[Y _]|[_ Y]]]; congruence. }
  unfold powder_data in H, H'. destruct (load (ps_file s)) as [[[[x src] sl]|]|] eqn:Hl; [|discriminate|discriminate]. destruct (read_new _ _ _ _ Hl) as (d & mass & born & diel & ->).
  destruct (pdos_clash _); [discriminate|]. destruct (ps_brille s); [discriminate|]. destruct (bohr _) as [b|]; [|discriminate]. destruct (hartree _) as [k|]; [|discriminate]. destruct (_ <? _)%Z; [discriminate|].
  destruct (powder_from_fc erfc reigh ceigh _ _ _ _ _ _ _ _ _ _ _ _ _ _ _ _ _ _ _ _ _ _ _ _ _) as [[[e1 b1] z1]|] eqn:P; [|discriminate].
  destruct (powder_from_fc erfc reigh ceigh' _ _ _ _ _ _ _ _ _ _ _ _ _ _ _ _ _ _ _ _ _ _ _ _ _) as [[[e2 b2] z2]|] eqn:P'; [|discriminate].
  assert (X : (e1, b1, z1) = (e2, b2, z2)) by (eapply L_powcalc2.powder_solvers; [exact C|exact C'|exact O|exact O'|exact Na|exact P|exact P']).
  congruence.
Qed.
End Same.

(** ** Lines for a chain of atoms *)
From Verif Require Import L_nac L_chain L_calc4 L_weight L_doscalc2.
Definition some_ints (s : string) : option Z := if String.eqb s "1" then Some 1%Z else if String.eqb s "2" then Some 2%Z else if String.eqb s "5" then Some 5%Z else if String.eqb s "10" then Some 10%Z else if String.eqb s "1000" then Some 1000%Z else None.
Definition some_floats (s : string) : option R := if String.eqb s "0.1" then Some (1 / 10) else if String.eqb s "0.2" then Some (2 / 10) else if String.eqb s "1" then Some 1 else None.
Definition map_line : list string := ["chain.json"; "--q-min"; "0.1"; "--q-max"; "0.2"; "--q-spacing"; "0.1"; "--npts"; "10"; "--npts-max"; "1000"; "--ebins"; "5"].
Definition hot_line : list string := (map_line ++ ["--weighting"; "coherent"; "--temperature"; "1"; "--grid"; "2"; "1"; "1"])%list.
Definition the_map (b : R) (n : nat) : M_powder.pargs :=
  mkPA (1 / 10 * b) (2 / 10 * b) (1 / 10 * b) (Z.to_nat 10) None (Z.to_nat 100) (Z.to_nat 1000) n None None None None (0, 180) None None "gauss" None.
Lemma map_settings : exists ns p, M_parser.tool_args some_ints some_floats M_parser.PowderMap map_line = Ok ns /\
  powder_settings ns = Some (mkPS "chain.json" None 1 "meV" "angstrom" 5 false false the_map (fun b => mkWA "dos" None None None (1 / 10 * b) "golden") (None, None) p).
Proof. eexists. eexists. split; [vm_compute; reflexivity|]. cbv. reflexivity. Qed.
Lemma hot_settings : exists ns p, M_parser.tool_args some_ints some_floats M_parser.PowderMap hot_line = Ok ns /\
  powder_settings ns = Some (mkPS "chain.json" None 1 "meV" "angstrom" 5 false false the_map (fun b => mkWA "coherent" None (Some 1) (Some (2, 1, 1)%Z) (1 / 10 * b) "golden") (None, None) p).
Proof. eexists. eexists. split; [vm_compute; reflexivity|]. cbv. reflexivity. Qed.
Lemma the_map_ten : the_map 10 5 = L_powder.plain_args.
Proof.
  unfold the_map, L_powder.plain_args. replace (1 / 10 * 10) with 1 by lra. replace (2 / 10 * 10) with 2 by lra.
  change (Z.to_nat 10) with 10%nat. change (Z.to_nat 100) with 100%nat. replace (Z.to_nat 1000) with 1000%nat by (vm_compute; reflexivity). reflexivity.
Qed.
Lemma chain_main pretty pretty_q hbar2 room erfc reigh argsort chunk coeffs junk before wmin jit jit2 inch sheets rc sl k0 k1 line : Rabs k1 < k0 -> (forall u, 0 < room u) -> In line [map_line; hot_line] ->
  exists solve r, S_sample.solves solve /\ det3 (f_cell (chain k0 k1)) <> 0 /\
  powder_main some_ints some_floats (fun _ => @Ok _ unit (Some (new_fc (chain k0 k1) one_mass None unit_cell3, salt, sl))) (fun _ => Some 1) (fun _ => Some 10) room hbar2 pretty pretty_q
    erfc reigh cdiag argsort chunk junk before solve (fun _ => None) 1 1 0 wmin 1 coeffs jit jit2 (fun _ _ => (0, 0)) inch sheets rc line = Ok r.
Proof.
  intros Hk Hr Il. set (w := if string_dec (last line "") "1" then L_powcalc2.of_hot else L_powcalc2.of_dos).
  destruct (L_powcalc2.chain_powder erfc reigh argsort chunk coeffs cdiag k0 k1 (diag_good k0 k1 Hk) junk before 1 wmin (hbar2 "meV") (room "meV") sl w (Hr "meV")) as (sv & [[e b] z] & So & Hd & P).
  { unfold w. destruct (string_dec _ _); [right; right; left|left]; reflexivity. }
  exists sv. destruct Il as [<-|[<-|[]]].
  - destruct map_settings as (ns & p & T & Es). eexists. split; [exact So|]. split; [exact Hd|]. unfold powder_main. rewrite T, Es. unfold powder_data.
    cbn [ps_file ps_weight ps_brille ps_lunit ps_eunit ps_ebins ps_asr ps_param ps_jitter ps_map ps_limits ps_plot]. change (5 <? 0)%Z with false. change (Z.to_nat 5) with 5%nat. cbv iota. rewrite the_map_ten.
    replace (1 / 10 * 10) with 1 by lra. change (mkWA "dos" None None None 1 "golden") with w. match goal with |- context [pdos_clash ?y] => change (pdos_clash y) with false end. cbv iota. rewrite P. reflexivity.
  - destruct hot_settings as (ns & p & T & Es). eexists. split; [exact So|]. split; [exact Hd|]. unfold powder_main. rewrite T, Es. unfold powder_data.
    cbn [ps_file ps_weight ps_brille ps_lunit ps_eunit ps_ebins ps_asr ps_param ps_jitter ps_map ps_limits ps_plot]. change (5 <? 0)%Z with false. change (Z.to_nat 5) with 5%nat. cbv iota. rewrite the_map_ten.
    replace (1 / 10 * 10) with 1 by lra. change (mkWA "coherent" None (Some 1) (Some (2, 1, 1)%Z) 1 "golden") with w. match goal with |- context [pdos_clash ?y] => change (pdos_clash y) with false end. cbv iota. rewrite P. reflexivity.
Qed.
