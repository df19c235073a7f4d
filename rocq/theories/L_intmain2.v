(** Lemmas for C102: the program. *)
From Coq Require Import String Sorted Permutation FunctionalExtensionality.
From Verif Require L_bands2 L_unique3 L_brille L_bands3 L_doscalc L_calc L_powmain L_intmap2 L_intmap4 L_path.
From Verif Require Import Base Cpx Vec3 M_grid M_cell M_qpts M_dynmat M_dipole M_struct M_asr M_calc M_path M_broad M_dos M_reorder M_bins M_bands M_intmap M_style M_dosmain M_powmain M_intmain
  S_qpts S_path S_broad S_dynmat S_dipole S_asr S_calc S_bins S_dos S_reorder S_powder S_intmap S_bands S_unique S_dosmain S_powmain S_intmain L_path2 L_calc7 L_intmain.
From Verif Require M_parser S_parser S_manual L_parser3 L_manual L_dosmain.
From Verif Require Import L_mainline.
Import M_parser (val(..), namespace).
Open Scope R_scope.
Open Scope string_scope.
Import S_manual.

Section Main.
Variables (int_of : string -> option Z) (float_of : string -> option R).
Context {E : Type}. Variable load : string -> bool -> res ddata E.
Variables (hartree angstrom : string -> option R) (room : string -> R) (pretty : string -> string).
Variable seekpath : M3 -> list V3 -> list nat -> R -> bpath.
Variables (erfc : R -> R) (reigh : real_eigh) (ceigh : complex_eigh) (argsort : list R -> list nat) (chunk : nat) (junk : nat -> nat -> nat -> R).
Variables (found : list V3 -> ticks) (kx ax wmin : R) (coeffs : R -> list R).
Variable coherent : ddata -> option asr_kind -> R -> option (Z * Z * Z) * R -> list V3 -> etable -> option R -> list R -> option (list (list R)).
Variables (inch : string -> option R) (sheets : string -> option sheet) (rc : string -> value).
Notation tool_args := (M_parser.tool_args int_of float_of M_parser.IntensityMap).
Notation main := (int_main int_of float_of load hartree angstrom room pretty seekpath erfc reigh ceigh argsort chunk junk found kx ax wmin coeffs coherent inch sheets rc).
Notation path := (int_path seekpath erfc reigh ceigh argsort chunk junk found kx coherent).
Notation frequencies_only we := (negb (String.eqb we "coherent")).
Lemma all_settings line ns : tool_args line = Ok ns -> exists s, int_settings ns = Some s /\
  ns "filename" = Some (VStr (is_file s)) /\ ns "weighting" = Some (VStr (is_weighting s)) /\ ns "temperature" = Some (maybe VFloat (is_temperature s)) /\
  ns "length_unit" = Some (VStr (is_lunit s)) /\ ns "q_spacing" = Some (VFloat (is_spacing s)) /\ says_asr ns (is_asr s) /\ ns "dipole_parameter" = Some (VFloat (is_param s)) /\
  ns "energy_unit" = Some (VStr (is_eunit s)) /\ ns "ebins" = Some (VInt (is_ebins s)) /\ (forall l, says_dw_grid ns l (fst (is_grid s), snd (is_grid s) / l)) /\
  (forall y n, is_ebins s = Z.of_nat n -> says_intensity ns y (is_map s y n)) /\ says_limits ns (is_limits s) /\ says_int_plot ns (is_plot s).
Proof.
  intros T. destruct (settings_read int_of float_of line ns T) as [s S]. exists s. split; [exact S|]. apply settings_says; [|exact S]. exact (widths_given int_of float_of line ns T).
Qed.
Lemma main_typed line : main line <> Err IAttributeErr.
Proof.
  unfold int_main. destruct (tool_args line) as [ns|e] eqn:T; [|discriminate]. destruct (settings_read int_of float_of line ns T) as [s ->].
  unfold int_data. destruct (load _ _); [|discriminate]. destruct (needs _ _ _); [discriminate|]. destruct (angstrom _); [|discriminate]. destruct (int_path _ _ _ _ _ _ _ _ _ _ _ _ _ _ _); [|discriminate].
  destruct (hartree _); [|discriminate]. destruct (_ <? _)%Z; [discriminate|]. destruct (intensity_tool _ _ _ _ _ _); discriminate.
Qed.
Lemma main_refused line e : tool_args line = Err e -> main line = Err (ILineErr e).
Proof. intros T. unfold int_main. rewrite T. reflexivity. Qed.
Lemma temp_is ns te te' : ns "temperature" = Some (maybe VFloat te) -> ns "temperature" = Some (maybe VFloat te') -> te = te'.
Proof. intros A B. rewrite A in B. destruct te, te'; cbn [maybe] in B; congruence. Qed.
Lemma main_refuses line ns file we te : tool_args line = Ok ns -> ns "filename" = Some (VStr file) -> ns "weighting" = Some (VStr we) -> ns "temperature" = Some (maybe VFloat te) ->
  (forall e, load file (frequencies_only we) = Err e -> main line = Err (ILoadErr e)) /\
  (forall cell qpts t, we = "coherent" -> load file false = Ok (DFreqs cell qpts t) -> main line = Err (IRunErr NeedsEigenvectors)) /\
  (forall cell qpts e, we = "coherent" -> te <> None -> load file false = Ok (DModes cell qpts e) -> main line = Err (IRunErr NeedsForceConstants)) /\
  forall d lu, load file (frequencies_only we) = Ok d -> needs we te d = None -> ns "length_unit" = Some (VStr lu) ->
    (angstrom lu = None -> main line = Err (IUnitErr lu)) /\
    forall l u p asr param sp g, angstrom lu = Some l -> says_asr ns asr -> ns "dipole_parameter" = Some (VFloat param) -> ns "q_spacing" = Some (VFloat sp) -> says_dw_grid ns l g ->
      path asr param (sp / l) g d = Ok p -> ns "energy_unit" = Some (VStr u) ->
      (hartree u = None -> main line = Err (IUnitErr u)) /\
      forall n, hartree u <> None -> ns "ebins" = Some (VInt n) -> (n < 1)%Z -> main line = Err IBinsErr.
Proof.
  intros T Nf Nw Nt. destruct (all_settings line ns T) as (s & S & S1 & S2 & S3 & S4 & S5 & S6 & S7 & S8 & S9 & S10 & _).
  assert (Ef : is_file s = file) by congruence. assert (Ew : is_weighting s = we) by congruence. assert (Et : is_temperature s = te) by exact (temp_is ns _ _ S3 Nt).
  unfold int_main. rewrite T, S. unfold int_data. rewrite Ef, Ew, Et. split; [intros e ->; reflexivity|]. split; [intros cell qpts t -> L; cbn [String.eqb Ascii.eqb Bool.eqb negb]; rewrite L; reflexivity|].
  split; [intros cell qpts e -> Hn L; cbn [String.eqb Ascii.eqb Bool.eqb negb]; rewrite L; destruct te; [reflexivity|contradiction]|].
  intros d lu L N Nl. assert (El : is_lunit s = lu) by congruence. rewrite L, N, El. split; [intros ->; reflexivity|].
  intros l u p asr param sp g Ha Sa Np Ns Sg P Nu. rewrite Ha. assert (X1 : is_asr s = asr) by exact (asr_one ns _ _ S6 Sa). assert (X2 : is_param s = param) by congruence. assert (X3 : is_spacing s = sp) by congruence.
  assert (X4 : (fst (is_grid s), snd (is_grid s) / l) = g).
  { destruct (S10 l) as (G1 & y & G2 & G3), Sg as (G1' & y' & G2' & G3'). destruct g as [g1 g2]. cbn [fst snd] in *. f_equal; [|congruence].
    rewrite G1 in G1'. destruct (fst (is_grid s)) as [[[? ?] ?]|], g1 as [[[? ?] ?]|]; cbn [maybe] in G1'; congruence. }
  rewrite X1, X2, X3, X4, P. assert (X5 : is_eunit s = u) by congruence. rewrite X5. split; [intros ->; reflexivity|].
  intros n Hh Nn Hn. destruct (hartree u); [|contradiction]. assert (X6 : is_ebins s = n) by congruence. rewrite X6. destruct (Z.ltb_spec n 1); [reflexivity|lia].
Qed.
Lemma main_settings line ns file we te d lu l u k n : tool_args line = Ok ns ->
  ns "filename" = Some (VStr file) -> ns "weighting" = Some (VStr we) -> ns "temperature" = Some (maybe VFloat te) -> load file (frequencies_only we) = Ok d -> needs we te d = None ->
  ns "length_unit" = Some (VStr lu) -> angstrom lu = Some l -> ns "energy_unit" = Some (VStr u) -> hartree u = Some k -> ns "ebins" = Some (VInt (Z.of_nat n)) -> (1 <= n)%nat ->
  exists a asr param sp g pl lim, says_intensity ns (/ l * ax) a /\ says_asr ns asr /\ ns "dipole_parameter" = Some (VFloat param) /\ ns "q_spacing" = Some (VFloat sp) /\ says_dw_grid ns l g /\
  says_int_plot ns pl /\ says_limits ns lim /\
  main line = match path asr param (sp / l) g d with
              | Err e => Err (IBandErr e)
              | Ok p => match intensity_tool coeffs k (room u) wmin a p with
                        | Err e => Err (IRunErr e)
                        | Ok (bins, s, segs) => Ok (bins, s, segs, lim, finish inch sheets rc IntensityMap pl "" (pretty u)) end end.
Proof.
  intros T Nf Nw Nt L N Nl Ha Nu Hu Nn Hn. destruct (all_settings line ns T) as (s & S & S1 & S2 & S3 & S4 & S5 & S6 & S7 & S8 & S9 & S10 & S11 & S12 & S13).
  assert (Ef : is_file s = file) by congruence. assert (Ew : is_weighting s = we) by congruence. assert (Et : is_temperature s = te) by exact (temp_is ns _ _ S3 Nt).
  assert (El : is_lunit s = lu) by congruence. assert (Eu : is_eunit s = u) by congruence. assert (En : is_ebins s = Z.of_nat n) by congruence.
  exists (is_map s (/ l * ax) n), (is_asr s), (is_param s), (is_spacing s), (fst (is_grid s), snd (is_grid s) / l), (is_plot s), (is_limits s).
  split; [apply S11; exact En|]. split; [exact S6|]. split; [exact S7|]. split; [exact S5|]. split; [apply S10|]. split; [exact S13|]. split; [exact S12|].
  unfold int_main. rewrite T, S. unfold int_data. rewrite Ef, Ew, Et, L, N, El, Ha, Eu, En. destruct (path _ _ _ _ d) as [p|]; [|reflexivity]. rewrite Hu. destruct (Z.ltb_spec (Z.of_nat n) 1); [lia|].
  rewrite Nat2Z.id. destruct (intensity_tool _ _ _ _ _ _) as [[[? ?] ?]|]; reflexivity.
Qed.
Lemma main_order l bef file after bef' after' ovs : M_parser.get_parser M_parser.IntensityMap = Ok (true, l) ->
  Forall2 (S_parser.stands_for int_of float_of l) (bef ++ after) ovs -> S_parser.word l file -> S_parser.compatible ovs -> NoDup (map (fun ov => M_parser.o_dest (fst ov)) ovs) ->
  Permutation (bef ++ after) (bef' ++ after') ->
  (forall b u, bef = (b ++ [u])%list -> forall o, In o l -> In (S_parser.u_name u) (M_parser.o_names o) -> S_parser.has_enough o (S_parser.u_words u)) ->
  (forall b u, bef' = (b ++ [u])%list -> forall o, In o l -> In (S_parser.u_name u) (M_parser.o_names o) -> S_parser.has_enough o (S_parser.u_words u)) ->
  main (S_parser.written bef ++ file :: S_parser.written after) = main (S_parser.written bef' ++ file :: S_parser.written after').
Proof.
  intros P F W C Nd Pm B B'. unfold int_main. exact (same_settings int_of float_of M_parser.IntensityMap (fun x => match x with Err e => Err (ILineErr e) | Ok ns => _ end) l bef file after bef' after' ovs P F W C Nd Pm B B').
Qed.
(** An accepted line whose map was made *)
Lemma main_ok line bins sp0 segs lim fig : main line = Ok (bins, sp0, segs, lim, fig) -> exists ns file we te d lu l u k n a asr param sp g pl p, tool_args line = Ok ns /\
  ns "filename" = Some (VStr file) /\ ns "weighting" = Some (VStr we) /\ ns "temperature" = Some (maybe VFloat te) /\ load file (frequencies_only we) = Ok d /\ needs we te d = None /\
  ns "length_unit" = Some (VStr lu) /\ angstrom lu = Some l /\ ns "energy_unit" = Some (VStr u) /\ hartree u = Some k /\ ns "ebins" = Some (VInt (Z.of_nat n)) /\ (1 <= n)%nat /\
  says_intensity ns (/ l * ax) a /\ says_asr ns asr /\ ns "dipole_parameter" = Some (VFloat param) /\ ns "q_spacing" = Some (VFloat sp) /\ says_dw_grid ns l g /\ says_int_plot ns pl /\ says_limits ns lim /\
  path asr param (sp / l) g d = Ok p /\ intensity_tool coeffs k (room u) wmin a p = Ok (bins, sp0, segs) /\ fig = finish inch sheets rc IntensityMap pl "" (pretty u).
Proof.
  intros H. pose proof H as H0. unfold int_main in H. destruct (tool_args line) as [ns|e] eqn:T; [|discriminate]. destruct (all_settings line ns T) as (s & S & S1 & S2 & S3 & S4 & S5 & S6 & S7 & S8 & S9 & S10 & S11 & S12 & S13). rewrite S in H.
  unfold int_data in H. destruct (load _ _) as [d|] eqn:L; [|discriminate]. destruct (needs _ _ _) eqn:N; [discriminate|]. destruct (angstrom _) as [l|] eqn:Ha; [|discriminate].
  destruct (path _ _ _ _ d) as [p|] eqn:P; [|discriminate]. destruct (hartree _) as [k|] eqn:Hu; [|discriminate]. destruct (Z.ltb_spec (is_ebins s) 1) as [|Hn]; [discriminate|].
  assert (En : is_ebins s = Z.of_nat (Z.to_nat (is_ebins s))) by (rewrite Z2Nat.id; [reflexivity|lia]). set (n := Z.to_nat (is_ebins s)) in *.
  destruct (intensity_tool _ _ _ _ _ _) as [[[b1 s1] g1]|] eqn:D; [|discriminate].
  exists ns, (is_file s), (is_weighting s), (is_temperature s), d, (is_lunit s), l, (is_eunit s), k, n, (is_map s (/ l * ax) n), (is_asr s), (is_param s), (is_spacing s), (fst (is_grid s), snd (is_grid s) / l), (is_plot s), p.
  assert (b1 = bins) by congruence. assert (s1 = sp0) by congruence. assert (g1 = segs) by congruence. assert (lim = is_limits s) by congruence. assert (fig = finish inch sheets rc IntensityMap (is_plot s) "" (pretty (is_eunit s))) by congruence. subst b1 s1 g1 lim.
  split; [reflexivity|]. split; [exact S1|]. split; [exact S2|]. split; [exact S3|]. split; [exact L|]. split; [exact N|]. split; [exact S4|]. split; [exact Ha|]. split; [exact S8|]. split; [exact Hu|].
  split; [rewrite <- En; exact S9|]. split; [lia|]. split; [apply S11; exact En|]. split; [exact S6|]. split; [exact S7|]. split; [exact S5|]. split; [apply S10|]. split; [exact S13|]. split; [exact S12|]. split; [exact P|]. split; [exact D|assumption].
Qed.

Lemma plain_settings line ns : tool_args line = Ok ns -> (forall o, In o not_plain_int -> ~ In o line) ->
  ns "weighting" = Some (VStr "dos") /\ ns "asr" = Some VNone /\ ns "q_broadening" = Some VNone /\ ns "energy_broadening" = Some VNone.
Proof using int_of float_of.
  intros T N. clear - T N. split; [row_of T N ["--weighting"; "-w"] "weighting" (OneOf ["dos"; "coherent"]) (VStr "dos")|].
  split; [row_of T N ["--asr"] "asr" (Optional (OneOf ["reciprocal"; "realspace"])) VNone|]. split; [row_of T N ["--q-broadening"; "--qb"] "q_broadening" (Optional (Exactly 1 Number)) VNone|].
  row_of T N ["--energy-broadening"; "--eb"] "energy_broadening" (Optional (OneOrMore Number)) VNone.
Qed.
Lemma plain_args ns y a : says_intensity ns y a -> ns "weighting" = Some (VStr "dos") -> ns "q_broadening" = Some VNone -> ns "energy_broadening" = Some VNone ->
  ia_weighting a = "dos" /\ ia_qb a = None /\ ia_eb a = None /\ (forall f, asked_scale ns f -> factor a = f) /\ (forall n, ns "ebins" = Some (VInt (Z.of_nat n)) -> ia_ebins a = n) /\
  (forall e, ns "e_min" = Some (VFloat e) -> ia_emin a = Some e) /\ (forall e, ns "e_max" = Some (VFloat e) -> ia_emax a = Some e).
Proof.
  intros (A1 & A2 & A3 & A4 & A5 & A6 & A7 & A8 & A9 & A10) W Q B. split; [congruence|].
  split; [destruct (ia_qb a); [destruct A6 as (v & X & _); congruence|reflexivity]|]. split; [destruct (ia_eb a) as [[? ?]|]; [rewrite A7 in B; discriminate B|reflexivity]|].
  split. { intros f [[X ->]|X]; unfold factor; rewrite A9 in X; destruct (ia_scale a); cbn [maybe] in X; congruence. }
  split. { intros n X. rewrite A3 in X. injection X as X. apply Nat2Z.inj in X. exact X. }
  split; intros e X; [rewrite A4 in X; destruct (ia_emin a)|rewrite A5 in X; destruct (ia_emax a)]; cbn [maybe] in X; congruence.
Qed.

Lemma main_map d mass born diel : home_first d -> search_complete d -> det3 (zrows (f_sc d)) <> 0 -> fc_symmetric d -> symmetric3 diel -> csolves ceigh -> labelled_path seekpath ->
  exists L, shares_images d L /\
  forall line ns file uc types u k lu param sp n f bins s segs lim fig,
  tool_args line = Ok ns -> (forall o, In o not_plain_int -> ~ In o line) ->
  ns "filename" = Some (VStr file) -> load file true = Ok (DForce uc types (new_fc d mass born diel)) ->
  ns "energy_unit" = Some (VStr u) -> hartree u = Some k -> 0 < k -> ns "length_unit" = Some (VStr lu) ->
  ns "dipole_parameter" = Some (VFloat param) -> ns "q_spacing" = Some (VFloat sp) -> ns "ebins" = Some (VInt (Z.of_nat n)) -> asked_scale ns f ->
  main line = Ok (bins, s, segs, lim, fig) ->
  exists l, angstrom lu = Some l /\
  let b := seekpath (cell_in uc (f_cell d)) (f_atom_r d) types (sp / l) in
  let N := (3 * M_dynmat.n_atoms d)%nat in
  along_path (reciprocal_cell (f_cell d)) kx (bp_k b) (xs s) /\ length (ys s) = length (bp_k b) /\
  (exists lo hi, lo < hi /\ even_bins lo hi n bins /\ (forall e, ns "e_min" = Some (VFloat e) -> lo = e) /\ (forall e, ns "e_max" = Some (VFloat e) -> hi = e)) /\
  (forall i q, nth_error (bp_k b) i = Some q -> exists md, modes_of N mass (whole_matrix erfc d born diel true param L q (if is_gamma q then Some (approach (bp_k b) i) else None)) md /\
     forall j, (j < n)%nat -> exists v, shows s i j v /\
       v * (nth (S j) bins 0 - nth j bins 0) = f * (3 / INR N * INR (length (filter (fun m => inside (nth j bins 0) (nth (S j) bins 0) (k * m_freq md m)) (seq 0 N))))) /\
  exists idx, region_starts (bp_labels b) idx /\ cut_at s idx segs.
Proof.
  intros Hh Hc Hd Hf He Hs Hp. destruct (modes_fourier erfc reigh ceigh argsort chunk d mass born diel Hh Hc Hd Hf He Hs) as (L & HL & HF). exists L. split; [exact HL|].
  intros line ns file uc types u k lu param sp n f bins s segs lim fig T N Nf Hl Nu Hu Hk Nl Np Ns Nn Hsc H.
  destruct (plain_settings line ns T N) as (Nw & Na & Nq & Nb).
  destruct (main_ok line bins s segs lim fig H) as (ns1 & file1 & we1 & te1 & d1 & lu1 & l & u1 & k1 & n1 & a & asr & param1 & sp1 & g & pl & p & T1 & F1 & W1 & _ & L1 & _ & Lu1 & Ha & U1 & K1 & N1 & Hn & SA & Sasr & P1 & Sp1 & _ & _ & _ & P & D & _).
  assert (ns1 = ns) by congruence. subst ns1. assert (file1 = file) by congruence. assert (we1 = "dos") by congruence. subst file1 we1. cbn [String.eqb Ascii.eqb Bool.eqb negb] in L1.
  assert (d1 = DForce uc types (new_fc d mass born diel)) by congruence. assert (u1 = u) by congruence. assert (lu1 = lu) by congruence. assert (param1 = param) by congruence. assert (sp1 = sp) by congruence. subst d1 u1 lu1 param1 sp1. assert (k1 = k) by congruence. subst k1.
  assert (asr = None) by (destruct Sasr as [[_ Y]|[[Y _]|[Y _]]]; [exact Y|congruence|congruence]). subst asr.
  destruct (plain_args ns _ a SA Nw Nq Nb) as (B1 & B2 & B3 & B4 & B5 & B6 & B7). specialize (B4 f Hsc). specialize (B5 n Nn). assert (n1 = n) by (apply Nat2Z.inj; congruence). subst n1.
  exists l. split; [exact Ha|]. cbv zeta.
  destruct (force_path seekpath erfc reigh argsort chunk found kx coherent _ _ _ _ _ _ _ _ _ _ P) as (w & ms & R & Lm & Ew & Ep). cbn [new_fc o_d] in R, Lm, Ew, Ep. fold (new_fc d mass born diel) in R.
  set (b := seekpath (cell_in uc (f_cell d)) (f_atom_r d) types (sp / l)) in *. destruct (Hp (cell_in uc (f_cell d)) (f_atom_r d) types (sp / l)) as [H0 H1]. fold b in H0, H1.
  rewrite (dos_only coeffs k (room u) wmin a p B1), Ep in D. unfold plain_data, without_coherent in D. cbn [pd_x pd_t pd_ticks] in D.
  set (t := et (mode_table 1 (M_dynmat.n_atoms d) w ms)) in *. set (pd := mkPd (calc_abscissa (reciprocal_cell (f_cell d)) kx (bp_k b)) t (found (bp_k b)) (fun _ _ => None)) in *.
  assert (PD : path_data pd).
  { split; [cbn [pd pd_x pd_t]; rewrite L_path.abscissa_length by exact H0; unfold t; cbn [mode_table et nq]; congruence|]. split; [|intros ? ? ? X; discriminate].
    cbn [pd pd_t]. unfold t. rewrite Ew. apply even_rows; [congruence|exact H0]. }
  destruct (L_intmap2.tool_inv _ _ _ _ _ _ _ _ _ D) as (_ & Eb & _). cbn [path_of pd pd_t] in Eb.
  destruct (L_intmap4.force_map coeffs k (room u) wmin a (bp_labels b) pd bins Hk ltac:(lia) PD ltac:(cbn [pd pd_t]; unfold t; cbn [mode_table et nq]; congruence) Eb B1 B2 B3) as (s' & segs' & idx & D' & X1 & X2 & X3 & X4 & X5).
  rewrite D in D'. injection D' as <- <-. cbn [pd pd_x pd_t] in X1, X2, X5.
  split; [rewrite X1; apply L_bands2.abscissa_along; exact H0|]. split; [rewrite X2; unfold t; cbn [mode_table et nq]; exact Lm|]. split.
  { destruct (L_intmap2.i_bins_spec k (room u) a t bins ltac:(lia) Eb) as (lo & hi & Y1 & Y2 & _ & Y3 & Y4). exists lo, hi. rewrite B5 in Y2. split; [exact Y1|]. split; [exact Y2|]. split; intros e Xe; [apply Y3, B6, Xe|apply Y4, B7, Xe]. }
  split; [|exists idx; split; [exact X3|exact X4]].
  destruct (HF [] junk _ _ w ms (eq_refl : p_asr (band_options b None param) = None) R) as (_ & _ & K). intros i q Hi. destruct (K i q Hi) as (md & Em & M). cbn [band_options p_reduce p_splitting p_param p_dipole andb] in M.
  exists md. split; [exact M|]. assert (Ii : (i < length ms)%nat) by (apply nth_error_Some; congruence).
  intros j Hj. destruct (X5 i j Ii ltac:(lia)) as (v & V1 & V2). exists v. split; [exact V1|]. rewrite V2, B4. f_equal. f_equal. unfold modes_in, t. cbn [mode_table et nm freq]. do 2 f_equal.
  apply filter_ext. intros m. rewrite (nth_error_nth _ _ _ Em). do 2 f_equal. ring.
Qed.
End Main.
