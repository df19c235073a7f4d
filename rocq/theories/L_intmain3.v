(** Lemmas for C102, continued: files of modes, running, uninitialised memory, eigensolvers. *)
From Coq Require Import String Sorted Permutation FunctionalExtensionality.
From Verif Require L_bands2 L_unique3 L_brille L_bands3 L_doscalc L_calc L_calc2 L_path L_powmain L_intmap2 L_intmap4 L_unique2.
From Verif Require Import Base Cpx Vec3 M_grid M_cell M_qpts M_dynmat M_dipole M_struct M_asr M_calc M_path M_broad M_dos M_clidos M_reorder M_bins M_bands M_intmap M_style M_dosmain M_powmain M_intmain
  S_qpts S_path S_broad S_dynmat S_dipole S_asr S_calc S_bins S_dos S_reorder S_powder S_intmap S_bands S_unique S_dosmain S_powmain S_intmain L_path2 L_calc7 L_calc9 L_intmain L_intmain2.
From Verif Require M_parser S_parser S_manual L_parser3 L_manual L_dosmain.
From Verif Require Import L_mainline.
Import M_parser (val(..), namespace).
Open Scope R_scope.
Open Scope string_scope.
Import S_manual.

(** ** Only the frequencies within the table matter *)
Definition same_table (t t' : ftable) : Prop := nq t = nq t' /\ nm t = nm t' /\ wt t = wt t' /\ forall q m, (q < nq t)%nat -> (m < nm t)%nat -> freq t q m = freq t' q m.
Lemma pairs_in t q m : In (q, m) (pairs t) -> (q < nq t)%nat /\ (m < nm t)%nat.
Proof. unfold pairs. intros I. apply in_prod_iff in I. destruct I as [A B]. apply in_seq in A. apply in_seq in B. lia. Qed.
Lemma same_pairs t t' : same_table t t' -> pairs t = pairs t'.
Proof. intros (A & B & _). unfold pairs. rewrite A, B. reflexivity. Qed.
Lemma hist_same k bins t t' wmin : same_table t t' -> calculate_dos_data k bins t None None wmin Reference = calculate_dos_data k bins t' None None wmin Reference.
Proof.
  intros S. pose proof (same_pairs t t' S) as P. destruct S as (A & B & W & F). unfold calculate_dos_data, dos_hist. rewrite <- B, <- A, <- W, <- P.
  destruct (digitize _) as [bin|]; [|reflexivity].
  match goal with |- context [map ?f (pairs t)] => match goal with |- context [map ?g (pairs t)] => lazymatch f with g => fail | _ => replace (map f (pairs t)) with (map g (pairs t)); [reflexivity|] end end end.
  apply map_ext_in. intros [q m] I. apply pairs_in in I. destruct I as [I J]. rewrite (F q m I J). reflexivity.
Qed.
Lemma map_same k bins t t' wmin : same_table t t' -> calculate_dos_map k bins t None wmin = calculate_dos_map k bins t' None wmin.
Proof.
  intros (A & B & W & F). unfold calculate_dos_map. rewrite <- A. apply L_unique2.mapE_ext. intros i I. apply in_seq in I. apply hist_same.
  split; [reflexivity|]. split; [exact B|]. split; [cbn [row_table wt]; rewrite W; reflexivity|]. intros q m _ Hm. cbn [row_table freq nm] in *. apply F; lia.
Qed.
Lemma freqs_same k t t' : same_table t t' -> all_freqs k t = all_freqs k t'.
Proof.
  intros S. unfold all_freqs. rewrite <- (same_pairs t t' S). apply map_ext_in. intros [q m] I. apply pairs_in in I. cbn [fst snd]. destruct S as (_ & _ & _ & F). rewrite (F q m) by apply I. reflexivity.
Qed.
Lemma tool_same coeffs k room wmin a labels x t t' ts c c' : ia_weighting a = "dos" -> same_table t t' ->
  intensity_tool coeffs k room wmin a (IForce labels (mkPd x t ts c)) = intensity_tool coeffs k room wmin a (IForce labels (mkPd x t' ts c')).
Proof.
  intros W S. unfold intensity_tool, refused, i_map, is_coherent, i_bins. rewrite W. cbn [String.eqb Ascii.eqb Bool.eqb negb path_of pd_t pd_x]. rewrite (freqs_same k t t' S).
  destruct (match all_freqs k t' with [] => Err EmptyRange | f0 :: fs => _ end) as [bins|]; [|reflexivity]. rewrite (map_same k bins t t' wmin S). reflexivity.
Qed.

Notation band_options_plain qs param := (mkOpts qs None None true param true false false false).
Section Main.
Variables (int_of : string -> option Z) (float_of : string -> option R).
Context {E : Type}. Variable load : string -> bool -> res ddata E.
Variables (hartree angstrom : string -> option R) (room : string -> R) (pretty : string -> string).
Variable seekpath : M3 -> list V3 -> list nat -> R -> bpath.
Variables (erfc : R -> R) (reigh : real_eigh) (argsort : list R -> list nat) (chunk : nat).
Variables (found : list V3 -> ticks) (kx ax wmin : R) (coeffs : R -> list R).
Variable coherent : ddata -> option asr_kind -> R -> option (Z * Z * Z) * R -> list V3 -> etable -> option R -> list R -> option (list (list R)).
Variables (inch : string -> option R) (sheets : string -> option sheet) (rc : string -> value).
Notation tool_args := (M_parser.tool_args int_of float_of M_parser.IntensityMap).
Notation main := (fun ceigh junk => int_main int_of float_of load hartree angstrom room pretty seekpath erfc reigh ceigh argsort chunk junk found kx ax wmin coeffs coherent inch sheets rc).
Notation path := (fun ceigh junk => int_path seekpath erfc reigh ceigh argsort chunk junk found kx coherent).

Lemma main_file ceigh junk line ns file u k lu l bt n f cell qpts d t bins s segs lim fig : tool_args line = Ok ns -> (forall o, In o not_plain_int -> o <> "--asr" -> ~ In o line) ->
  ns "filename" = Some (VStr file) -> load file true = Ok d -> ((exists e, d = DModes cell qpts e /\ t = et e) \/ d = DFreqs cell qpts t) ->
  0 <= kx -> (2 <= length qpts)%nat -> length qpts = nq t -> (forall q, (q < nq t)%nat -> wt t q <> 0) ->
  ns "length_unit" = Some (VStr lu) -> angstrom lu = Some l -> ns "energy_unit" = Some (VStr u) -> hartree u = Some k -> 0 < k -> ns "btol" = Some (VFloat bt) -> ns "ebins" = Some (VInt (Z.of_nat n)) -> asked_scale ns f ->
  main ceigh junk line = Ok (bins, s, segs, lim, fig) ->
  along_path (reciprocal_cell cell) kx qpts (xs s) /\ length (ys s) = length qpts /\ xticks s = Some (found qpts) /\
  (exists lo hi, lo < hi /\ even_bins lo hi n bins /\ (forall e, ns "e_min" = Some (VFloat e) -> lo = e) /\ (forall e, ns "e_max" = Some (VFloat e) -> hi = e)) /\
  (forall i j, (i < nq t)%nat -> (j < n)%nat -> exists v, shows s i j v /\ v * (nth (S j) bins 0 - nth j bins 0) = f * (3 / INR (nm t) * modes_in k t (nth j bins 0) (nth (S j) bins 0) i)) /\
  exists idx m, is_median m (gaps (xs s)) /\ StronglySorted lt idx /\ (forall b, In b idx <-> (0 < b < length (xs s))%nat /\ big_gap bt m (nth b (xs s) 0 - nth (b - 1) (xs s) 0)) /\ cut_at s idx segs.
Proof.
  intros T N Nf Hl Hd Hx H2 Hq Hw Nl Ha Nu Hu Hk Nb Nn Hsc H.
  assert (Nw : ns "weighting" = Some (VStr "dos")).
  { apply (row_default _ _ _ _ _ (mkRow ["--weighting"; "-w"] "weighting" (OneOf ["dos"; "coherent"]) (VStr "dos")) T); [in_manual|]. intros o Io. apply N; [cbn in Io |- *; tauto|]. intros ->. cbn in Io. destruct Io as [X|[X|[]]]; discriminate X. }
  assert (Nq : ns "q_broadening" = Some VNone).
  { apply (row_default _ _ _ _ _ (mkRow ["--q-broadening"; "--qb"] "q_broadening" (Optional (Exactly 1 Number)) VNone) T); [in_manual|]. intros o Io. apply N; [cbn in Io |- *; tauto|]. intros ->. cbn in Io. destruct Io as [X|[X|[]]]; discriminate X. }
  assert (Ne : ns "energy_broadening" = Some VNone).
  { apply (row_default _ _ _ _ _ (mkRow ["--energy-broadening"; "--eb"] "energy_broadening" (Optional (OneOrMore Number)) VNone) T); [in_manual|]. intros o Io. apply N; [cbn in Io |- *; tauto|]. intros ->. cbn in Io. destruct Io as [X|[X|[]]]; discriminate X. }
  destruct (main_ok int_of float_of load hartree angstrom room pretty seekpath erfc reigh ceigh argsort chunk junk found kx ax wmin coeffs coherent inch sheets rc line bins s segs lim fig H)
    as (ns1 & file1 & we1 & te1 & d1 & lu1 & l1 & u1 & k1 & n1 & a & asr & param1 & sp1 & g & pl & p & T1 & F1 & W1 & _ & L1 & _ & Lu1 & Ha1 & U1 & K1 & N1 & Hn & SA & _ & _ & _ & _ & _ & _ & P & D & _).
  assert (ns1 = ns) by congruence. subst ns1. assert (file1 = file) by congruence. assert (we1 = "dos") by congruence. subst file1 we1. cbn [String.eqb Ascii.eqb Bool.eqb negb] in L1.
  assert (d1 = d) by congruence. assert (u1 = u) by congruence. subst d1 u1. assert (k1 = k) by congruence. subst k1. assert (lu1 = lu) by congruence. subst lu1. assert (l1 = l) by congruence. subst l1. assert (n1 = n) by (apply Nat2Z.inj; congruence). subst n1.
  destruct (plain_args ns _ a SA Nw Nq Ne) as (B1 & B2 & B3 & B4 & B5 & B6 & B7). specialize (B4 f Hsc). specialize (B5 n Nn).
  assert (B8 : ia_btol a = bt) by (destruct SA as (_ & _ & _ & _ & _ & _ & _ & _ & _ & A10); congruence).
  assert (H0 : (0 < length qpts)%nat) by lia.
  assert (Q : exists c dd, plain_data p = dd /\ path_of dd = mkPd (calc_abscissa (reciprocal_cell cell) kx qpts) t (found qpts) c /\ c = (fun _ _ => None) /\ (forall l p, dd <> IForce l p)).
  { destruct Hd as [(e & -> & ->)| ->]; cbn [int_path] in P; injection P as <-; eexists; eexists; (split; [reflexivity|]); (split; [reflexivity|]); (split; [reflexivity|]); intros; discriminate. }
  destruct Q as (c & dd & Ed & Ep & Ec & Nd). rewrite (dos_only coeffs k (room u) wmin a p B1), Ed in D. destruct (L_intmap2.tool_inv _ _ _ _ _ _ _ _ _ D) as (_ & Eb & _).
  assert (PD : path_data (path_of dd)).
  { rewrite Ep. split; [cbn [pd_x pd_t]; rewrite L_path.abscissa_length by exact H0; exact Hq|]. split; [exact Hw|]. intros ? ? ? X. rewrite Ec in X. discriminate X. }
  pose proof (L_bands2.abscissa_climbs (reciprocal_cell cell) kx qpts Hx H0) as Cl.
  assert (Eb' : i_bins k (room u) a t = Ok bins) by (rewrite Ep in Eb; exact Eb).
  destruct (L_intmap4.modes_map coeffs k (room u) wmin a dd bins Hk ltac:(lia) PD Nd) as (s' & segs' & idx & m & D' & X1 & X2 & X3 & X4 & X5 & X6 & X7); try assumption.
  { rewrite Ep. exact Cl. } { rewrite Ep. cbn [pd_x]. rewrite L_path.abscissa_length by exact H0. exact H2. }
  assert (Et : xticks s = Some (i_ticks dd)) by (destruct (L_intmap2.tool_inv _ _ _ _ _ _ _ _ _ D) as (_ & _ & z & z1 & _ & _ & -> & _); reflexivity).
  rewrite D in D'. injection D' as <- <-. rewrite Ep in X1, X2, X7. cbn [pd_x pd_t] in X1, X2, X7.
  split; [rewrite X1; apply L_bands2.abscissa_along; exact H0|]. split; [rewrite X2; symmetry; exact Hq|].
  split. { rewrite Et. unfold i_ticks. destruct dd as [lb pp|pp|pp]; [exfalso; exact (Nd lb pp eq_refl)| |]; cbn [path_of] in Ep; rewrite Ep; reflexivity. }
  split. { destruct (L_intmap2.i_bins_spec k (room u) a t bins ltac:(lia) Eb') as (lo & hi & Y1 & Y2 & _ & Y3 & Y4). exists lo, hi. rewrite B5 in Y2. split; [exact Y1|]. split; [exact Y2|]. split; intros e Xe; [apply Y3, B6, Xe|apply Y4, B7, Xe]. }
  split. { intros i j Hi Hj. rewrite <- B4. apply X7; [exact Hi|lia]. }
  exists idx, m. rewrite <- B8. split; [exact X3|]. split; [exact X4|]. split; [exact X5|exact X6].
Qed.

Lemma runs_if ceigh junk line ns file uc types x u k lu l n lo hi : labelled_path seekpath -> (0 < M_dynmat.n_atoms (o_d x))%nat ->
  tool_args line = Ok ns -> (forall o, In o not_plain_int -> ~ In o line) ->
  ns "filename" = Some (VStr file) -> load file true = Ok (DForce uc types x) -> ns "energy_unit" = Some (VStr u) -> hartree u = Some k -> 0 < k -> ns "length_unit" = Some (VStr lu) -> angstrom lu = Some l ->
  ns "ebins" = Some (VInt (Z.of_nat n)) -> (1 <= n)%nat -> ns "e_min" = Some (VFloat lo) -> ns "e_max" = Some (VFloat hi) -> lo < hi ->
  (forall b param, exists r, result erfc reigh ceigh argsort chunk junk (band_options_plain (bp_k b) param) x = Ok r) ->
  exists r, main ceigh junk line = Ok r.
Proof.
  intros Hp Hat T N Nf Hl Nu Hu Hk Nl Ha Nn Hn N0 N1 Hlh Hr.
  destruct (plain_settings int_of float_of line ns T N) as (Nw & Na & Nq & Ne). destruct (all_settings int_of float_of line ns T) as (s0 & _ & _ & _ & Nt & _).
  destruct (main_settings int_of float_of load hartree angstrom room pretty seekpath erfc reigh ceigh argsort chunk junk found kx ax wmin coeffs coherent inch sheets rc line ns file "dos" _ _ lu l u k n T Nf Nw Nt Hl eq_refl Nl Ha Nu Hu Nn Hn)
    as (a & asr & param & sp & g & pl & lim & SA & Sasr & _ & _ & _ & _ & _ & ->).
  assert (asr = None) by (destruct Sasr as [[_ Y]|[[Y _]|[Y _]]]; [exact Y|congruence|congruence]). subst asr.
  destruct (plain_args ns _ a SA Nw Nq Ne) as (B1 & B2 & B3 & _ & B5 & B6 & B7). specialize (B5 n Nn). specialize (B6 lo N0). specialize (B7 hi N1).
  destruct (path ceigh junk None param (sp / l) g (DForce uc types x)) as [p|e] eqn:P.
  2:{ exfalso. unfold int_path, bands_from_force_constants in P. cbv zeta in P.
      destruct (Hr (seekpath (cell_in uc (f_cell (o_d x))) (f_atom_r (o_d x)) types (sp / l)) param) as [[[q1 w1] m1] R]. change (band_options_plain _ param) with (band_options (band_path seekpath uc types x (sp / l) false) None param) in R. rewrite R in P. discriminate P. }
  destruct (force_path seekpath erfc reigh argsort chunk found kx coherent _ _ _ _ _ _ _ _ _ _ P) as (w & ms & R & Lm & Ew & Ep).
  set (b := seekpath (cell_in uc (f_cell (o_d x))) (f_atom_r (o_d x)) types (sp / l)) in *. destruct (Hp (cell_in uc (f_cell (o_d x))) (f_atom_r (o_d x)) types (sp / l)) as [H0 H1]. fold b in H0, H1.
  rewrite (dos_only coeffs k (room u) wmin a p B1), Ep. unfold plain_data, without_coherent. cbn [pd_x pd_t pd_ticks].
  set (t := et (mode_table 1 (M_dynmat.n_atoms (o_d x)) w ms)). set (pd := mkPd _ t _ _).
  assert (PD : path_data pd).
  { split; [cbn [pd pd_x pd_t]; rewrite L_path.abscissa_length by exact H0; unfold t; cbn [mode_table et nq]; congruence|]. split; [|intros ? ? ? X; discriminate].
    cbn [pd pd_t]. unfold t. rewrite Ew. apply even_rows; [congruence|exact H0]. }
  assert (Eb : exists bins, i_bins k (room u) a t = Ok bins).
  { unfold i_bins. destruct (all_freqs k t) as [|f0 fs] eqn:Ef.
    - exfalso. assert (I : In (freq t 0 0 * k) (all_freqs k t)) by (apply L_intmap2.in_all_freqs; unfold t; cbn [mode_table et nq nm]; lia). rewrite Ef in I. destruct I.
    - unfold get_energy_bins. rewrite B6, B7. destruct (Rleb_spec hi lo); [lra|]. eexists. reflexivity. }
  destruct Eb as [bins Eb].
  destruct (L_intmap4.force_map coeffs k (room u) wmin a (bp_labels b) pd bins Hk ltac:(lia) PD ltac:(cbn [pd pd_t]; unfold t; cbn [mode_table et nq]; congruence) Eb B1 B2 B3) as (s' & segs' & idx & D' & _).
  rewrite D'. eexists. reflexivity.
Qed.
Lemma main_runs ceigh junk line ns file uc types x u k lu l n lo hi : labelled_path seekpath -> (forall n A, ceigh n A <> None) -> (0 < M_dynmat.n_atoms (o_d x))%nat ->
  tool_args line = Ok ns -> (forall o, In o not_plain_int -> ~ In o line) ->
  ns "filename" = Some (VStr file) -> load file true = Ok (DForce uc types x) -> ns "energy_unit" = Some (VStr u) -> hartree u = Some k -> 0 < k -> ns "length_unit" = Some (VStr lu) -> angstrom lu = Some l ->
  ns "ebins" = Some (VInt (Z.of_nat n)) -> (1 <= n)%nat -> ns "e_min" = Some (VFloat lo) -> ns "e_max" = Some (VFloat hi) -> lo < hi ->
  exists r, main ceigh junk line = Ok r.
Proof.
  intros Hp Hc Hat T N Nf Hl Nu Hu Hk Nl Ha Nn Hn N0 N1 Hlh. eapply runs_if; try eassumption. intros b param.
  destruct (result erfc reigh ceigh argsort chunk junk (band_options_plain (bp_k b) param) x) as [r|e'] eqn:R; [exists r; reflexivity|exfalso].
  destruct (L_calc2.only_errors _ _ _ _ _ _ _ _ _ R) as [(_ & w & W & _)|[(sc & _ & A & _)|(_ & M & Q)]]; [discriminate|cbn in A; congruence|exact (Hc _ _ Q)].
Qed.

Hypothesis read_new : forall file re uc types x, load file re = Ok (DForce uc types x) -> exists d mass born diel, x = new_fc d mass born diel.
Lemma main_junk ceigh junk junk' line : main ceigh junk line = main ceigh junk' line.
Proof.
  unfold int_main. destruct (tool_args line) as [ns|]; [|reflexivity]. destruct (int_settings ns) as [s|]; [|reflexivity].
  replace (int_data load hartree angstrom room seekpath erfc reigh ceigh argsort chunk junk found kx ax wmin coeffs coherent s) with (int_data load hartree angstrom room seekpath erfc reigh ceigh argsort chunk junk' found kx ax wmin coeffs coherent s); [reflexivity|].
  unfold int_data. destruct (load _ _) as [[uc types x|cell qpts e|cell qpts t]|] eqn:Hl; [|reflexivity|reflexivity|reflexivity]. destruct (needs _ _ _); [reflexivity|]. destruct (angstrom _) as [l|]; [|reflexivity].
  destruct (read_new _ _ _ _ _ Hl) as (d & mass & born & diel & ->). unfold int_path, bands_from_force_constants.
  pose proof (fun o => L_calc.history erfc reigh ceigh argsort chunk d mass born diel [] junk' junk o) as X. cbn [after fold_left] in X. rewrite X. reflexivity.
Qed.
Lemma main_solvers ceigh ceigh' junk junk' line ns r r' : csolves ceigh -> csolves ceigh' -> csorts ceigh -> csorts ceigh' ->
  tool_args line = Ok ns -> ns "asr" <> Some (VStr "reciprocal") -> ns "weighting" = Some (VStr "dos") -> main ceigh junk line = Ok r -> main ceigh' junk' line = Ok r' -> r = r'.
Proof.
  intros C C' O O' T Na Nw H H'. unfold int_main in H, H'. rewrite T in H, H'. destruct (all_settings int_of float_of line ns T) as (s & S & S1 & S2 & S3 & S4 & S5 & S6 & S7 & S8 & S9 & S10 & S11 & _). rewrite S in H, H'.
  assert (X4 : is_asr s <> Some Reciprocal) by (destruct S6 as [[_ Y]|[[Y _]|[_ Y]]]; congruence). assert (Xw : is_weighting s = "dos") by congruence.
  unfold int_data in H, H'. destruct (load _ _) as [[uc types x|cell qpts e|cell qpts t]|] eqn:Hl; [| | |discriminate]; (destruct (needs _ _ _); [discriminate|]); (destruct (angstrom _) as [l|]; [|discriminate]).
  - destruct (read_new _ _ _ _ _ Hl) as (d & mass & born & diel & ->).
    destruct (int_path seekpath erfc reigh ceigh argsort chunk junk found kx coherent _ _ _ _ _) as [p|] eqn:P; [|discriminate]. destruct (int_path seekpath erfc reigh ceigh' argsort chunk junk' found kx coherent _ _ _ _ _) as [p'|] eqn:P'; [|discriminate].
    destruct (hartree _) as [k|]; [|discriminate]. destruct (Z.ltb_spec (is_ebins s) 1) as [|Hn]; [discriminate|].
    destruct (force_path seekpath erfc reigh argsort chunk found kx coherent _ _ _ _ _ _ _ _ _ _ P) as (w & ms & R & Lm & Ew & Ep). destruct (force_path seekpath erfc reigh argsort chunk found kx coherent _ _ _ _ _ _ _ _ _ _ P') as (w' & ms' & R' & Lm' & Ew' & Ep').
    cbn [new_fc o_d] in R, Lm, Ew, Ep, R', Lm', Ew', Ep'. fold (new_fc d mass born diel) in R, R'. set (b := seekpath (cell_in uc (f_cell d)) (f_atom_r d) types (is_spacing s / l)) in *.
    destruct (L_unique3.two_calculations erfc reigh argsort chunk ceigh ceigh' d mass born diel [] [] junk junk' (band_options b (is_asr s) (is_param s)) _ _ C C' X4 R R') as (_ & _ & _ & F). cbn [fst] in F. specialize (F O O').
    set (n := Z.to_nat (is_ebins s)) in *. assert (En : is_ebins s = Z.of_nat n) by (unfold n; rewrite Z2Nat.id; [reflexivity|lia]).
    assert (W : ia_weighting (is_map s (/ l * ax) n) = "dos") by (destruct (S11 (/ l * ax) n En) as (A1 & _); congruence).
    rewrite Ep in H. rewrite Ep' in H'.
    erewrite tool_same in H; [rewrite H in H'; congruence|exact W|].
    split; [cbn [mode_table et nq]; congruence|]. split; [reflexivity|]. split; [cbn [mode_table et wt]; rewrite Ew, Ew'; reflexivity|].
    cbn [mode_table et nq nm freq]. intros q m Hq Hm. f_equal. exact (F q m ltac:(lia) Hm).
  - cbn [int_path] in H, H'. congruence.
  - cbn [int_path] in H, H'. congruence.
Qed.
(** --asr realspace *)
Lemma path_realspace ceigh junk junk' d mass born diel uc types param dist g w fc' k rm wm a : enforce_realspace_asr reigh argsort chunk d = Ok (w, fc') -> ia_weighting a = "dos" ->
  match path ceigh junk (Some Realspace) param dist g (DForce uc types (new_fc d mass born diel)), path ceigh junk' None param dist g (DForce uc types (new_fc (with_fc d fc') mass born diel)) with
  | Ok p, Ok p' => intensity_tool coeffs k rm wm a p = intensity_tool coeffs k rm wm a p'
  | Err e, Err e' => e = e'
  | _, _ => False
  end.
Proof.
  intros En W. unfold int_path, bands_from_force_constants. cbv zeta.
  change (band_path seekpath uc types (new_fc (with_fc d fc') mass born diel) dist false) with (band_path seekpath uc types (new_fc d mass born diel) dist false). set (b := band_path _ _ _ _ _ _).
  pose proof (realspace_same erfc reigh ceigh argsort chunk d mass born diel [] junk junk' (band_options b (Some Realspace) param) w fc' eq_refl En) as X. cbn [after fold_left] in X.
  change (without_asr (band_options b (Some Realspace) param)) with (band_options b None param) in X. rewrite X.
  destruct (result erfc reigh ceigh argsort chunk junk' (band_options b None param) (new_fc (with_fc d fc') mass born diel)) as [[[qpts w1] ms]|]; [|reflexivity].
  match goal with |- intensity_tool _ _ _ _ _ ?p = intensity_tool _ _ _ _ _ ?p' => rewrite (dos_only coeffs k rm wm a p W), (dos_only coeffs k rm wm a p' W); assert (Q : plain_data p = plain_data p') by reflexivity; rewrite Q; reflexivity end.
Qed.
End Main.
