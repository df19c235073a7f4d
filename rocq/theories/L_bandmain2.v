(** Lemmas for C101, continued. *)
From Coq Require Import String Sorted Permutation FunctionalExtensionality.
From Verif Require L_bands2 L_unique3 L_brille L_bands3 L_bands4 L_doscalc L_calc.
From Verif Require Import Base Cpx Vec3 M_grid M_cell M_qpts M_dynmat M_dipole M_struct M_asr M_calc M_path M_dos M_reorder M_bins M_bands M_style M_dosmain M_bandmain
  S_qpts S_path S_dynmat S_dipole S_asr S_calc S_bins S_reorder S_intmap S_bands S_unique S_dosmain S_bandmain L_calc9 L_bandmain.
From Verif Require M_parser S_parser S_manual L_parser3 L_manual L_dosmain.
From Verif Require Import L_mainline.
Import M_parser (val(..), namespace).
Import L_dosmain (readable, r_str, r_one, r_num, r_int, r_bool, r_opt, r_some, r_any, r_pair, r_triple, all_read, back, b_str, b_num, b_int, b_bool, b_opt, b_list, b_pair, b_triple, read_back, read_of).
Open Scope R_scope.
Open Scope string_scope.
Import S_manual.

Section Main.
Variables (int_of : string -> option Z) (float_of : string -> option R).
Context {E : Type}. Variable load : string -> bool -> res ddata E.
Variables (hartree angstrom : string -> option R) (pretty : string -> string).
Variable seekpath : M3 -> list V3 -> list nat -> R -> bpath.
Variables (erfc : R -> R) (reigh : real_eigh) (argsort : list R -> list nat) (chunk : nat).
Variables (found : list V3 -> ticks) (tol kx : R).
Variables (inch : string -> option R) (sheets : string -> option sheet) (rc : string -> value).
Notation tool_args := (M_parser.tool_args int_of float_of M_parser.Dispersion).
Notation main := (fun ceigh junk => band_main int_of float_of load hartree angstrom pretty seekpath erfc reigh ceigh argsort chunk junk found tol kx inch sheets rc).

Lemma main_runs ceigh junk line ns file uc types x u k lu l : labelled_path seekpath -> (forall n A, ceigh n A <> None) ->
  tool_args line = Ok ns -> (forall o, In o not_plain_bands -> ~ In o line) ->
  ns "filename" = Some (VStr file) -> load file true = Ok (DForce uc types x) -> ns "energy_unit" = Some (VStr u) -> hartree u = Some k -> ns "length_unit" = Some (VStr lu) -> angstrom lu = Some l ->
  exists r, main ceigh junk line = Ok r.
Proof.
  intros Hp Hc T N Nf Hl Nu Hu Nl Ha.
  assert (Nr : ns "reorder" = Some (VBool false)) by (row_of T N ["--reorder"] "reorder" YesNo (VBool false)).
  assert (Na : ns "asr" = Some VNone) by (row_of T N ["--asr"] "asr" (Optional (OneOf ["reciprocal"; "realspace"])) VNone).
  destruct (main_settings int_of float_of load hartree angstrom pretty seekpath erfc reigh ceigh argsort chunk junk found tol kx inch sheets rc line ns file false u k _ T Nf Nr Hl Nu Hu) as (a & p & lim & (A1 & A2 & A3 & A4 & A5 & A6) & _ & _ & ->).
  assert (X1 : da_reorder a = false) by congruence. assert (X2 : angstrom (da_unit a) = Some l) by (assert (da_unit a = lu) by congruence; congruence).
  assert (X4 : da_asr a = None) by (destruct A4 as [[_ Y]|[[Y _]|[Y _]]]; [exact Y|congruence|congruence]).
  destruct (L_bands3.tool_runs seekpath erfc reigh ceigh argsort chunk junk angstrom found tol k kx a uc types x l Hp Hc X1 X4 X2) as (s & segs & ->). eexists. reflexivity.
Qed.
Lemma main_file ceigh junk line ns file u k bt cell qpts d t : tool_args line = Ok ns -> ~ In "--reorder" line -> ns "filename" = Some (VStr file) -> load file true = Ok d ->
  ns "energy_unit" = Some (VStr u) -> hartree u = Some k -> ns "btol" = Some (VFloat bt) ->
  ((exists e, d = DModes cell qpts e /\ t = et e) \/ d = DFreqs cell qpts t) -> 0 <= kx -> (2 <= length qpts)%nat -> length qpts = nq t ->
  exists s segs lim p idx m, main ceigh junk line = Ok (s, segs, lim, finish inch sheets rc Dispersion p "" (pretty u)) /\ says_plot ns p /\ says_range ns lim /\
  along_path (reciprocal_cell cell) kx qpts (xs s) /\ length (ys s) = length qpts /\
  (forall q, (q < nq t)%nat -> nth_error (ys s) q = Some (map (fun m => freq t q m * k) (seq 0 (nm t)))) /\ xticks s = Some (found qpts) /\
  is_median m (gaps (xs s)) /\ StronglySorted lt idx /\
  (forall b, In b idx <-> (0 < b < length (xs s))%nat /\ big_gap bt m (nth b (xs s) 0 - nth (b - 1) (xs s) 0)) /\ cut_at s idx segs.
Proof.
  intros T N Nf Hl Nu Hu Nb Hd Hx Hq Ht.
  assert (Nr : ns "reorder" = Some (VBool false)).
  { apply (row_default _ _ _ _ _ (mkRow ["--reorder"] "reorder" YesNo (VBool false)) T); [in_manual|]. intros s [<-|[]]. exact N. }
  destruct (main_settings int_of float_of load hartree angstrom pretty seekpath erfc reigh ceigh argsort chunk junk found tol kx inch sheets rc line ns file false u k _ T Nf Nr Hl Nu Hu) as (a & p & lim & (A1 & A2 & A3 & A4 & A5 & A6) & Sp & Sr & M).
  assert (X1 : da_reorder a = false) by congruence. assert (X6 : da_btol a = bt) by congruence.
  destruct (L_bands3.loaded_drawn seekpath erfc reigh ceigh argsort chunk junk angstrom found tol k kx a cell qpts d t X1 Hd Hx Hq Ht) as (s & segs & idx & m & D & R). rewrite X6 in R.
  exists s, segs, lim, p, idx, m. split; [rewrite M, D; reflexivity|]. split; [exact Sp|]. split; [exact Sr|]. exact R.
Qed.

(** Nothing but the file *)
Lemma main_bare ceigh junk d mass born diel : home_first d -> search_complete d -> det3 (zrows (f_sc d)) <> 0 -> fc_symmetric d -> symmetric3 diel -> csolves ceigh -> labelled_path seekpath ->
  exists L, shares_images d L /\
  forall file uc types k l s segs lim fig, load file true = Ok (DForce uc types (new_fc d mass born diel)) -> hartree "meV" = Some k -> angstrom "angstrom" = Some l ->
  main ceigh junk [file] = Ok (s, segs, lim, fig) ->
  let b := seekpath (cell_in uc (f_cell d)) (f_atom_r d) types (25 / 1000 / l) in
  let qpts := doubled (bp_k b) (bp_labels b) in
  along_path (reciprocal_cell (f_cell d)) kx qpts (xs s) /\ length (ys s) = length qpts /\ lim = (None, None) /\
  forall i q, nth_error qpts i = Some q -> exists md, nth_error (ys s) i = Some (map (fun m => m_freq md m * k) (seq 0 (3 * M_dynmat.n_atoms d))) /\
     modes_of (3 * M_dynmat.n_atoms d) mass (whole_matrix erfc d born diel true 1 L q (if is_gamma q then Some (approach qpts i) else None)) md.
Proof.
  intros Hh Hc Hd Hf He Hs Hp.
  destruct (main_bands int_of float_of load hartree angstrom pretty seekpath erfc reigh ceigh argsort chunk junk found tol kx inch sheets rc d mass born diel Hh Hc Hd Hf He Hs Hp) as (L & HL & B). exists L. split; [exact HL|].
  intros file uc types k l s segs lim fig Hl Hu Ha H.
  destruct (main_ok int_of float_of load hartree angstrom pretty seekpath erfc reigh ceigh argsort chunk junk found tol kx inch sheets rc _ _ _ _ _ H) as (ns & _ & _ & _ & _ & _ & _ & _ & T & _ & _ & _ & _ & _ & _ & _ & (R1 & R2) & _).
  destruct (bare_settings int_of float_of M_parser.Dispersion file ns T) as (Nf & D & N).
  assert (De : ns "energy_unit" = Some (VStr "meV")) by (apply (D (mkRow ["--energy-unit"; "-u"] "energy_unit" Text (VStr "meV"))); in_manual).
  assert (Dl : ns "length_unit" = Some (VStr "angstrom")) by (apply (D (mkRow ["--length-unit"] "length_unit" Text (VStr "angstrom"))); in_manual).
  assert (Dp : ns "dipole_parameter" = Some (VFloat 1)) by (apply (D (mkRow ["--dipole-parameter"] "dipole_parameter" Number (VFloat 1))); in_manual).
  assert (Ds : ns "q_spacing" = Some (VFloat (25 / 1000))) by (apply (D (mkRow ["--q-spacing"] "q_spacing" Number (VFloat (25 / 1000)))); in_manual).
  assert (D0 : ns "e_min" = Some VNone) by (apply (D (mkRow ["--e-min"] "e_min" (Optional Number) VNone)); in_manual).
  assert (D1 : ns "e_max" = Some VNone) by (apply (D (mkRow ["--e-max"] "e_max" (Optional Number) VNone)); in_manual).
  assert (Np : forall o, In o not_plain_bands -> ~ In o [file]).
  { intros o Io. apply N. assert (X : incl not_plain_bands (flat_map M_parser.o_names (L_parser3.options_of M_parser.Dispersion))) by (apply L_parser3.incl_strings; vm_compute; reflexivity). apply X. exact Io. }
  destruct (B [file] ns file uc types "meV" k "angstrom" 1 (25 / 1000) s segs lim fig T Np Nf Hl De Hu Dl Dp Ds H) as (l' & Hl' & P1 & P2 & P3 & _).
  assert (l' = l) by congruence. subst l'. split; [exact P1|]. split; [exact P2|]. split; [|exact P3].
  destruct lim as [lo hi]. cbn [fst snd] in R1, R2. destruct lo; [cbn [maybe] in R1; congruence|]. destruct hi; [cbn [maybe] in R2; congruence|reflexivity].
Qed.

(** Uninitialised memory, and other eigensolvers *)
Hypothesis read_new : forall file re uc types x, load file re = Ok (DForce uc types x) -> exists d mass born diel, x = new_fc d mass born diel.
Lemma main_junk ceigh junk junk' line : main ceigh junk line = main ceigh junk' line.
Proof.
  unfold band_main. destruct (tool_args line) as [ns|]; [|reflexivity]. destruct (band_settings ns) as [s|]; [|reflexivity].
  replace (band_data load hartree angstrom seekpath erfc reigh ceigh argsort chunk junk found tol kx s) with (band_data load hartree angstrom seekpath erfc reigh ceigh argsort chunk junk' found tol kx s); [reflexivity|].
  unfold band_data. destruct (load _ _) as [[uc types x|cell qpts e|cell qpts t]|] eqn:Hl; [|reflexivity|reflexivity|reflexivity]. destruct (hartree _) as [k|]; [|reflexivity].
  destruct (read_new _ _ _ _ _ Hl) as (d & mass & born & diel & ->).
  rewrite (band_history seekpath erfc reigh argsort chunk angstrom found tol k kx (bs_args s) uc types d mass born diel ceigh junk' junk []
    : dispersion_tool seekpath erfc reigh ceigh argsort chunk junk' angstrom found tol k kx (bs_args s) (DForce uc types (new_fc d mass born diel)) = _). reflexivity.
Qed.
Lemma main_solvers ceigh ceigh' junk junk' line ns r r' : csolves ceigh -> csolves ceigh' -> csorts ceigh -> csorts ceigh' ->
  tool_args line = Ok ns -> ns "asr" <> Some (VStr "reciprocal") -> ns "reorder" = Some (VBool false) -> main ceigh junk line = Ok r -> main ceigh' junk' line = Ok r' -> r = r'.
Proof.
  intros C C' O O' T Na Nr H H'. unfold band_main in H, H'. rewrite T in H, H'. destruct (band_settings ns) as [s|] eqn:S; [|discriminate].
  destruct (settings_says _ _ S) as (_ & (A1 & _ & _ & A4 & _) & _).
  assert (X1 : da_reorder (bs_args s) = false) by congruence. assert (X4 : da_asr (bs_args s) <> Some Reciprocal) by (destruct A4 as [[_ Y]|[[Y _]|[_ Y]]]; congruence).
  unfold band_data in H, H'. destruct (load _ _) as [[uc types x|cell qpts e|cell qpts t]|] eqn:Hl; [| | |discriminate]; destruct (hartree _) as [k|]; try discriminate.
  - destruct (read_new _ _ _ _ _ Hl) as (d & mass & born & diel & ->).
    destruct (dispersion_tool seekpath erfc reigh ceigh _ _ _ _ _ _ _ _ _ _) as [r1|] eqn:D1; [|discriminate]. destruct (dispersion_tool seekpath erfc reigh ceigh' _ _ _ _ _ _ _ _ _ _) as [r2|] eqn:D2; [|discriminate].
    assert (r1 = r2) by (eapply bands_solvers; [exact C|exact C'|exact O|exact O'|exact X4|exact X1|exact D1|exact D2]). congruence.
  - cbn [dispersion_tool] in H, H'. congruence.
  - cbn [dispersion_tool] in H, H'. congruence.
Qed.
End Main.
