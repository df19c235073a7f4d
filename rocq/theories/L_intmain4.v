(** Lemmas for C102, continued: the line with nothing but the file, and a line for a chain of atoms. *)
From Coq Require Import String Sorted.
From Verif Require L_bands3 L_path L_intmap2 L_intmap4.
From Verif Require Import Base Cpx Vec3 M_grid M_cell M_qpts M_dynmat M_dipole M_struct M_asr M_calc M_path M_broad M_dos M_clidos M_reorder M_bins M_bands M_intmap M_style M_dosmain M_powmain M_intmain
  S_qpts S_path S_broad S_dynmat S_dipole S_asr S_calc S_bins S_dos S_reorder S_powder S_intmap S_bands S_unique S_dosmain S_powmain S_intmain L_nac L_path2 L_chain L_calc4 L_calc7 L_doscalc2 L_intmain L_intmain2 L_intmain3.
From Verif Require M_parser S_parser S_manual L_parser3 L_bandmain3.
From Verif Require Import L_mainline.
Import M_parser (val(..), namespace).
Open Scope R_scope.
Open Scope string_scope.
Import S_manual.

Section Bare.
Variables (int_of : string -> option Z) (float_of : string -> option R).
Context {E : Type}. Variable load : string -> bool -> res ddata E.
Variables (hartree angstrom : string -> option R) (room : string -> R) (pretty : string -> string).
Variable seekpath : M3 -> list V3 -> list nat -> R -> bpath.
Variables (erfc : R -> R) (reigh : real_eigh) (ceigh : complex_eigh) (argsort : list R -> list nat) (chunk : nat) (junk : nat -> nat -> nat -> R).
Variables (found : list V3 -> ticks) (kx ax wmin : R) (coeffs : R -> list R).
Variable coherent : ddata -> option asr_kind -> R -> option (Z * Z * Z) * R -> list V3 -> etable -> option R -> list R -> option (list (list R)).
Variables (inch : string -> option R) (sheets : string -> option sheet) (rc : string -> value).
Notation main := (int_main int_of float_of load hartree angstrom room pretty seekpath erfc reigh ceigh argsort chunk junk found kx ax wmin coeffs coherent inch sheets rc).
Lemma main_bare d mass born diel : home_first d -> search_complete d -> det3 (zrows (f_sc d)) <> 0 -> fc_symmetric d -> symmetric3 diel -> csolves ceigh -> labelled_path seekpath ->
  exists L, shares_images d L /\
  forall file uc types k l bins s segs lim fig, load file true = Ok (DForce uc types (new_fc d mass born diel)) -> hartree "meV" = Some k -> 0 < k -> angstrom "angstrom" = Some l ->
  main [file] = Ok (bins, s, segs, lim, fig) ->
  let b := seekpath (cell_in uc (f_cell d)) (f_atom_r d) types (25 / 1000 / l) in
  let N := (3 * M_dynmat.n_atoms d)%nat in
  along_path (reciprocal_cell (f_cell d)) kx (bp_k b) (xs s) /\ length (ys s) = length (bp_k b) /\
  (exists lo hi, lo < hi /\ even_bins lo hi 200 bins) /\
  forall i q, nth_error (bp_k b) i = Some q -> exists md, modes_of N mass (whole_matrix erfc d born diel true 1 L q (if is_gamma q then Some (approach (bp_k b) i) else None)) md /\
     forall j, (j < 200)%nat -> exists v, shows s i j v /\
       v * (nth (S j) bins 0 - nth j bins 0) = 3 / INR N * INR (length (filter (fun m => inside (nth j bins 0) (nth (S j) bins 0) (k * m_freq md m)) (seq 0 N))).
Proof.
  intros Hh Hc Hd Hf He Hs Hp.
  destruct (main_map int_of float_of load hartree angstrom room pretty seekpath erfc reigh ceigh argsort chunk junk found kx ax wmin coeffs coherent inch sheets rc d mass born diel Hh Hc Hd Hf He Hs Hp) as (L & HL & B). exists L. split; [exact HL|].
  intros file uc types k l bins s segs lim fig Hl Hu Hk Ha H.
  destruct (main_ok int_of float_of load hartree angstrom room pretty seekpath erfc reigh ceigh argsort chunk junk found kx ax wmin coeffs coherent inch sheets rc _ _ _ _ _ _ H) as (ns & _ & _ & _ & _ & _ & _ & _ & _ & _ & _ & _ & _ & _ & _ & _ & _ & T & _).
  destruct (bare_settings int_of float_of M_parser.IntensityMap file ns T) as (Nf & D & N).
  assert (De : ns "energy_unit" = Some (VStr "meV")) by (apply (D (mkRow ["--energy-unit"; "-u"] "energy_unit" Text (VStr "meV"))); in_manual).
  assert (Dl : ns "length_unit" = Some (VStr "angstrom")) by (apply (D (mkRow ["--length-unit"] "length_unit" Text (VStr "angstrom"))); in_manual).
  assert (Dp : ns "dipole_parameter" = Some (VFloat 1)) by (apply (D (mkRow ["--dipole-parameter"] "dipole_parameter" Number (VFloat 1))); in_manual).
  assert (Ds : ns "q_spacing" = Some (VFloat (25 / 1000))) by (apply (D (mkRow ["--q-spacing"] "q_spacing" Number (VFloat (25 / 1000)))); in_manual).
  assert (Dn : ns "ebins" = Some (VInt (Z.of_nat 200))) by (apply (D (mkRow ["--ebins"] "ebins" Whole (VInt 200))); in_manual).
  assert (Dc : ns "scale" = Some VNone) by (apply (D (mkRow ["--scale"] "scale" (Optional Number) VNone)); in_manual).
  assert (Np : forall o, In o not_plain_int -> ~ In o [file]).
  { intros o Io. apply N. assert (X : incl not_plain_int (flat_map M_parser.o_names (L_parser3.options_of M_parser.IntensityMap))) by (apply L_parser3.incl_strings; vm_compute; reflexivity). apply X. exact Io. }
  destruct (B [file] ns file uc types "meV" k "angstrom" 1 (25 / 1000) 200%nat 1 bins s segs lim fig T Np Nf Hl De Hu Hk Dl Dp Ds Dn (or_introl (conj Dc eq_refl)) H) as (l' & Hl' & P1 & P2 & P3 & P4 & _).
  assert (l' = l) by congruence. subst l'. split; [exact P1|]. split; [exact P2|]. split.
  - destruct P3 as (lo & hi & Y1 & Y2 & _). exists lo, hi. split; [exact Y1|exact Y2].
  - intros i q Iq. destruct (P4 i q Iq) as (md & M & V). exists md. split; [exact M|]. intros j Hj. destruct (V j Hj) as (v & V1 & V2). exists v. split; [exact V1|]. rewrite V2. apply Rmult_1_l.
Qed.
End Bare.

Definition floats (s : string) : option R := if String.eqb s "0.5" then Some (1 / 2) else if String.eqb s "2" then Some 2 else None.
Definition ints (s : string) : option Z := if String.eqb s "4" then Some 4%Z else None.
Definition thz_map : list string := ["chain.json"; "--q-spacing"; "0.5"; "-u"; "THz"; "--length-unit"; "nm"; "--e-min"; "0.5"; "--e-max"; "2"; "--ebins"; "4"; "--scale"; "2"].
Section Any.
Variables (erfc : R -> R) (reigh : real_eigh) (argsort : list R -> list nat) (chunk : nat).
Variables (ceigh : complex_eigh) (k0 k1 : R).
Notation obj := (new_fc (chain k0 k1) one_mass None unit_cell3).
Hypothesis good : forall D G x, (forall a b, (a < 3)%nat -> (b < 3)%nat -> D a b = if Nat.eqb a b then RtoC (k0 + k1 * cos x) else Czero) ->
  exists md, solve ceigh 3 one_mass D G = Some md /\ forall m, (m < 3)%nat -> 0 < m_freq md m.
Lemma chain_map hartree angstrom room pretty seekpath junk found kx ax wmin coeffs coherent inch sheets rc uc types ns line u k lu l file n lo hi : labelled_path seekpath ->
  M_parser.tool_args ints floats M_parser.IntensityMap line = Ok ns -> (forall o, In o not_plain_int -> ~ In o line) ->
  ns "filename" = Some (VStr file) -> ns "energy_unit" = Some (VStr u) -> hartree u = Some k -> 0 < k -> ns "length_unit" = Some (VStr lu) -> angstrom lu = Some l ->
  ns "ebins" = Some (VInt (Z.of_nat n)) -> (1 <= n)%nat -> ns "e_min" = Some (VFloat lo) -> ns "e_max" = Some (VFloat hi) -> lo < hi ->
  exists r, int_main ints floats (fun _ _ => @Ok _ unit (DForce uc types obj)) hartree angstrom room pretty seekpath erfc reigh ceigh argsort chunk junk found kx ax wmin coeffs coherent inch sheets rc line = Ok r.
Proof.
  intros Hp T N Nf Nu Hu Hk Nl Ha Nn Hn N0 N1 Hlh.
  assert (Hat : (0 < M_dynmat.n_atoms (o_d obj))%nat) by (cbn; lia).
  assert (Hr : forall b param, exists r, result erfc reigh ceigh argsort chunk junk (band_options_plain (bp_k b) param) obj = Ok r).
  { intros b param. destruct (L_bandmain3.chain_path erfc reigh argsort chunk ceigh k0 k1 good junk (bp_k b) param) as (qpts & w & ms & R). exists (qpts, w, ms). exact R. }
  exact (runs_if ints floats (fun _ _ => @Ok _ unit (DForce uc types obj)) hartree angstrom room pretty seekpath erfc reigh argsort chunk found kx ax wmin coeffs coherent inch sheets rc ceigh junk
    line ns file uc types obj u k lu l n lo hi Hp Hat T N Nf eq_refl Nu Hu Hk Nl Ha Nn Hn N0 N1 Hlh Hr).
Qed.
End Any.
