(** Lemmas for C102, continued: --asr realspace. *)
From Coq Require Import String.
From Verif Require Import Base Cpx Vec3 M_grid M_cell M_qpts M_dynmat M_dipole M_struct M_asr M_calc M_path M_broad M_dos M_clidos M_reorder M_bins M_bands M_intmap M_style M_dosmain M_powmain M_intmain
  S_asr S_calc S_intmap S_bands S_dosmain S_powmain S_intmain L_intmain L_intmain2 L_intmain3.
From Verif Require M_parser.
Import M_parser (val(..), namespace).
Open Scope R_scope.
Open Scope string_scope.

Lemma settings_but_asr (ns ns' : namespace) s : (forall x, x <> "asr" -> ns x = ns' x) -> ns "asr" = Some (VStr "realspace") -> ns' "asr" = Some VNone -> int_settings ns = Some s ->
  is_asr s = Some Realspace /\
  int_settings ns' = Some (mkIS (is_file s) (is_weighting s) (is_temperature s) (is_lunit s) (is_spacing s) None (is_param s) (is_eunit s) (is_ebins s) (is_grid s) (is_map s) (is_limits s) (is_plot s)).
Proof.
  intros A N N'.
  assert (P : int_plot_settings ns' = int_plot_settings ns) by (unfold int_plot_settings, read; rewrite !A by discriminate; reflexivity).
  assert (R : forall T (f : val -> option T) k, k <> "asr" -> read ns' f k = read ns f k) by (intros; unfold read; rewrite A by assumption; reflexivity).
  assert (R1 : read ns (as_opt as_str) "asr" = Some (Some "realspace")) by (unfold read; rewrite N; reflexivity).
  assert (R2 : read ns' (as_opt as_str) "asr" = Some None) by (unfold read; rewrite N'; reflexivity).
  unfold int_settings. rewrite R1, R2, P. rewrite !R by discriminate. cbn [asr_of String.eqb Ascii.eqb Bool.eqb].
  repeat match goal with |- match ?e with Some _ => _ | None => None end = Some s -> _ => destruct e; [|discriminate] end.
  intros H. injection H as <-. split; reflexivity.
Qed.

Section Main.
Variables (int_of : string -> option Z) (float_of : string -> option R).
Variables (hartree angstrom : string -> option R) (room : string -> R) (pretty : string -> string).
Variable seekpath : M3 -> list V3 -> list nat -> R -> bpath.
Variables (erfc : R -> R) (reigh : real_eigh) (ceigh : complex_eigh) (argsort : list R -> list nat) (chunk : nat).
Variables (found : list V3 -> ticks) (kx ax wmin : R) (coeffs : R -> list R).
Variable coherent : ddata -> option asr_kind -> R -> option (Z * Z * Z) * R -> list V3 -> etable -> option R -> list R -> option (list (list R)).
Variables (inch : string -> option R) (sheets : string -> option sheet) (rc : string -> value).
Notation tool_args := (M_parser.tool_args int_of float_of M_parser.IntensityMap).
Lemma main_realspace E (load load' : string -> bool -> res ddata E) junk junk' d mass born diel warned fc' line line' ns ns' file uc types :
  enforce_realspace_asr reigh argsort chunk d = Ok (warned, fc') ->
  tool_args line = Ok ns -> tool_args line' = Ok ns' -> (forall x, x <> "asr" -> ns x = ns' x) -> ns "asr" = Some (VStr "realspace") -> ns' "asr" = Some VNone ->
  ns "weighting" = Some (VStr "dos") -> ns "filename" = Some (VStr file) ->
  load file true = Ok (DForce uc types (new_fc d mass born diel)) -> load' file true = Ok (DForce uc types (new_fc (with_fc d fc') mass born diel)) ->
  int_main int_of float_of load hartree angstrom room pretty seekpath erfc reigh ceigh argsort chunk junk found kx ax wmin coeffs coherent inch sheets rc line
  = int_main int_of float_of load' hartree angstrom room pretty seekpath erfc reigh ceigh argsort chunk junk' found kx ax wmin coeffs coherent inch sheets rc line'.
Proof.
  intros En T T' A N N' Nw Nf Hl Hl'. unfold int_main. rewrite T, T'.
  destruct (all_settings int_of float_of line ns T) as (s & S & S1 & S2 & _ & _ & _ & _ & _ & _ & S9 & _ & S11 & _).
  destruct (settings_but_asr ns ns' s A N N' S) as [Sa S']. rewrite S, S'.
  assert (Ef : is_file s = file) by congruence. assert (Ew : is_weighting s = "dos") by congruence.
  unfold int_data. cbn [is_file is_weighting is_temperature is_lunit is_spacing is_asr is_param is_eunit is_ebins is_grid is_map is_limits is_plot].
  rewrite Ef, Ew, Sa. cbn [String.eqb Ascii.eqb Bool.eqb negb needs]. rewrite Hl, Hl'. unfold needs. cbn [String.eqb Ascii.eqb Bool.eqb negb].
  destruct (angstrom (is_lunit s)) as [l|]; [|reflexivity]. set (n := Z.to_nat (is_ebins s)).
  destruct (Z.ltb_spec (is_ebins s) 1) as [Hn|Hn].
  - pose proof (fun k a W => path_realspace seekpath erfc reigh argsort chunk found kx coeffs coherent ceigh junk junk' d mass born diel uc types (is_param s) (is_spacing s / l) (fst (is_grid s), snd (is_grid s) / l) warned fc' k 0 wmin a En W) as X.
    specialize (X 0 (mkIA "dos" None 1 None None None None "" None 0) eq_refl). cbv beta in X.
    destruct (int_path _ _ _ _ _ _ junk _ _ _ _ _ _ _ _) as [p|e]; destruct (int_path _ _ _ _ _ _ junk' _ _ _ _ _ _ _ _) as [p'|e']; try contradiction; [destruct (hartree _); reflexivity|congruence].
  - assert (W : ia_weighting (is_map s (/ l * ax) n) = "dos") by (assert (En' : is_ebins s = Z.of_nat n) by (unfold n; rewrite Z2Nat.id; [reflexivity|lia]); destruct (S11 (/ l * ax) n En') as (A1 & _); congruence).
    destruct (hartree (is_eunit s)) as [k|].
    + pose proof (path_realspace seekpath erfc reigh argsort chunk found kx coeffs coherent ceigh junk junk' d mass born diel uc types (is_param s) (is_spacing s / l) (fst (is_grid s), snd (is_grid s) / l) warned fc' k (room (is_eunit s)) wmin _ En W) as X. cbv beta in X.
      destruct (int_path _ _ _ _ _ _ junk _ _ _ _ _ _ _ _) as [p|e]; destruct (int_path _ _ _ _ _ _ junk' _ _ _ _ _ _ _ _) as [p'|e']; try contradiction; [rewrite X; reflexivity|congruence].
    + pose proof (path_realspace seekpath erfc reigh argsort chunk found kx coeffs coherent ceigh junk junk' d mass born diel uc types (is_param s) (is_spacing s / l) (fst (is_grid s), snd (is_grid s) / l) warned fc' 0 0 wmin _ En W) as X. cbv beta in X.
      destruct (int_path _ _ _ _ _ _ junk _ _ _ _ _ _ _ _) as [p|e]; destruct (int_path _ _ _ _ _ _ junk' _ _ _ _ _ _ _ _) as [p'|e']; try contradiction; [reflexivity|congruence].
Qed.
End Main.
