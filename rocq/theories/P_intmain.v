(** C102: the program euphonic-intensity-map, from the words of its command line to the map. *)
From Coq Require Import String Sorted Permutation.
From Verif Require Import Base Cpx Vec3 M_grid M_cell M_qpts M_dynmat M_dipole M_struct M_asr M_calc M_path M_broad M_dos M_clidos M_reorder M_bins M_bands M_intmap M_style M_dosmain M_powmain M_intmain
  S_qpts S_path S_broad S_dynmat S_dipole S_asr S_calc S_bins S_dos S_reorder S_powder S_intmap S_bands S_unique S_dosmain S_powmain S_intmain L_nac L_chain L_calc4 L_doscalc2 L_bands3 L_intmain2 L_intmain3 L_intmain4.
From Verif Require L_intmain5 L_intmain6 L_asr6 L_parser L_parser3.
From Verif Require M_parser S_parser L_unique4.
Import M_parser (val(..)).
Open Scope R_scope.
Open Scope string_scope.

Ltac in_parser := unfold L_parser3.options_of; match goal with |- In _ match ?g with _ => _ end => let r := eval vm_compute in g in change g with r end; cbn [In];
  repeat (first [left; reflexivity | right]).

Section Program.
Variables (int_of : string -> option Z) (float_of : string -> option R).
Context {E : Type}. Variable load : string -> bool -> res ddata E.
Variables (hartree angstrom : string -> option R) (room : string -> R) (pretty : string -> string).
Variable seekpath : M3 -> list V3 -> list nat -> R -> bpath.
Variables (erfc : R -> R) (reigh : real_eigh) (ceigh : complex_eigh) (argsort : list R -> list nat) (chunk : nat) (junk : nat -> nat -> nat -> R).
Variables (found : list V3 -> ticks) (kx ax wmin : R) (coeffs : R -> list R).
Variable coherent : ddata -> option asr_kind -> R -> option (Z * Z * Z) * R -> list V3 -> etable -> option R -> list R -> option (list (list R)).
Variables (inch : string -> option R) (sheets : string -> option sheet) (rc : string -> value).
Notation tool_args := (M_parser.tool_args int_of float_of M_parser.IntensityMap).
Notation main := (int_main int_of float_of load hartree angstrom room pretty seekpath erfc reigh ceigh argsort chunk junk found kx ax wmin coeffs coherent inch sheets rc).
Notation path := (int_path seekpath erfc reigh ceigh argsort chunk junk found kx coherent).
Notation frequencies_only we := (negb (String.eqb we "coherent")).

(** C102.  Whatever the words of the line, the program never uses a setting that is missing or
    of the wrong kind.  A line that is not accepted, a file that cannot be read, --weighting
    coherent without eigenvectors (or with --temperature, without force constants), an unknown
    unit and less than one energy bin are refused with those errors.  (The last is built into the
    model: for --ebins 0 and -1 the program's later steps are not followed, see M_intmain.) *)
Theorem C102_typed : forall line, main line <> Err IAttributeErr.
Proof. exact (main_typed int_of float_of load hartree angstrom room pretty seekpath erfc reigh ceigh argsort chunk junk found kx ax wmin coeffs coherent inch sheets rc). Qed.
Theorem C102_refused : forall line,
  (forall e, tool_args line = Err e -> main line = Err (ILineErr e)) /\
  forall ns file we te, tool_args line = Ok ns -> ns "filename" = Some (VStr file) -> ns "weighting" = Some (VStr we) -> ns "temperature" = Some (maybe VFloat te) ->
  (forall e, load file (frequencies_only we) = Err e -> main line = Err (ILoadErr e)) /\
  (forall cell qpts t, we = "coherent" -> load file false = Ok (DFreqs cell qpts t) -> main line = Err (IRunErr NeedsEigenvectors)) /\
  (forall cell qpts e, we = "coherent" -> te <> None -> load file false = Ok (DModes cell qpts e) -> main line = Err (IRunErr NeedsForceConstants)) /\
  forall d lu, load file (frequencies_only we) = Ok d -> needs we te d = None -> ns "length_unit" = Some (VStr lu) ->
    (angstrom lu = None -> main line = Err (IUnitErr lu)) /\
    forall l u p asr param sp g, angstrom lu = Some l -> says_asr ns asr -> ns "dipole_parameter" = Some (VFloat param) -> ns "q_spacing" = Some (VFloat sp) -> says_dw_grid ns l g ->
      path asr param (sp / l) g d = Ok p -> ns "energy_unit" = Some (VStr u) ->
      (hartree u = None -> main line = Err (IUnitErr u)) /\
      forall n, hartree u <> None -> ns "ebins" = Some (VInt n) -> (n < 1)%Z -> main line = Err IBinsErr.
Proof. intros line. split; [intros e; apply main_refused|]. exact (main_refuses int_of float_of load hartree angstrom room pretty seekpath erfc reigh ceigh argsort chunk junk found kx ax wmin coeffs coherent inch sheets rc line). Qed.

(** C102.  Where every setting goes: the map is that of C83 for arguments that say what the
    settings say, the spacings converted from 1/length-unit. *)
Theorem C102_settings : forall line ns file we te d lu l u k n, tool_args line = Ok ns ->
  ns "filename" = Some (VStr file) -> ns "weighting" = Some (VStr we) -> ns "temperature" = Some (maybe VFloat te) -> load file (frequencies_only we) = Ok d -> needs we te d = None ->
  ns "length_unit" = Some (VStr lu) -> angstrom lu = Some l -> ns "energy_unit" = Some (VStr u) -> hartree u = Some k -> ns "ebins" = Some (VInt (Z.of_nat n)) -> (1 <= n)%nat ->
  exists a asr param sp g pl lim, says_intensity ns (/ l * ax) a /\ says_asr ns asr /\ ns "dipole_parameter" = Some (VFloat param) /\ ns "q_spacing" = Some (VFloat sp) /\ says_dw_grid ns l g /\
  says_int_plot ns pl /\ says_limits ns lim /\
  main line = match path asr param (sp / l) g d with
              | Err e => Err (IBandErr e)
              | Ok p => match intensity_tool coeffs k (room u) wmin a p with
                        | Err e => Err (IRunErr e)
                        | Ok (bins, s, segs) => Ok (bins, s, segs, lim, finish inch sheets rc IntensityMap pl "" (pretty u)) end end.
Proof. exact (main_settings int_of float_of load hartree angstrom room pretty seekpath erfc reigh ceigh argsort chunk junk found kx ax wmin coeffs coherent inch sheets rc). Qed.

(** C102.  The order of the options, before and after the file, does not matter. *)
Theorem C102_order : forall l bef file after bef' after' ovs, M_parser.get_parser M_parser.IntensityMap = Ok (true, l) ->
  Forall2 (S_parser.stands_for int_of float_of l) (bef ++ after) ovs -> S_parser.word l file -> S_parser.compatible ovs -> NoDup (map (fun ov => M_parser.o_dest (fst ov)) ovs) ->
  Permutation (bef ++ after) (bef' ++ after') ->
  (forall b u, bef = (b ++ [u])%list -> forall o, In o l -> In (S_parser.u_name u) (M_parser.o_names o) -> S_parser.has_enough o (S_parser.u_words u)) ->
  (forall b u, bef' = (b ++ [u])%list -> forall o, In o l -> In (S_parser.u_name u) (M_parser.o_names o) -> S_parser.has_enough o (S_parser.u_words u)) ->
  main (S_parser.written bef ++ file :: S_parser.written after) = main (S_parser.written bef' ++ file :: S_parser.written after').
Proof. exact (main_order int_of float_of load hartree angstrom room pretty seekpath erfc reigh ceigh argsort chunk junk found kx ax wmin coeffs coherent inch sheets rc). Qed.

(** C102.  Force constants, a line without --weighting, --asr and broadening: along the path for
    --q-spacing, converted from 1/length-unit to 1/angstrom, the map at a point shows for each of
    the --ebins even bins the crystal's own modes whose energy, in --energy-unit, is in it, over
    their number and the width of the bin, times 3 and --scale.
    Partial: crystals for which the image search is wide enough, see C10; such lines; exact
    arithmetic. *)
Theorem C102_map_partial : forall d mass born diel, home_first d -> search_complete d -> det3 (zrows (f_sc d)) <> 0 -> fc_symmetric d -> symmetric3 diel -> csolves ceigh -> labelled_path seekpath ->
  exists L, shares_images d L /\
  forall line ns file uc types u k lu param sp n f bins s segs lim fig,
  tool_args line = Ok ns -> (forall o, In o not_plain_int -> ~ In o line) ->
  ns "filename" = Some (VStr file) -> load file true = Ok (DForce uc types (new_fc d mass born diel)) ->
  ns "energy_unit" = Some (VStr u) -> hartree u = Some k -> 0 < k -> ns "length_unit" = Some (VStr lu) ->
  ns "dipole_parameter" = Some (VFloat param) -> ns "q_spacing" = Some (VFloat sp) -> ns "ebins" = Some (VInt (Z.of_nat n)) -> asked_scale ns f ->
  main line = Ok (bins, s, segs, lim, fig) ->
  exists l, angstrom lu = Some l /\
  let b := seekpath (cell_in uc (f_cell d)) (f_atom_r d) types (sp / l) in
  let N := (3 * M_dynmat.n_atoms d)%nat in
  along_path (reciprocal_cell (f_cell d)) kx (bp_k b) (xs s) /\ length (ys s) = length (bp_k b) /\
  (exists lo hi, lo < hi /\ even_bins lo hi n bins /\ (forall e, ns "e_min" = Some (VFloat e) -> lo = e) /\ (forall e, ns "e_max" = Some (VFloat e) -> hi = e)) /\
  (forall i q, nth_error (bp_k b) i = Some q -> exists md, modes_of N mass (whole_matrix erfc d born diel true param L q (if is_gamma q then Some (approach (bp_k b) i) else None)) md /\
     forall j, (j < n)%nat -> exists v, shows s i j v /\
       v * (nth (S j) bins 0 - nth j bins 0) = f * (3 / INR N * INR (length (filter (fun m => inside (nth j bins 0) (nth (S j) bins 0) (k * m_freq md m)) (seq 0 N))))) /\
  exists idx, region_starts (bp_labels b) idx /\ cut_at s idx segs.
Proof. exact (main_map int_of float_of load hartree angstrom room pretty seekpath erfc reigh ceigh argsort chunk junk found kx ax wmin coeffs coherent inch sheets rc). Qed.

(** C102.  And such a line with --e-min below --e-max does make it, if the eigensolver
    converges. *)
Theorem C102_runs : forall line ns file uc types x u k lu l n lo hi, labelled_path seekpath -> (forall n A, ceigh n A <> None) -> (0 < M_dynmat.n_atoms (o_d x))%nat ->
  tool_args line = Ok ns -> (forall o, In o not_plain_int -> ~ In o line) ->
  ns "filename" = Some (VStr file) -> load file true = Ok (DForce uc types x) -> ns "energy_unit" = Some (VStr u) -> hartree u = Some k -> 0 < k -> ns "length_unit" = Some (VStr lu) -> angstrom lu = Some l ->
  ns "ebins" = Some (VInt (Z.of_nat n)) -> (1 <= n)%nat -> ns "e_min" = Some (VFloat lo) -> ns "e_max" = Some (VFloat hi) -> lo < hi ->
  exists r, main line = Ok r.
Proof. exact (main_runs int_of float_of load hartree angstrom room pretty seekpath erfc reigh argsort chunk found kx ax wmin coeffs coherent inch sheets rc ceigh junk). Qed.

(** C102.  The line with nothing but the file: points 0.025/angstrom apart, 200 bins in meV,
    --dipole-parameter 1, no scale. *)
Theorem C102_bare_partial : forall d mass born diel, home_first d -> search_complete d -> det3 (zrows (f_sc d)) <> 0 -> fc_symmetric d -> symmetric3 diel -> csolves ceigh -> labelled_path seekpath ->
  exists L, shares_images d L /\
  forall file uc types k l bins s segs lim fig, load file true = Ok (DForce uc types (new_fc d mass born diel)) -> hartree "meV" = Some k -> 0 < k -> angstrom "angstrom" = Some l ->
  main [file] = Ok (bins, s, segs, lim, fig) ->
  let b := seekpath (cell_in uc (f_cell d)) (f_atom_r d) types (25 / 1000 / l) in
  let N := (3 * M_dynmat.n_atoms d)%nat in
  along_path (reciprocal_cell (f_cell d)) kx (bp_k b) (xs s) /\ length (ys s) = length (bp_k b) /\
  (exists lo hi, lo < hi /\ even_bins lo hi 200 bins) /\
  forall i q, nth_error (bp_k b) i = Some q -> exists md, modes_of N mass (whole_matrix erfc d born diel true 1 L q (if is_gamma q then Some (approach (bp_k b) i) else None)) md /\
     forall j, (j < 200)%nat -> exists v, shows s i j v /\
       v * (nth (S j) bins 0 - nth j bins 0) = 3 / INR N * INR (length (filter (fun m => inside (nth j bins 0) (nth (S j) bins 0) (k * m_freq md m)) (seq 0 N))).
Proof. exact (main_bare int_of float_of load hartree angstrom room pretty seekpath erfc reigh ceigh argsort chunk junk found kx ax wmin coeffs coherent inch sheets rc). Qed.

(** C102.  Modes or frequencies from a file, the same lines (--asr is not used): the modes of the
    file are counted as they are, the map cut where a step is more than --btol times the median
    step. *)
Theorem C102_loaded_partial : forall line ns file u k lu l bt n f cell qpts d t bins s segs lim fig, tool_args line = Ok ns -> (forall o, In o not_plain_int -> o <> "--asr" -> ~ In o line) ->
  ns "filename" = Some (VStr file) -> load file true = Ok d -> ((exists e, d = DModes cell qpts e /\ t = et e) \/ d = DFreqs cell qpts t) ->
  0 <= kx -> (2 <= length qpts)%nat -> length qpts = nq t -> (forall q, (q < nq t)%nat -> wt t q <> 0) ->
  ns "length_unit" = Some (VStr lu) -> angstrom lu = Some l -> ns "energy_unit" = Some (VStr u) -> hartree u = Some k -> 0 < k -> ns "btol" = Some (VFloat bt) -> ns "ebins" = Some (VInt (Z.of_nat n)) -> asked_scale ns f ->
  main line = Ok (bins, s, segs, lim, fig) ->
  along_path (reciprocal_cell cell) kx qpts (xs s) /\ length (ys s) = length qpts /\ xticks s = Some (found qpts) /\
  (exists lo hi, lo < hi /\ even_bins lo hi n bins /\ (forall e, ns "e_min" = Some (VFloat e) -> lo = e) /\ (forall e, ns "e_max" = Some (VFloat e) -> hi = e)) /\
  (forall i j, (i < nq t)%nat -> (j < n)%nat -> exists v, shows s i j v /\ v * (nth (S j) bins 0 - nth j bins 0) = f * (3 / INR (nm t) * modes_in k t (nth j bins 0) (nth (S j) bins 0) i)) /\
  exists idx m, is_median m (gaps (xs s)) /\ StronglySorted lt idx /\ (forall b, In b idx <-> (0 < b < length (xs s))%nat /\ big_gap bt m (nth b (xs s) 0 - nth (b - 1) (xs s) 0)) /\ cut_at s idx segs.
Proof. exact (main_file int_of float_of load hartree angstrom room pretty seekpath erfc reigh argsort chunk found kx ax wmin coeffs coherent inch sheets rc ceigh junk). Qed.

(** C102.  And such a line with --e-min below --e-max does make it. *)
Theorem C102_loaded_runs : forall line ns file u k lu l n lo hi cell qpts d t, tool_args line = Ok ns -> (forall o, In o not_plain_int -> o <> "--asr" -> ~ In o line) ->
  ns "filename" = Some (VStr file) -> load file true = Ok d -> ((exists e, d = DModes cell qpts e /\ t = et e) \/ d = DFreqs cell qpts t) ->
  0 <= kx -> (2 <= length qpts)%nat -> length qpts = nq t -> (0 < nm t)%nat -> (forall q, (q < nq t)%nat -> wt t q <> 0) ->
  ns "length_unit" = Some (VStr lu) -> angstrom lu = Some l -> ns "energy_unit" = Some (VStr u) -> hartree u = Some k -> 0 < k ->
  ns "ebins" = Some (VInt (Z.of_nat n)) -> (1 <= n)%nat -> ns "e_min" = Some (VFloat lo) -> ns "e_max" = Some (VFloat hi) -> lo < hi ->
  exists r, main line = Ok r.
Proof. exact (L_intmain6.file_runs int_of float_of load hartree angstrom room pretty seekpath erfc reigh ceigh argsort chunk junk found kx ax wmin coeffs coherent inch sheets rc). Qed.
End Program.
Print Assumptions C102_typed.
Print Assumptions C102_refused.
Print Assumptions C102_settings.
Print Assumptions C102_order.
Print Assumptions C102_map_partial.
Print Assumptions C102_runs.
Print Assumptions C102_bare_partial.
Print Assumptions C102_loaded_partial.
Print Assumptions C102_loaded_runs.

(** C102.  For any line the result does not depend on uninitialised memory (the map for
    --weighting coherent, an argument here, apart); for --weighting dos without --asr reciprocal
    it does not depend on which eigenvectors the eigensolver chooses. *)
Theorem C102_solvers : forall int_of float_of E (load : string -> bool -> res ddata E) hartree angstrom room pretty seekpath erfc reigh argsort chunk found kx ax wmin coeffs coherent inch sheets rc,
  (forall file re uc types x, load file re = Ok (DForce uc types x) -> exists d mass born diel, x = new_fc d mass born diel) ->
  let main ceigh junk := int_main int_of float_of load hartree angstrom room pretty seekpath erfc reigh ceigh argsort chunk junk found kx ax wmin coeffs coherent inch sheets rc in
  (forall ceigh junk junk' line, main ceigh junk line = main ceigh junk' line) /\
  forall ceigh ceigh' junk junk' line ns r r', csolves ceigh -> csolves ceigh' -> csorts ceigh -> csorts ceigh' ->
    M_parser.tool_args int_of float_of M_parser.IntensityMap line = Ok ns -> ns "asr" <> Some (VStr "reciprocal") -> ns "weighting" = Some (VStr "dos") ->
    main ceigh junk line = Ok r -> main ceigh' junk' line = Ok r' -> r = r'.
Proof.
  intros. split; [intros; apply main_junk; assumption|]. intros ceigh ceigh' junk junk' line ns r r' C C' O O' T A N R1 R2.
  eapply main_solvers; [eassumption|exact C|exact C'|exact O|exact O'|exact T|exact A|exact N|exact R1|exact R2].
Qed.
Print Assumptions C102_solvers.

(** C102.  A line with --asr realspace and --weighting dos gives what the same line without --asr
    gives for the corrected force constants. *)
Theorem C102_realspace : forall int_of float_of hartree angstrom room pretty seekpath erfc reigh ceigh argsort chunk found kx ax wmin coeffs coherent inch sheets rc
  E (load load' : string -> bool -> res ddata E) junk junk' d mass born diel warned fc' line line' ns ns' file uc types,
  enforce_realspace_asr reigh argsort chunk d = Ok (warned, fc') ->
  M_parser.tool_args int_of float_of M_parser.IntensityMap line = Ok ns -> M_parser.tool_args int_of float_of M_parser.IntensityMap line' = Ok ns' ->
  (forall x, x <> "asr" -> ns x = ns' x) -> ns "asr" = Some (VStr "realspace") -> ns' "asr" = Some VNone ->
  ns "weighting" = Some (VStr "dos") -> ns "filename" = Some (VStr file) ->
  load file true = Ok (DForce uc types (new_fc d mass born diel)) -> load' file true = Ok (DForce uc types (new_fc (with_fc d fc') mass born diel)) ->
  int_main int_of float_of load hartree angstrom room pretty seekpath erfc reigh ceigh argsort chunk junk found kx ax wmin coeffs coherent inch sheets rc line
  = int_main int_of float_of load' hartree angstrom room pretty seekpath erfc reigh ceigh argsort chunk junk' found kx ax wmin coeffs coherent inch sheets rc line'.
Proof. exact L_intmain5.main_realspace. Qed.
Print Assumptions C102_realspace.
Example C102_realspace_meets : (exists ns ns', M_parser.tool_args ints floats M_parser.IntensityMap (thz_map ++ ["--asr"; "realspace"])%list = Ok ns /\ M_parser.tool_args ints floats M_parser.IntensityMap thz_map = Ok ns' /\
    (forall x, x <> "asr" -> ns x = ns' x) /\ ns "asr" = Some (VStr "realspace") /\ ns' "asr" = Some VNone /\ ns "weighting" = Some (VStr "dos")) /\
  forall k, exists fc', enforce_realspace_asr (L_asr6.tabulated (L_asr6.spring k) (L_asr6.spring_ev k) L_asr6.even_v) L_asr6.isort 100 (L_asr6.sprung k) = Ok (true, fc').
Proof.
  split; [|intros; apply L_asr6.sprung_runs]. eexists. eexists.
  split; [cbv -[M_parser.set M_parser.defaults Rdefinitions.Rdiv Rdefinitions.IZR]; reflexivity|]. split; [cbv -[M_parser.set M_parser.defaults Rdefinitions.Rdiv Rdefinitions.IZR]; reflexivity|].
  split; [intros x Hx; apply not_eq_sym, String.eqb_neq in Hx; unfold M_parser.set; rewrite Hx; reflexivity|]. split; [reflexivity|]. split; reflexivity.
Qed.

(** Non-vacuity: a line with options for a chain of atoms, and that with nothing but the file. *)
Example C102_lines : (exists ns, M_parser.tool_args ints floats M_parser.IntensityMap thz_map = Ok ns /\ ns "filename" = Some (VStr "chain.json") /\ ns "energy_unit" = Some (VStr "THz") /\
    ns "length_unit" = Some (VStr "nm") /\ ns "q_spacing" = Some (VFloat (1 / 2)) /\ ns "ebins" = Some (VInt (Z.of_nat 4)) /\ ns "e_min" = Some (VFloat (1 / 2)) /\ ns "e_max" = Some (VFloat 2) /\
    asked_scale ns 2 /\ ns "weighting" = Some (VStr "dos") /\ ns "asr" = Some VNone) /\
  (forall o, In o not_plain_int -> ~ In o thz_map) /\ exists ns, M_parser.tool_args ints floats M_parser.IntensityMap ["chain.json"] = Ok ns.
Proof.
  split; [eexists; split; [vm_compute; reflexivity|]; do 7 (split; [reflexivity|]); split; [right; reflexivity|]; split; reflexivity|]. split; [|eexists; vm_compute; reflexivity].
  intros o Io X. cbn in Io, X. repeat (destruct Io as [<-|Io]; [repeat (destruct X as [X|X]; [discriminate X|]); exact X|]). exact Io.
Qed.
Example C102_map_meets : forall hartree angstrom room pretty erfc reigh argsort chunk junk found kx ax wmin coeffs coherent inch sheets rc k0 k1 k l, Rabs k1 < k0 -> hartree "THz" = Some k -> 0 < k -> angstrom "nm" = Some l ->
  home_first (chain k0 k1) /\ search_complete (chain k0 k1) /\ det3 (zrows (f_sc (chain k0 k1))) <> 0 /\ fc_symmetric (chain k0 k1) /\ symmetric3 unit_cell3 /\ csolves cdiag /\ labelled_path (fun _ _ _ _ => corner) /\
  exists r, int_main ints floats (fun _ _ => @Ok _ unit (DForce 1 [0%nat] (new_fc (chain k0 k1) one_mass None unit_cell3))) hartree angstrom room pretty (fun _ _ _ _ => corner)
    erfc reigh cdiag argsort chunk junk found kx ax wmin coeffs coherent inch sheets rc thz_map = Ok r.
Proof.
  intros. split; [reflexivity|]. split; [apply chain_complete|]. split; [cbn; lra|]. split; [apply chain_sym|]. split; [reflexivity|]. split; [exact cdiag_solves|]. split; [exact corner_labelled|].
  destruct C102_lines as [(ns & T & Nf & Nu & Nl & _ & Nn & N0 & N1 & _) [N _]].
  eapply chain_map; [apply diag_good; assumption|exact corner_labelled|exact T|exact N|exact Nf|exact Nu|eassumption|assumption|exact Nl|eassumption|exact Nn|lia|exact N0|exact N1|lra].
Qed.
(** Solvers that choose different eigenvectors, both for the same line. *)
Example C102_solvers_meets : forall hartree angstrom room pretty erfc reigh argsort chunk junk found kx ax wmin coeffs coherent inch sheets rc k l v, hartree "THz" = Some k -> 0 < k -> angstrom "nm" = Some l ->
  csolves (L_unique4.with_vectors L_unique4.axes) /\ csolves (L_unique4.with_vectors L_unique4.turned) /\ csorts (L_unique4.with_vectors L_unique4.axes) /\ csorts (L_unique4.with_vectors L_unique4.turned) /\
  exists r, int_main ints floats (fun _ _ => @Ok _ unit (DForce 1 [0%nat] (new_fc (chain 1 0) one_mass None unit_cell3))) hartree angstrom room pretty (fun _ _ _ _ => corner)
    erfc reigh (L_unique4.with_vectors v) argsort chunk junk found kx ax wmin coeffs coherent inch sheets rc thz_map = Ok r.
Proof.
  intros. split; [apply L_unique4.with_vectors_solves, L_unique4.axes_orth|]. split; [apply L_unique4.with_vectors_solves, L_unique4.turned_orth|].
  split; [apply L_unique4.with_vectors_sorts|]. split; [apply L_unique4.with_vectors_sorts|].
  destruct C102_lines as [(ns & T & Nf & Nu & Nl & _ & Nn & N0 & N1 & _) [N _]].
  eapply chain_map; [apply vectors_good|exact corner_labelled|exact T|exact N|exact Nf|exact Nu|eassumption|assumption|exact Nl|eassumption|exact Nn|lia|exact N0|exact N1|lra].
Qed.
(** A file of frequencies at three points, of different weights. *)
Example C102_loaded_meets : forall hartree angstrom room pretty seekpath erfc reigh ceigh argsort chunk junk found ax wmin coeffs coherent inch sheets rc k l, hartree "THz" = Some k -> 0 < k -> angstrom "nm" = Some l ->
  let qpts := [(0, 0, 0); (1 / 4, 0, 0); (1 / 2, 0, 0)] in
  let t := mkF 3 3 (fun q m => INR q + INR m) (fun q => if Nat.eqb q 0 then 1 / 2 else 1 / 4) in
  exists r, int_main ints floats (fun _ _ => @Ok _ unit (DFreqs unit_cell3 qpts t)) hartree angstrom room pretty seekpath
    erfc reigh ceigh argsort chunk junk found 1 ax wmin coeffs coherent inch sheets rc thz_map = Ok r.
Proof.
  intros. destruct C102_lines as [(ns & T & Nf & Nu & Nl & _ & Nn & N0 & N1 & _) [N _]].
  eapply C102_loaded_runs with (t := t); [exact T|intros o Io _; exact (N o Io)|exact Nf|reflexivity|right; reflexivity|lra|cbn; lia|reflexivity|cbn; lia| |exact Nl|eassumption|exact Nu|eassumption|assumption|exact Nn|lia|exact N0|exact N1|lra].
  intros q _. cbn. destruct (Nat.eqb q 0); lra.
Qed.
(** Two options, one before and one after the file, or both before it in the other order. *)
Example C102_order_meets : let title := S_parser.mkU "--title" ["A chain"] in let ebins := S_parser.mkU "--ebins" ["4"] in
  Permutation ([title] ++ [ebins])%list ([ebins; title] ++ [])%list /\
  exists l ovs, M_parser.get_parser M_parser.IntensityMap = Ok (true, l) /\ Forall2 (S_parser.stands_for ints floats l) ([title] ++ [ebins])%list ovs /\ S_parser.word l "chain.json" /\ S_parser.compatible ovs /\
  NoDup (map (fun ov => M_parser.o_dest (fst ov)) ovs) /\
  (forall b u, [title] = (b ++ [u])%list -> forall o, In o l -> In (S_parser.u_name u) (M_parser.o_names o) -> S_parser.has_enough o (S_parser.u_words u)) /\
  (forall b u, [ebins; title] = (b ++ [u])%list -> forall o, In o l -> In (S_parser.u_name u) (M_parser.o_names o) -> S_parser.has_enough o (S_parser.u_words u)).
Proof.
  intros title ebins. split; [apply perm_swap|]. exists (L_parser3.options_of M_parser.IntensityMap), [(M_parser.plain ["--title"] "title" M_parser.TStr (VStr ""), VStr "A chain"); (M_parser.plain ["--ebins"] "ebins" M_parser.TInt (VInt 200), VInt 4)].
  assert (W : forall s, M_parser.mem s (flat_map M_parser.o_names (L_parser3.options_of M_parser.IntensityMap)) = false -> M_parser.option_like s = false -> S_parser.word (L_parser3.options_of M_parser.IntensityMap) s)
    by (intros s A B; split; [apply L_parser.mem_false; exact A|apply L_parser.like_spec; exact B]).
  assert (En : forall o, In o (L_parser3.options_of M_parser.IntensityMap) -> In "--title" (M_parser.o_names o) -> S_parser.has_enough o ["A chain"]).
  { apply (proj1 (Forall_forall (fun o => In "--title" (M_parser.o_names o) -> S_parser.has_enough o ["A chain"]) (L_parser3.options_of M_parser.IntensityMap))).
    unfold L_parser3.options_of. match goal with |- Forall _ match ?g with _ => _ end => let r := eval vm_compute in g in change g with r end. cbv iota beta.
    repeat (constructor; [cbn; intros X; repeat (destruct X as [X|X]; [try discriminate X; exact Logic.I|]); destruct X|]). constructor. }
  split; [apply L_parser3.parser_ok|]. split; [|split; [apply W; vm_compute; reflexivity|split; [|split; [|split]]]].
  - constructor; [|constructor; [|constructor]]; (split; [in_parser|]; split; [left; reflexivity|]; split; [constructor; [apply W; vm_compute; reflexivity|constructor]|]; apply S_parser.m_one; [reflexivity|]; split; [constructor; reflexivity|exact I]).
  - intros o v o' v' g [X|[X|[]]] _ G _; assert (Y : o = fst (o, v)) by reflexivity; rewrite <- X in Y; subst o; discriminate G.
  - repeat constructor; cbn; intuition discriminate.
  - intros b u Eu. apply (app_inj_tail [] b title u) in Eu. destruct Eu as [_ <-]. exact En.
  - intros b u Eu. apply (app_inj_tail [ebins] b title u) in Eu. destruct Eu as [_ <-]. exact En.
Qed.
