(** C101: the program euphonic-dispersion, from the words of its command line to the bands. *)
From Coq Require Import String Sorted Permutation.
From Verif Require Import Base Cpx Vec3 M_grid M_cell M_qpts M_dynmat M_dipole M_struct M_asr M_calc M_path M_dos M_reorder M_bins M_bands M_style M_dosmain M_bandmain
  S_qpts S_path S_dynmat S_dipole S_asr S_calc S_bins S_reorder S_intmap S_bands S_unique S_dosmain S_bandmain L_nac L_chain L_calc4 L_doscalc2 L_bands3 L_bandmain L_bandmain2 L_bandmain3.
From Verif Require M_parser S_parser L_unique4.
Import M_parser (val(..)).
Open Scope R_scope.
Open Scope string_scope.

Section Program.
Variables (int_of : string -> option Z) (float_of : string -> option R).
Context {E : Type}. Variable load : string -> bool -> res ddata E.
Variables (hartree angstrom : string -> option R) (pretty : string -> string).
Variable seekpath : M3 -> list V3 -> list nat -> R -> bpath.
Variables (erfc : R -> R) (reigh : real_eigh) (ceigh : complex_eigh) (argsort : list R -> list nat) (chunk : nat) (junk : nat -> nat -> nat -> R).
Variables (found : list V3 -> ticks) (tol kx : R).
Variables (inch : string -> option R) (sheets : string -> option sheet) (rc : string -> value).
Notation tool_args := (M_parser.tool_args int_of float_of M_parser.Dispersion).
Notation main := (band_main int_of float_of load hartree angstrom pretty seekpath erfc reigh ceigh argsort chunk junk found tol kx inch sheets rc).

(** C101.  Whatever the words of the line, the program never uses a setting that is missing or
    of the wrong kind.  A line that is not accepted, a file that cannot be read, an unknown unit
    and --reorder for a file without eigenvectors are refused with those errors; the
    eigenvectors are read from the file just if --reorder asks for them. *)
Theorem C101_typed : forall line, main line <> Err BAttributeErr.
Proof. exact (main_typed int_of float_of load hartree angstrom pretty seekpath erfc reigh ceigh argsort chunk junk found tol kx inch sheets rc). Qed.
Theorem C101_refused : forall line,
  (forall e, tool_args line = Err e -> main line = Err (BLineErr e)) /\
  forall ns file re, tool_args line = Ok ns -> ns "filename" = Some (VStr file) -> ns "reorder" = Some (VBool re) ->
    (forall e, load file (negb re) = Err e -> main line = Err (BLoadErr e)) /\
    (forall d u, load file (negb re) = Ok d -> ns "energy_unit" = Some (VStr u) -> hartree u = None -> main line = Err (BUnitErr u)) /\
    forall u k, ns "energy_unit" = Some (VStr u) -> hartree u = Some k ->
      (forall cell qpts t, re = true -> load file false = Ok (DFreqs cell qpts t) -> main line = Err (BRunErr NoEigenvectors)) /\
      (forall uc types x lu, load file (negb re) = Ok (DForce uc types x) -> ns "length_unit" = Some (VStr lu) -> angstrom lu = None -> main line = Err (BRunErr BadLengthUnit)).
Proof.
  intros line. split; [intros e T; apply main_refused; exact T|]. intros ns file re T F R. split; [intros e L; eapply main_not_loaded; eassumption|].
  split; [intros d u L U H; eapply main_no_unit; eassumption|]. intros u k U K.
  destruct (main_refuses int_of float_of load hartree angstrom pretty seekpath erfc reigh ceigh argsort chunk junk found tol kx inch sheets rc line ns file u k T F U K) as [A B].
  split; [intros cell qpts t -> L; eapply A; eassumption|]. intros uc types x lu L N H. eapply B; eassumption.
Qed.

(** C101.  Where every setting goes: the bands are those of C84 for arguments that say what the
    settings say. *)
Theorem C101_settings : forall line ns file re u k d, tool_args line = Ok ns ->
  ns "filename" = Some (VStr file) -> ns "reorder" = Some (VBool re) -> load file (negb re) = Ok d -> ns "energy_unit" = Some (VStr u) -> hartree u = Some k ->
  exists a p lim, says_bands ns a /\ says_plot ns p /\ says_range ns lim /\
  main line = match dispersion_tool seekpath erfc reigh ceigh argsort chunk junk angstrom found tol k kx a d with
              | Err e => Err (BRunErr e)
              | Ok (s, segs) => Ok (s, segs, lim, finish inch sheets rc Dispersion p "" (pretty u)) end.
Proof. exact (main_settings int_of float_of load hartree angstrom pretty seekpath erfc reigh ceigh argsort chunk junk found tol kx inch sheets rc). Qed.

(** C101.  The order of the options, before and after the file, does not matter. *)
Theorem C101_order : forall l bef file after bef' after' ovs, M_parser.get_parser M_parser.Dispersion = Ok (true, l) ->
  Forall2 (S_parser.stands_for int_of float_of l) (bef ++ after) ovs -> S_parser.word l file -> S_parser.compatible ovs -> NoDup (map (fun ov => M_parser.o_dest (fst ov)) ovs) ->
  Permutation (bef ++ after) (bef' ++ after') ->
  (forall b u, bef = (b ++ [u])%list -> forall o, In o l -> In (S_parser.u_name u) (M_parser.o_names o) -> S_parser.has_enough o (S_parser.u_words u)) ->
  (forall b u, bef' = (b ++ [u])%list -> forall o, In o l -> In (S_parser.u_name u) (M_parser.o_names o) -> S_parser.has_enough o (S_parser.u_words u)) ->
  main (S_parser.written bef ++ file :: S_parser.written after) = main (S_parser.written bef' ++ file :: S_parser.written after').
Proof. exact (main_order int_of float_of load hartree angstrom pretty seekpath erfc reigh ceigh argsort chunk junk found tol kx inch sheets rc). Qed.

(** C101.  Force constants, a line without --reorder and --asr: along the path for the spacing
    --q-spacing, converted from 1/length-unit to 1/angstrom (but see C84_spacing_refuted for cells
    displayed in another unit), the bands are, in --energy-unit, the frequencies of the crystal's
    own modes (at gamma of the limit along the path), labelled and cut as in C84.
    Partial: crystals for which the image search is wide enough, see C10; exact arithmetic. *)
Theorem C101_bands_partial : forall d mass born diel, home_first d -> search_complete d -> det3 (zrows (f_sc d)) <> 0 -> fc_symmetric d -> symmetric3 diel -> csolves ceigh -> labelled_path seekpath ->
  exists L, shares_images d L /\
  forall line ns file uc types u k lu param sp s segs lim fig,
  tool_args line = Ok ns -> (forall o, In o not_plain_bands -> ~ In o line) ->
  ns "filename" = Some (VStr file) -> load file true = Ok (DForce uc types (new_fc d mass born diel)) ->
  ns "energy_unit" = Some (VStr u) -> hartree u = Some k -> ns "length_unit" = Some (VStr lu) ->
  ns "dipole_parameter" = Some (VFloat param) -> ns "q_spacing" = Some (VFloat sp) ->
  main line = Ok (s, segs, lim, fig) ->
  exists l, angstrom lu = Some l /\
  let b := seekpath (cell_in uc (f_cell d)) (f_atom_r d) types (sp / l) in
  let qpts := doubled (bp_k b) (bp_labels b) in
  along_path (reciprocal_cell (f_cell d)) kx qpts (xs s) /\ length (ys s) = length qpts /\
  (forall i q, nth_error qpts i = Some q -> exists md, nth_error (ys s) i = Some (map (fun m => m_freq md m * k) (seq 0 (3 * M_dynmat.n_atoms d))) /\
     modes_of (3 * M_dynmat.n_atoms d) mass (whole_matrix erfc d born diel true param L q (if is_gamma q then Some (approach qpts i) else None)) md) /\
  ((exists t, (t < length (bp_labels b))%nat /\ nth t (bp_labels b) ""%string <> ""%string) ->
   exists ts, xticks s = Some ts /\ forall z name, In (z, name) ts <-> exists t, (t < length (bp_labels b))%nat /\ nth t (bp_labels b) ""%string <> ""%string /\
     name = written (nth t (bp_labels b) ""%string) /\ (z = Z.of_nat (shifted (bp_labels b) t) \/ (interior_gamma_label (bp_labels b) t = true /\ z = Z.of_nat (S (shifted (bp_labels b) t))))) /\
  exists idx, StronglySorted lt idx /\ (forall i, In i idx <-> exists t, starts_region (bp_labels b) t /\ i = shifted (bp_labels b) t) /\ cut_at s idx segs.
Proof. exact (main_bands int_of float_of load hartree angstrom pretty seekpath erfc reigh ceigh argsort chunk junk found tol kx inch sheets rc). Qed.

(** C101.  And such a line does draw them, if the eigensolver converges. *)
Theorem C101_runs : forall line ns file uc types x u k lu l, labelled_path seekpath -> (forall n A, ceigh n A <> None) ->
  tool_args line = Ok ns -> (forall o, In o not_plain_bands -> ~ In o line) ->
  ns "filename" = Some (VStr file) -> load file true = Ok (DForce uc types x) -> ns "energy_unit" = Some (VStr u) -> hartree u = Some k -> ns "length_unit" = Some (VStr lu) -> angstrom lu = Some l ->
  exists r, main line = Ok r.
Proof. exact (main_runs int_of float_of load hartree angstrom pretty seekpath erfc reigh argsort chunk found tol kx inch sheets rc ceigh junk). Qed.

(** C101.  The line with nothing but the file: points 0.025/angstrom apart, energies in meV,
    --dipole-parameter 1, no limits on the energy axis. *)
Theorem C101_bare_partial : forall d mass born diel, home_first d -> search_complete d -> det3 (zrows (f_sc d)) <> 0 -> fc_symmetric d -> symmetric3 diel -> csolves ceigh -> labelled_path seekpath ->
  exists L, shares_images d L /\
  forall file uc types k l s segs lim fig, load file true = Ok (DForce uc types (new_fc d mass born diel)) -> hartree "meV" = Some k -> angstrom "angstrom" = Some l ->
  main [file] = Ok (s, segs, lim, fig) ->
  let b := seekpath (cell_in uc (f_cell d)) (f_atom_r d) types (25 / 1000 / l) in
  let qpts := doubled (bp_k b) (bp_labels b) in
  along_path (reciprocal_cell (f_cell d)) kx qpts (xs s) /\ length (ys s) = length qpts /\ lim = (None, None) /\
  forall i q, nth_error qpts i = Some q -> exists md, nth_error (ys s) i = Some (map (fun m => m_freq md m * k) (seq 0 (3 * M_dynmat.n_atoms d))) /\
     modes_of (3 * M_dynmat.n_atoms d) mass (whole_matrix erfc d born diel true 1 L q (if is_gamma q then Some (approach qpts i) else None)) md.
Proof. exact (main_bare int_of float_of load hartree angstrom pretty seekpath erfc reigh argsort chunk found tol kx inch sheets rc ceigh junk). Qed.

(** C101.  Modes or frequencies from a file, without --reorder: drawn as they are, in
    --energy-unit, cut where a step is more than --btol times the median step. *)
Theorem C101_loaded : forall line ns file u k bt cell qpts d t, tool_args line = Ok ns -> ~ In "--reorder" line -> ns "filename" = Some (VStr file) -> load file true = Ok d ->
  ns "energy_unit" = Some (VStr u) -> hartree u = Some k -> ns "btol" = Some (VFloat bt) ->
  ((exists e, d = DModes cell qpts e /\ t = et e) \/ d = DFreqs cell qpts t) -> 0 <= kx -> (2 <= length qpts)%nat -> length qpts = nq t ->
  exists s segs lim p idx m, main line = Ok (s, segs, lim, finish inch sheets rc Dispersion p "" (pretty u)) /\ says_plot ns p /\ says_range ns lim /\
  along_path (reciprocal_cell cell) kx qpts (xs s) /\ length (ys s) = length qpts /\
  (forall q, (q < nq t)%nat -> nth_error (ys s) q = Some (map (fun m => freq t q m * k) (seq 0 (nm t)))) /\ xticks s = Some (found qpts) /\
  is_median m (gaps (xs s)) /\ StronglySorted lt idx /\
  (forall b, In b idx <-> (0 < b < length (xs s))%nat /\ big_gap bt m (nth b (xs s) 0 - nth (b - 1) (xs s) 0)) /\ cut_at s idx segs.
Proof. exact (main_file int_of float_of load hartree angstrom pretty seekpath erfc reigh argsort chunk found tol kx inch sheets rc ceigh junk). Qed.
End Program.
Print Assumptions C101_typed.
Print Assumptions C101_refused.
Print Assumptions C101_settings.
Print Assumptions C101_order.
Print Assumptions C101_bands_partial.
Print Assumptions C101_runs.
Print Assumptions C101_bare_partial.
Print Assumptions C101_loaded.

(** C101.  For any line the result does not depend on uninitialised memory; without --reorder
    and --asr reciprocal it does not depend on which eigenvectors the eigensolver chooses. *)
Theorem C101_solvers : forall int_of float_of E (load : string -> bool -> res ddata E) hartree angstrom pretty seekpath erfc reigh argsort chunk found tol kx inch sheets rc,
  (forall file re uc types x, load file re = Ok (DForce uc types x) -> exists d mass born diel, x = new_fc d mass born diel) ->
  let main ceigh junk := band_main int_of float_of load hartree angstrom pretty seekpath erfc reigh ceigh argsort chunk junk found tol kx inch sheets rc in
  (forall ceigh junk junk' line, main ceigh junk line = main ceigh junk' line) /\
  forall ceigh ceigh' junk junk' line ns r r', csolves ceigh -> csolves ceigh' -> csorts ceigh -> csorts ceigh' ->
    M_parser.tool_args int_of float_of M_parser.Dispersion line = Ok ns -> ns "asr" <> Some (VStr "reciprocal") -> ns "reorder" = Some (VBool false) ->
    main ceigh junk line = Ok r -> main ceigh' junk' line = Ok r' -> r = r'.
Proof.
  intros. split; [intros; apply main_junk; assumption|]. intros ceigh ceigh' junk junk' line ns r r' C C' O O' T A N R1 R2.
  eapply main_solvers; [eassumption|exact C|exact C'|exact O|exact O'|exact T|exact A|exact N|exact R1|exact R2].
Qed.
Print Assumptions C101_solvers.

(** Non-vacuity: a line with options for a chain of atoms, and that with nothing but the file. *)
Example C101_lines : (exists ns, M_parser.tool_args (fun _ => None) floats M_parser.Dispersion thz_line = Ok ns /\ ns "filename" = Some (VStr "chain.json") /\ ns "energy_unit" = Some (VStr "THz") /\
    ns "length_unit" = Some (VStr "nm") /\ ns "q_spacing" = Some (VFloat (1 / 2)) /\ ns "dipole_parameter" = Some (VFloat 1) /\ ns "e_min" = Some (VFloat (1 / 2)) /\ ns "reorder" = Some (VBool false) /\ ns "asr" = Some VNone) /\
  (forall o, In o not_plain_bands -> ~ In o thz_line) /\ exists ns, M_parser.tool_args (fun _ => None) floats M_parser.Dispersion ["chain.json"] = Ok ns.
Proof.
  split; [eexists; split; [vm_compute; reflexivity|]; repeat split|]. split; [|eexists; vm_compute; reflexivity].
  intros o Io X. cbn in Io, X. repeat (destruct Io as [<-|Io]; [repeat (destruct X as [X|X]; [discriminate X|]); exact X|]). exact Io.
Qed.
Example C101_bands_meets : forall hartree angstrom pretty erfc reigh argsort chunk junk found tol kx inch sheets rc k0 k1 k l, Rabs k1 < k0 -> hartree "THz" = Some k -> angstrom "nm" = Some l ->
  home_first (chain k0 k1) /\ search_complete (chain k0 k1) /\ det3 (zrows (f_sc (chain k0 k1))) <> 0 /\ fc_symmetric (chain k0 k1) /\ symmetric3 unit_cell3 /\ csolves cdiag /\ labelled_path (fun _ _ _ _ => corner) /\
  exists r, band_main (fun _ => None) floats (fun _ _ => @Ok _ unit (DForce 1 [0%nat] (new_fc (chain k0 k1) one_mass None unit_cell3))) hartree angstrom pretty (fun _ _ _ _ => corner)
    erfc reigh cdiag argsort chunk junk found tol kx inch sheets rc thz_line = Ok r.
Proof.
  intros. split; [reflexivity|]. split; [apply chain_complete|]. split; [cbn; lra|]. split; [apply chain_sym|]. split; [reflexivity|]. split; [exact cdiag_solves|]. split; [exact corner_labelled|].
  destruct C101_lines as [(ns & T & Nf & Nu & Nl & _) [N _]]. eapply chain_main; [apply diag_good; assumption|exact corner_labelled|exact T|exact N|exact Nf|exact Nu|eassumption|exact Nl|eassumption].
Qed.
(** Solvers that choose different eigenvectors, both for the same line. *)
Example C101_solvers_meets : forall hartree angstrom pretty erfc reigh argsort chunk junk found tol kx inch sheets rc k l v, hartree "THz" = Some k -> angstrom "nm" = Some l ->
  csolves (L_unique4.with_vectors L_unique4.axes) /\ csolves (L_unique4.with_vectors L_unique4.turned) /\ csorts (L_unique4.with_vectors L_unique4.axes) /\ csorts (L_unique4.with_vectors L_unique4.turned) /\
  exists r, band_main (fun _ => None) floats (fun _ _ => @Ok _ unit (DForce 1 [0%nat] (new_fc (chain 1 0) one_mass None unit_cell3))) hartree angstrom pretty (fun _ _ _ _ => corner)
    erfc reigh (L_unique4.with_vectors v) argsort chunk junk found tol kx inch sheets rc thz_line = Ok r.
Proof.
  intros. split; [apply L_unique4.with_vectors_solves, L_unique4.axes_orth|]. split; [apply L_unique4.with_vectors_solves, L_unique4.turned_orth|].
  split; [apply L_unique4.with_vectors_sorts|]. split; [apply L_unique4.with_vectors_sorts|].
  destruct C101_lines as [(ns & T & Nf & Nu & Nl & _) [N _]]. eapply chain_main; [apply vectors_good|exact corner_labelled|exact T|exact N|exact Nf|exact Nu|eassumption|exact Nl|eassumption].
Qed.
