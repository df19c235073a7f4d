(** C98: the program euphonic-dos, from the words of the command line to the curves. *)
From Coq Require Import String Permutation.
From Verif Require Import Base Cpx Vec3 M_path M_broad M_dos M_bins M_coll M_fixed M_style M_clidos M_grid M_cell M_qpts M_dynmat M_dipole M_struct M_asr M_calc M_doscalc M_dosmain
  S_coll S_dos S_fixed S_clidos S_qpts S_dynmat S_dipole S_asr S_calc S_unique S_doscalc S_dosmain L_nac L_chain L_calc4 L_doscalc2 L_dosmain.
From Verif Require M_parser S_parser L_parser L_parser3.
Import M_parser (val(..), namespace).
Open Scope R_scope.
Open Scope string_scope.

Ltac in_parser := unfold L_parser3.options_of; match goal with |- In _ match ?g with _ => _ end => let r := eval vm_compute in g in change g with r end; cbn [In];
  repeat (first [left; reflexivity | right]).

(** Whatever the words of the line: the program never finds a setting missing or of the wrong kind. *)
Theorem C98_typed : forall int_of float_of E (load : string -> bool -> res (source * sources) E) hartree bohr room pretty erfc reigh ceigh argsort chunk coeffs junk wmin inch sheets rc line,
  dos_main int_of float_of load hartree bohr room pretty erfc reigh ceigh argsort chunk coeffs junk wmin inch sheets rc line <> Err AttributeErr.
Proof. intros. apply main_typed. Qed.
Print Assumptions C98_typed.

(** Every option reaches its place.  With force constants in the file the bins and curves are those
    of C96 for arguments that are what the settings say (the spacing in 1/length-unit), with the
    sum rule, dipole parameter and energy unit of the line, and the figure is the one of C95 for what
    the settings say; the loader is asked for frequencies alone exactly if there is neither
    --weighting nor --pdos to need more. *)
Theorem C98_arguments : forall int_of float_of E (load : string -> bool -> res (source * sources) E) hartree bohr room pretty erfc reigh ceigh argsort chunk coeffs junk wmin inch sheets rc line ns file u k lu b nb param asr x src,
  M_parser.tool_args int_of float_of M_parser.Dos line = Ok ns ->
  ns "filename" = Some (VStr file) -> (forall only : bool, (only = true <-> ns "weighting" = Some (VStr "dos") /\ ns "pdos" = Some VNone) -> load file only = Ok (ForceFile x, src)) ->
  ns "energy_unit" = Some (VStr u) -> hartree u = Some k -> ns "length_unit" = Some (VStr lu) -> bohr lu = Some b ->
  ns "ebins" = Some (VInt (Z.of_nat nb)) -> ns "dipole_parameter" = Some (VFloat param) -> says_asr ns asr ->
  exists a p, says coeffs ns b a /\ says_plot ns p /\
  dos_main int_of float_of load hartree bohr room pretty erfc reigh ceigh argsort chunk coeffs junk wmin inch sheets rc line
  = match dos_from_fc erfc reigh ceigh argsort chunk coeffs junk k wmin (room u) src a asr param x with
    | Err e => Err (RunErr e) | Ok r => Ok (r, finish inch sheets rc Dos p (pretty u) "") end.
Proof. intros. apply (main_forces int_of float_of load hartree bohr room pretty erfc reigh ceigh argsort chunk coeffs junk wmin inch sheets rc line ns file u k lu b nb param asr x src); assumption. Qed.
Print Assumptions C98_arguments.
(** The same for a file of frequencies or modes: the curves are those of C79. *)
Theorem C98_arguments_modes : forall int_of float_of E (load : string -> bool -> res (source * sources) E) hartree bohr room pretty erfc reigh ceigh argsort chunk coeffs junk wmin inch sheets rc line ns file u k nb x src,
  M_parser.tool_args int_of float_of M_parser.Dos line = Ok ns ->
  ns "filename" = Some (VStr file) -> (forall only : bool, (only = true <-> ns "weighting" = Some (VStr "dos") /\ ns "pdos" = Some VNone) -> load file only = Ok (ModesFile x, src)) ->
  ns "energy_unit" = Some (VStr u) -> hartree u = Some k -> ns "ebins" = Some (VInt (Z.of_nat nb)) ->
  exists b a p, says coeffs ns b a /\ says_plot ns p /\
  dos_main int_of float_of load hartree bohr room pretty erfc reigh ceigh argsort chunk coeffs junk wmin inch sheets rc line
  = match dos_tool coeffs k wmin (room u) src a x with Err e => Err (RunErr (ToolErr e)) | Ok r => Ok (r, finish inch sheets rc Dos p (pretty u) "") end.
Proof. intros. apply (main_modes int_of float_of load hartree bohr room pretty erfc reigh ceigh argsort chunk coeffs junk wmin inch sheets rc line ns file u k nb x src); assumption. Qed.
Print Assumptions C98_arguments_modes.
(** A line that is refused, or a file that cannot be loaded, stops the program with that error. *)
Theorem C98_errors : forall int_of float_of E (load : string -> bool -> res (source * sources) E) hartree bohr room pretty erfc reigh ceigh argsort chunk coeffs junk wmin inch sheets rc line,
  let main := dos_main int_of float_of load hartree bohr room pretty erfc reigh ceigh argsort chunk coeffs junk wmin inch sheets rc in
  (forall e, M_parser.tool_args int_of float_of M_parser.Dos line = Err e -> main line = Err (LineErr e)) /\
  (forall ns file e, M_parser.tool_args int_of float_of M_parser.Dos line = Ok ns -> ns "filename" = Some (VStr file) ->
   (forall only : bool, (only = true <-> ns "weighting" = Some (VStr "dos") /\ ns "pdos" = Some VNone) -> load file only = Err e) -> main line = Err (LoadErr e)).
Proof. intros. split; [intros e; apply main_refused|intros ns file e; apply main_not_loaded]. Qed.
Print Assumptions C98_errors.

(** With force constants in the file and without --weighting, --pdos, --adaptive, broadening and
    --asr among the words, every run that succeeds plots the histogram of the frequencies of the
    crystal in the file: the grid is the one of --grid, or found from --grid-spacing, the bins are
    as many as --ebins says, in each bin the curve times the width is --scale times 3/(3n) times the
    mean over the grid of the number of modes in that bin, in the unit of --energy-unit.  Without
    --e-min and --e-max the area is 3 (times --scale).
    Partial: crystals for which the image search is wide enough, see C10; exact arithmetic. *)
Theorem C98_counts_partial : forall int_of float_of E (load : string -> bool -> res (source * sources) E) hartree bohr room pretty erfc reigh ceigh argsort chunk coeffs junk wmin inch sheets rc d mass born diel,
  home_first d -> search_complete d -> det3 (zrows (f_sc d)) <> 0 -> fc_symmetric d -> symmetric3 diel -> csolves ceigh ->
  exists L, shares_images d L /\
  forall line ns file u k lu b param nb src bins ls fig,
  M_parser.tool_args int_of float_of M_parser.Dos line = Ok ns -> (forall o, In o not_plain -> ~ In o line) ->
  ns "filename" = Some (VStr file) -> load file true = Ok (ForceFile (new_fc d mass born diel), src) ->
  ns "energy_unit" = Some (VStr u) -> hartree u = Some k -> 0 < k -> ns "length_unit" = Some (VStr lu) -> bohr lu = Some b ->
  ns "dipole_parameter" = Some (VFloat param) -> ns "ebins" = Some (VInt (Z.of_nat nb)) -> (1 <= nb)%nat ->
  dos_main int_of float_of load hartree bohr room pretty erfc reigh ceigh argsort chunk coeffs junk wmin inch sheets rc line = Ok (bins, ls, fig) ->
  exists g0 g1 g2 f, (0 < g0)%nat /\ (0 < g1)%nat /\ (0 < g2)%nat /\ asked_grid ns (f_cell d) b (Z.of_nat g0, Z.of_nat g1, Z.of_nat g2) /\ asked_scale ns f /\
  let n := M_dynmat.n_atoms d in let N := (g0 * g1 * g2)%nat in let Q := map (mp_point g0 g1 g2) (seq 0 N) in
  exists md y, (forall j, (j < N)%nat -> let q := mp_point g0 g1 g2 j in
      modes_of (3 * n) mass (whole_matrix erfc d born diel true param L (if is_gamma q then vzero else q) (if is_gamma q then Some (approach Q j) else None)) (md j)) /\
    ls = [Some y] /\ length bins = (nb + 1)%nat /\ length y = nb /\
    (forall i, (i < nb)%nat -> nth i bins 0 < nth (S i) bins 0 /\
      nth i y 0 * (nth (S i) bins 0 - nth i bins 0)
      = f * (3 / INR (3 * n) * (Sum (seq 0 N) (fun j => count_in (3 * n) k (nth i bins 0) (nth (S i) bins 0) (md j)) / INR N))) /\
    (ns "e_min" = Some VNone -> ns "e_max" = Some VNone -> 0 < room u -> (exists j m, (j < N)%nat /\ (m < 3 * n)%nat /\ 0 < m_freq (md j) m) ->
      sumn nb (fun i => nth i y 0 * (nth (S i) bins 0 - nth i bins 0)) = 3 * f).
Proof. intros. apply main_counts; assumption. Qed.
Print Assumptions C98_counts_partial.

(** With nothing but the file on the line: the coarsest grid with spacings of at most 0.1 per
    angstrom, 200 bins, energies in meV, and area 3.  Partial as above. *)
Theorem C98_bare_partial : forall int_of float_of E (load : string -> bool -> res (source * sources) E) hartree bohr room pretty erfc reigh ceigh argsort chunk coeffs junk wmin inch sheets rc d mass born diel,
  home_first d -> search_complete d -> det3 (zrows (f_sc d)) <> 0 -> fc_symmetric d -> symmetric3 diel -> csolves ceigh ->
  exists L, shares_images d L /\
  forall file k b src bins ls fig,
  load file true = Ok (ForceFile (new_fc d mass born diel), src) -> hartree "meV" = Some k -> 0 < k -> bohr "angstrom" = Some b ->
  dos_main int_of float_of load hartree bohr room pretty erfc reigh ceigh argsort chunk coeffs junk wmin inch sheets rc [file] = Ok (bins, ls, fig) ->
  exists g0 g1 g2, (0 < g0)%nat /\ (0 < g1)%nat /\ (0 < g2)%nat /\ get_mp_grid_spec (f_cell d) (1 / 10 * b) = Some (Z.of_nat g0, Z.of_nat g1, Z.of_nat g2) /\
  let n := M_dynmat.n_atoms d in let N := (g0 * g1 * g2)%nat in let Q := map (mp_point g0 g1 g2) (seq 0 N) in
  exists md y, (forall j, (j < N)%nat -> let q := mp_point g0 g1 g2 j in
      modes_of (3 * n) mass (whole_matrix erfc d born diel true 1 L (if is_gamma q then vzero else q) (if is_gamma q then Some (approach Q j) else None)) (md j)) /\
    ls = [Some y] /\ length bins = 201%nat /\ length y = 200%nat /\
    (forall i, (i < 200)%nat -> nth i bins 0 < nth (S i) bins 0 /\
      nth i y 0 * (nth (S i) bins 0 - nth i bins 0) = 3 / INR (3 * n) * (Sum (seq 0 N) (fun j => count_in (3 * n) k (nth i bins 0) (nth (S i) bins 0) (md j)) / INR N)) /\
    (0 < room "meV" -> (exists j m, (j < N)%nat /\ (m < 3 * n)%nat /\ 0 < m_freq (md j) m) ->
      sumn 200 (fun i => nth i y 0 * (nth (S i) bins 0 - nth i bins 0)) = 3).
Proof. intros. apply main_bare; assumption. Qed.
Print Assumptions C98_bare_partial.
(** A file with a chain of atoms, and a line for it; the program draws. *)
Example C98_counts_meets : forall room pretty erfc reigh argsort chunk coeffs junk wmin inch sheets rc src k0 k1, Rabs k1 < k0 ->
  home_first (chain k0 k1) /\ search_complete (chain k0 k1) /\ det3 (zrows (f_sc (chain k0 k1))) <> 0 /\ fc_symmetric (chain k0 k1) /\ symmetric3 unit_cell3 /\ csolves cdiag /\
  exists ns r, M_parser.tool_args few_ints (fun _ => None) M_parser.Dos chain_line = Ok ns /\ (forall o, In o not_plain -> ~ In o chain_line) /\
  ns "filename" = Some (VStr "chain.json") /\ ns "energy_unit" = Some (VStr "meV") /\ ns "length_unit" = Some (VStr "angstrom") /\ ns "dipole_parameter" = Some (VFloat 1) /\
  ns "ebins" = Some (VInt (Z.of_nat 4)) /\
  dos_main few_ints (fun _ => None) (fun _ _ => @Ok _ unit (ForceFile (new_fc (chain k0 k1) one_mass None unit_cell3), src)) (fun _ => Some 1) (fun _ => Some 10) room pretty
    erfc reigh cdiag argsort chunk coeffs junk wmin inch sheets rc chain_line = Ok r.
Proof.
  intros. split; [reflexivity|]. split; [apply chain_complete|]. split; [cbn; lra|]. split; [apply chain_sym|]. split; [reflexivity|].
  split; [exact cdiag_solves|]. apply chain_main. assumption.
Qed.

(** The options about the looks of the figure, and where it and the data are saved, change neither
    the bins and curves nor any error before the drawing. *)
Theorem C98_looks : forall int_of float_of E (load : string -> bool -> res (source * sources) E) hartree bohr room pretty erfc reigh ceigh argsort chunk coeffs junk wmin inch sheets rc l us ovs file,
  M_parser.get_parser M_parser.Dos = Ok (true, l) -> Forall2 (S_parser.stands_for int_of float_of l) us ovs -> S_parser.word l file -> S_parser.compatible ovs ->
  let main := dos_main int_of float_of load hartree bohr room pretty erfc reigh ceigh argsort chunk coeffs junk wmin inch sheets rc in
  match main (file :: S_parser.written us), main (file :: S_parser.written (without_looks us)) with
  | Ok (r, _), Ok (r', _) => r = r'
  | Err e, Err e' => e = e'
  | _, _ => False
  end.
Proof. intros. apply (main_looks int_of float_of load hartree bohr room pretty erfc reigh ceigh argsort chunk coeffs junk wmin inch sheets rc l us ovs file); assumption. Qed.
Print Assumptions C98_looks.
(** Two options, one of them about the looks *)
Definition look_uses := [S_parser.mkU "--title" ["A chain"]; S_parser.mkU "--ebins" ["4"]].
Example C98_looks_meets : without_looks look_uses = [S_parser.mkU "--ebins" ["4"]] /\
  exists l ovs, M_parser.get_parser M_parser.Dos = Ok (true, l) /\ Forall2 (S_parser.stands_for few_ints (fun _ => None) l) look_uses ovs /\ S_parser.word l "chain.json" /\ S_parser.compatible ovs /\
  NoDup (map (fun ov => M_parser.o_dest (fst ov)) ovs).
Proof.
  split; [reflexivity|]. exists (L_parser3.options_of M_parser.Dos), [(M_parser.plain ["--title"] "title" M_parser.TStr (VStr ""), VStr "A chain"); (M_parser.plain ["--ebins"] "ebins" M_parser.TInt (VInt 200), VInt 4)].
  assert (W : forall s, M_parser.mem s (flat_map M_parser.o_names (L_parser3.options_of M_parser.Dos)) = false -> M_parser.option_like s = false -> S_parser.word (L_parser3.options_of M_parser.Dos) s)
    by (intros s A B; split; [apply L_parser.mem_false; exact A|apply L_parser.like_spec; exact B]).
  split; [apply L_parser3.parser_ok|]. split; [|split; [apply W; vm_compute; reflexivity|split]].
  - constructor; [|constructor; [|constructor]]; (split; [in_parser|]; split; [left; reflexivity|]; split; [constructor; [apply W; vm_compute; reflexivity|constructor]|]; apply S_parser.m_one; [reflexivity|]; split; [constructor; reflexivity|exact I]).
  - intros o v o' v' g [X|[X|[]]] _ G _; assert (Y : o = fst (o, v)) by reflexivity; rewrite <- X in Y; subst o; discriminate G.
  - repeat constructor; cbn; intuition discriminate.
Qed.

(** Neither the bins, the curves and the figure nor the errors depend on the order of the options. *)
Theorem C98_order : forall int_of float_of E (load : string -> bool -> res (source * sources) E) hartree bohr room pretty erfc reigh ceigh argsort chunk coeffs junk wmin inch sheets rc l
  before file after before' after' ovs, M_parser.get_parser M_parser.Dos = Ok (true, l) ->
  Forall2 (S_parser.stands_for int_of float_of l) (before ++ after) ovs -> S_parser.word l file -> S_parser.compatible ovs -> NoDup (map (fun ov => M_parser.o_dest (fst ov)) ovs) ->
  Permutation (before ++ after) (before' ++ after') ->
  (forall b u, before = (b ++ [u])%list -> forall o, In o l -> In (S_parser.u_name u) (M_parser.o_names o) -> S_parser.has_enough o (S_parser.u_words u)) ->
  (forall b u, before' = (b ++ [u])%list -> forall o, In o l -> In (S_parser.u_name u) (M_parser.o_names o) -> S_parser.has_enough o (S_parser.u_words u)) ->
  let main := dos_main int_of float_of load hartree bohr room pretty erfc reigh ceigh argsort chunk coeffs junk wmin inch sheets rc in
  main (S_parser.written before ++ file :: S_parser.written after)%list = main (S_parser.written before' ++ file :: S_parser.written after')%list.
Proof. intros. apply (main_order int_of float_of load hartree bohr room pretty erfc reigh ceigh argsort chunk coeffs junk wmin inch sheets rc l before file after before' after' ovs); assumption. Qed.
Print Assumptions C98_order.
