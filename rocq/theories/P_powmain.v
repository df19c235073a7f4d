(** C100: the program euphonic-powder-map, from the words of its command line to the map. *)
From Coq Require Import String Permutation.
From Verif Require Import Base Cpx Vec3 M_path M_broad M_dos M_bins M_coll M_fixed M_style M_clidos M_sample M_sf M_sphere M_powder M_weight M_grid M_cell M_qpts M_dynmat M_dipole M_struct M_asr M_calc M_doscalc M_powcalc M_dosmain M_powmain
  S_broad S_dos S_sample S_powder S_sphere S_qpts S_dynmat S_dipole S_asr S_calc S_unique S_doscalc S_powcalc S_dosmain S_powmain L_nac L_chain L_calc4 L_weight L_doscalc2 L_powmain L_powmain2.
From Verif Require M_parser S_parser L_unique4.
Import M_parser (val(..)).
Open Scope R_scope.
Open Scope string_scope.

Section Program.
Variables (int_of : string -> option Z) (float_of : string -> option R).
Context {E : Type}. Variable load : string -> res (option (fcobj * sources * (nat -> R))) E.
Variables (hartree bohr : string -> option R) (room hbar2 : string -> R) (pretty pretty_q : string -> string).
Variables (erfc : R -> R) (reigh : real_eigh) (ceigh : complex_eigh) (argsort : list R -> list nat) (chunk : nat).
Variables (junk : list V3 -> nat -> nat -> nat -> R) (before : list V3 -> list ((nat -> nat -> nat -> R) * options)).
Variables (solve : M3 -> V3 -> V3) (ops : fcobj -> option (list symop)) (dw_chunk : nat) (kB fmin wmin c : R) (coeffs : R -> list R).
Variables (jit : R -> nat -> R * R) (jit2 : R -> nat -> nat -> R * R) (always : R -> nat -> R * R).
Variables (inch : string -> option R) (sheets : string -> option sheet) (rc : string -> value).
Notation tool_args := (M_parser.tool_args int_of float_of M_parser.PowderMap).
Notation main := (powder_main int_of float_of load hartree bohr room hbar2 pretty pretty_q erfc reigh ceigh argsort chunk junk before solve ops dw_chunk kB fmin wmin c coeffs jit jit2 always inch sheets rc).

(** C100.  Whatever the words of the line, the program never uses a setting that is missing or
    of the wrong kind.  A line that is not accepted, a file that cannot be read or holds no force
    constants, and --pdos with --weighting coherent are refused with those errors. *)
Theorem C100_typed : forall line, main line <> Err PAttributeErr.
Proof. exact (main_typed int_of float_of load hartree bohr room hbar2 pretty pretty_q erfc reigh ceigh argsort chunk junk before solve ops dw_chunk kB fmin wmin c coeffs jit jit2 always inch sheets rc). Qed.
Theorem C100_refused : forall line,
  (forall e, tool_args line = Err e -> main line = Err (PLineErr e)) /\
  forall ns file, tool_args line = Ok ns -> ns "filename" = Some (VStr file) ->
    (forall e, load file = Err e -> main line = Err (PLoadErr e)) /\ (load file = Ok None -> main line = Err NotForceConstants) /\
    forall x v, load file = Ok (Some x) -> ns "weighting" = Some (VStr "coherent") -> ns "pdos" = Some (VList [VStr v]) -> main line = Err (PRunErr (PowTool PdosNeedsDos)).
Proof.
  intros line. split; [intros e T; apply main_refused; exact T|]. intros ns file T F. split; [intros e L; eapply main_not_loaded; eassumption|].
  split; [intros L; eapply main_not_forces; eassumption|]. intros x v L W P. eapply main_pdos; eassumption.
Qed.

(** C100.  Where every setting goes: the map is that of C99 for arguments that say what the
    settings say, all |q| converted from 1/length-unit to 1/bohr and the axis converted back;
    the polynomial of --q-broadening gives the same widths, and --npts-density the same
    numbers of points, as for |q| in 1/length-unit.  (--use-brille is left out.) *)
Theorem C100_settings : forall line ns file u k lu b nb param asr x src sl, tool_args line = Ok ns ->
  ns "filename" = Some (VStr file) -> load file = Ok (Some (x, src, sl)) -> ns "energy_unit" = Some (VStr u) -> hartree u = Some k -> ns "length_unit" = Some (VStr lu) -> bohr lu = Some b -> b <> 0 ->
  ns "ebins" = Some (VInt (Z.of_nat nb)) -> ns "dipole_parameter" = Some (VFloat param) -> says_asr ns asr -> ns "use_brille" = Some (VBool false) ->
  exists a w p lim rnd rnd2, says_map ns b a /\ says_weight ns b w /\ says_map_plot ns p /\ says_limits ns lim /\ says_jitter ns jit rnd /\ says_jitter ns jit2 rnd2 /\
  main line = match powder_from_fc erfc reigh ceigh argsort chunk junk before asr param solve (ops x) dw_chunk kB fmin wmin k c src sl rnd rnd2 always coeffs (hbar2 u) (room u) a w x with
              | Err e => Err (PRunErr e)
              | Ok (edges, bins, z) => Ok (map (fun q => q / b) edges, bins, z, lim, finish inch sheets rc PowderMap p (pretty_q lu) (pretty u)) end.
Proof. exact (main_settings int_of float_of load hartree bohr room hbar2 pretty pretty_q erfc reigh ceigh argsort chunk junk before solve ops dw_chunk kB fmin wmin c coeffs jit jit2 always inch sheets rc). Qed.

(** C100.  The order of the options, before and after the file, does not matter. *)
Theorem C100_order : forall l bef file after bef' after' ovs, M_parser.get_parser M_parser.PowderMap = Ok (true, l) ->
  Forall2 (S_parser.stands_for int_of float_of l) (bef ++ after) ovs -> S_parser.word l file -> S_parser.compatible ovs -> NoDup (map (fun ov => M_parser.o_dest (fst ov)) ovs) ->
  Permutation (bef ++ after) (bef' ++ after') ->
  (forall b u, bef = (b ++ [u])%list -> forall o, In o l -> In (S_parser.u_name u) (M_parser.o_names o) -> S_parser.has_enough o (S_parser.u_words u)) ->
  (forall b u, bef' = (b ++ [u])%list -> forall o, In o l -> In (S_parser.u_name u) (M_parser.o_names o) -> S_parser.has_enough o (S_parser.u_words u)) ->
  main (S_parser.written bef ++ file :: S_parser.written after) = main (S_parser.written bef' ++ file :: S_parser.written after').
Proof. exact (main_order int_of float_of load hartree bohr room hbar2 pretty pretty_q erfc reigh ceigh argsort chunk junk before solve ops dw_chunk kB fmin wmin c coeffs jit jit2 always inch sheets rc). Qed.

(** C100.  A line without the options that ask for something else than numbers of modes: the
    |q| axis goes from --q-min to --q-max in the fewest equal bins not wider than --q-spacing, and
    each row is (times --scale) the histogram of the crystal's own frequencies, averaged over
    the points asked for on the sphere through the middle of the bin.
    Partial: crystals for which the image search is wide enough, see C10; exact arithmetic. *)
Theorem C100_counts_partial : forall d mass born diel, home_first d -> search_complete d -> det3 (zrows (f_sc d)) <> 0 -> fc_symmetric d -> symmetric3 diel -> csolves ceigh ->
  exists L, shares_images d L /\
  forall line ns file u k lu b param nb q0 q1 qs src sl edges bins z lim fig,
  tool_args line = Ok ns -> (forall o, In o not_plain_map -> ~ In o line) ->
  ns "filename" = Some (VStr file) -> load file = Ok (Some (new_fc d mass born diel, src, sl)) ->
  ns "energy_unit" = Some (VStr u) -> hartree u = Some k -> 0 < k -> ns "length_unit" = Some (VStr lu) -> bohr lu = Some b -> 0 < b ->
  ns "dipole_parameter" = Some (VFloat param) -> ns "ebins" = Some (VInt (Z.of_nat nb)) -> (1 <= nb)%nat ->
  ns "q_min" = Some (VFloat q0) -> ns "q_max" = Some (VFloat q1) -> ns "q_spacing" = Some (VFloat qs) -> 0 <= q0 -> q0 < q1 -> 0 < qs ->
  S_sample.solves solve -> det3 (f_cell d) <> 0 ->
  main line = Ok (edges, bins, z, lim, fig) ->
  exists N f, (1 <= N)%nat /\ even_bins q0 q1 N edges /\ (q1 - q0) / INR N <= qs /\ (forall m, (1 <= m)%nat -> (q1 - q0) / INR m <= qs -> (N <= m)%nat) /\ asked_scale ns f /\
  length bins = (nb + 1)%nat /\ increasing bins /\
  forall i, (i < N)%nat -> let q := bin_middle edges i in exists np way rnd rnd2 l ps e,
    asked_points ns q np /\ ns "sampling" = Some (VStr way) /\ says_jitter ns jit rnd /\ says_jitter ns jit2 rnd2 /\
    get_qpts_sphere np way (rnd (q * b)) (rnd2 (q * b)) (always (q * b)) = Ok l /\
    length ps = length l /\ on_shell (reciprocal_cell (f_cell d)) (q * b) ps /\ crystal_modes erfc d mass born diel param L ps e /\
    forall j, (j < nb)%nat -> exists v, z i j = Some v /\ v * (nth (S j) bins 0 - nth j bins 0) =
      f * (3 / INR (3 * M_dynmat.n_atoms d) * average (seq 0 (length ps)) (modes_in k (et e) (nth j bins 0) (nth (S j) bins 0))).
Proof. exact (main_counts int_of float_of load hartree bohr room hbar2 pretty pretty_q erfc reigh ceigh argsort chunk junk before solve ops dw_chunk kB fmin wmin c coeffs jit jit2 always inch sheets rc). Qed.

(** C100.  --weighting coherent: each row is (times --scale) the intensity scattered by the
    crystal's own modes, averaged over the points asked for; with --temperature the one
    Debye-Waller factor is that of the crystal's own modes on the grid of --grid or
    --grid-spacing. *)
Theorem C100_coherent_partial : forall d mass born diel, home_first d -> search_complete d -> det3 (zrows (f_sc d)) <> 0 -> fc_symmetric d -> symmetric3 diel -> csolves ceigh ->
  exists L, shares_images d L /\
  forall line ns file u k lu b param nb q0 q1 qs src sl edges bins z lim fig,
  tool_args line = Ok ns -> ns "weighting" = Some (VStr "coherent") -> (forall o, In o not_plain_map -> ~ In o ["--weighting"; "-w"] -> ~ In o line) ->
  ns "filename" = Some (VStr file) -> load file = Ok (Some (new_fc d mass born diel, src, sl)) ->
  ns "energy_unit" = Some (VStr u) -> hartree u = Some k -> 0 < k -> ns "length_unit" = Some (VStr lu) -> bohr lu = Some b -> 0 < b ->
  ns "dipole_parameter" = Some (VFloat param) -> ns "ebins" = Some (VInt (Z.of_nat nb)) -> (1 <= nb)%nat -> (0 < dw_chunk)%nat ->
  ns "q_min" = Some (VFloat q0) -> ns "q_max" = Some (VFloat q1) -> ns "q_spacing" = Some (VFloat qs) -> 0 <= q0 -> q0 < q1 -> 0 < qs ->
  S_sample.solves solve -> det3 (f_cell d) <> 0 ->
  main line = Ok (edges, bins, z, lim, fig) ->
  exists N f t dd, (1 <= N)%nat /\ even_bins q0 q1 N edges /\ (q1 - q0) / INR N <= qs /\ (forall m, (1 <= m)%nat -> (q1 - q0) / INR m <= qs -> (N <= m)%nat) /\ asked_scale ns f /\
  length bins = (nb + 1)%nat /\ increasing bins /\ ns "temperature" = Some (maybe VFloat t) /\
  (match t with
   | None => dd = None
   | Some t => exists g mesh e d0, asked_grid ns (f_cell d) b g /\ grid_points g = Some mesh /\ crystal_modes erfc d mass born diel param L mesh e /\
       calculate_debye_waller dw_chunk e (M_sf.mkX mass (fun a => nth a (f_atom_r d) vzero) (reciprocal_cell (f_cell d))) kB t fmin (ops (new_fc d mass born diel)) = Ok d0 /\ dd = Some d0
   end) /\
  forall i, (i < N)%nat -> let q := bin_middle edges i in exists np way rnd rnd2 l ps e,
    asked_points ns q np /\ ns "sampling" = Some (VStr way) /\ says_jitter ns jit rnd /\ says_jitter ns jit2 rnd2 /\
    get_qpts_sphere np way (rnd (q * b)) (rnd2 (q * b)) (always (q * b)) = Ok l /\
    length ps = length l /\ on_shell (reciprocal_cell (f_cell d)) (q * b) ps /\ crystal_modes erfc d mass born diel param L ps e /\ ps <> [] /\
    forall j, (j < nb)%nat -> exists v, z i j = Some v /\ v * (nth (S j) bins 0 - nth j bins 0) =
      f * (c * average (seq 0 (length ps)) (scattered kB k t (f_cell d) sl mass (fun a => nth a (f_atom_r d) vzero) dd ps e (nth j bins 0) (nth (S j) bins 0))).
Proof. exact (main_coherent int_of float_of load hartree bohr room hbar2 pretty pretty_q erfc reigh ceigh argsort chunk junk before solve ops dw_chunk kB fmin wmin c coeffs jit jit2 always inch sheets rc). Qed.

(** C100.  The line with nothing but the file: 120 |q| bins of 0.025 1/angstrom from zero,
    1000 points of the golden spiral per sphere, 200 energy bins. *)
Theorem C100_bare_partial : forall d mass born diel, home_first d -> search_complete d -> det3 (zrows (f_sc d)) <> 0 -> fc_symmetric d -> symmetric3 diel -> csolves ceigh ->
  exists L, shares_images d L /\
  forall file k b src sl edges bins z lim fig,
  load file = Ok (Some (new_fc d mass born diel, src, sl)) -> hartree "meV" = Some k -> 0 < k -> bohr "angstrom" = Some b -> 0 < b ->
  S_sample.solves solve -> det3 (f_cell d) <> 0 ->
  main [file] = Ok (edges, bins, z, lim, fig) ->
  length edges = 121%nat /\ (forall i, (i <= 120)%nat -> nth i edges 0 = INR i * (25 / 1000)) /\ length bins = 201%nat /\ increasing bins /\ lim = (None, None) /\
  forall i, (i < 120)%nat -> let q := bin_middle edges i in exists l ps e,
    get_qpts_sphere (Z.to_nat 1000) "golden" None None (always (q * b)) = Ok l /\ length ps = length l /\ on_shell (reciprocal_cell (f_cell d)) (q * b) ps /\ crystal_modes erfc d mass born diel 1 L ps e /\
    forall j, (j < 200)%nat -> exists v, z i j = Some v /\ v * (nth (S j) bins 0 - nth j bins 0) =
      3 / INR (3 * M_dynmat.n_atoms d) * average (seq 0 (length ps)) (modes_in k (et e) (nth j bins 0) (nth (S j) bins 0)).
Proof. exact (main_bare int_of float_of load hartree bohr room hbar2 pretty pretty_q erfc reigh ceigh argsort chunk junk before solve ops dw_chunk kB fmin wmin c coeffs jit jit2 always inch sheets rc). Qed.
End Program.
Print Assumptions C100_typed.
Print Assumptions C100_refused.
Print Assumptions C100_settings.
Print Assumptions C100_order.
Print Assumptions C100_counts_partial.
Print Assumptions C100_coherent_partial.
Print Assumptions C100_bare_partial.

(** C100.  For any line short of --asr reciprocal the program's result does not depend on which
    eigenvectors the eigensolver chooses; and for any line it does not depend on what the object
    was used for before, or on uninitialised memory. *)
Theorem C100_solvers : forall int_of float_of E (load : string -> res (option (fcobj * sources * (nat -> R))) E) hartree bohr room hbar2 pretty pretty_q erfc reigh argsort chunk
  solve ops dw_chunk kB fmin wmin c coeffs jit jit2 always inch sheets rc,
  (forall file x src sl, load file = Ok (Some (x, src, sl)) -> exists d mass born diel, x = new_fc d mass born diel) ->
  let main ceigh junk before := powder_main int_of float_of load hartree bohr room hbar2 pretty pretty_q erfc reigh ceigh argsort chunk junk before solve ops dw_chunk kB fmin wmin c coeffs jit jit2 always inch sheets rc in
  (forall ceigh junk junk' before before' line, main ceigh junk before line = main ceigh junk' before' line) /\
  forall ceigh ceigh' junk junk' before before' line ns r r', csolves ceigh -> csolves ceigh' -> csorts ceigh -> csorts ceigh' ->
    M_parser.tool_args int_of float_of M_parser.PowderMap line = Ok ns -> ns "asr" <> Some (VStr "reciprocal") ->
    main ceigh junk before line = Ok r -> main ceigh' junk' before' line = Ok r' -> r = r'.
Proof.
  intros. split; [intros; apply main_history; assumption|]. intros ceigh ceigh' junk junk' before before' line ns r r' C C' O O' T A R1 R2.
  eapply main_solvers; [eassumption|exact C|exact C'|exact O|exact O'|exact T|exact A|exact R1|exact R2].
Qed.
Print Assumptions C100_solvers.

(** Non-vacuity: two lines for a chain of atoms, of numbers of modes and of scattered
    intensities with a Debye-Waller factor, make maps. *)
Example C100_counts_meets : forall pretty pretty_q hbar2 room erfc reigh argsort chunk coeffs junk before wmin jit jit2 inch sheets rc sl k0 k1 line, Rabs k1 < k0 -> (forall u, 0 < room u) -> In line [map_line; hot_line] ->
  home_first (chain k0 k1) /\ search_complete (chain k0 k1) /\ det3 (zrows (f_sc (chain k0 k1))) <> 0 /\ fc_symmetric (chain k0 k1) /\ symmetric3 unit_cell3 /\ csolves cdiag /\
  exists solve r, S_sample.solves solve /\ det3 (f_cell (chain k0 k1)) <> 0 /\
  powder_main some_ints some_floats (fun _ => @Ok _ unit (Some (new_fc (chain k0 k1) one_mass None unit_cell3, salt, sl))) (fun _ => Some 1) (fun _ => Some 10) room hbar2 pretty pretty_q
    erfc reigh cdiag argsort chunk junk before solve (fun _ => None) 1 1 0 wmin 1 coeffs jit jit2 (fun _ _ => (0, 0)) inch sheets rc line = Ok r.
Proof.
  intros. split; [reflexivity|]. split; [apply chain_complete|]. split; [cbn; lra|]. split; [apply chain_sym|]. split; [reflexivity|].
  split; [exact cdiag_solves|]. apply chain_main; assumption.
Qed.
Example C100_lines : (exists ns, M_parser.tool_args some_ints some_floats M_parser.PowderMap map_line = Ok ns /\ ns "q_min" = Some (VFloat (1 / 10)) /\ ns "q_max" = Some (VFloat (2 / 10)) /\ ns "asr" = Some VNone) /\
  (forall o, In o not_plain_map -> ~ In o map_line) /\
  (exists ns, M_parser.tool_args some_ints some_floats M_parser.PowderMap hot_line = Ok ns /\ ns "weighting" = Some (VStr "coherent") /\ ns "temperature" = Some (VFloat 1)) /\
  forall o, In o not_plain_map -> ~ In o ["--weighting"; "-w"] -> ~ In o hot_line.
Proof.
  split; [eexists; split; [vm_compute; reflexivity|]; repeat split|]. split; [|split; [eexists; split; [vm_compute; reflexivity|]; split; reflexivity|]].
  - intros o Io X. cbn in Io, X. repeat (destruct Io as [<-|Io]; [repeat (destruct X as [X|X]; [discriminate X|]); exact X|]). exact Io.
  - intros o Io Nw X. cbn in Io, X, Nw. repeat (destruct Io as [<-|Io]; [first [exfalso; apply Nw; tauto | repeat (destruct X as [X|X]; [discriminate X|]); exact X]|]). exact Io.
Qed.
