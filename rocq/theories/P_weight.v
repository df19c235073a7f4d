(** C80 (euphonic-powder-map) for every --weighting, and C83 (euphonic-intensity-map) for
    --weighting coherent. *)
From Coq Require Import String Sorted.
From Verif Require Import Base Cpx Vec3 M_grid M_cell M_path M_broad S_broad M_dos M_bins M_sample M_clidos M_sf M_sphere M_powder M_intmap M_weight
  S_dos S_sample S_sf S_bins S_clidos S_powder S_intmap S_sphere L_sample4 L_powder L_sphere L_weight L_weight2.
Open Scope R_scope.

(** C80.  --weighting coherent, without broadening and kinematics: in every row, entry times
    bin width is (times --scale) the plain average over the samples of a shell, whose radius
    is the middle of the |q| bin, of the intensity that the modes scatter into the bin.  With
    --temperature, one Debye-Waller factor on the --grid or --grid-spacing mesh serves all
    rows; without it there is none, and gain and loss are of equal strength. *)
Theorem C80_coherent : forall calc cell M pos solve ops chunk kB fmin wmin k c src sl rnd rnd2 always coeffs hm room f0 fs a w edges bins z, solves solve -> det3 cell <> 0 -> 0 < k -> (0 < chunk)%nat ->
  0 <= q_min a -> q_min a < q_max a -> 0 < q_spacing a -> (1 <= p_ebins a)%nat ->
  p_qb a = None -> p_eb a = None -> p_ei a = None -> p_ef a = None -> w_weighting w = "coherent"%string ->
  powder_map_tool calc cell (mkX M pos (reciprocal_cell cell)) solve ops chunk kB fmin wmin k c src sl rnd rnd2 always coeffs hm room f0 fs a w = Ok (edges, bins, z) ->
  length bins = (p_ebins a + 1)%nat /\ increasing bins /\ exists d, (match w_temperature w with
   | None => d = None
   | Some t => exists g d0, grid_spec cell (w_grid w) (w_spacing w) = Some g /\ dw_on calc (mkX M pos (reciprocal_cell cell)) ops chunk kB fmin g t d0 /\ d = Some d0
   end) /\
  forall i, (i < Z.to_nat (n_q_bins a))%nat -> exists l ps qs e,
    get_qpts_sphere (shell_npts a (bin_middle edges i)) (w_sampling w) (rnd (bin_middle edges i)) (rnd2 (bin_middle edges i)) (always (bin_middle edges i)) = Ok l /\
    length ps = length l /\ on_shell (reciprocal_cell cell) (bin_middle edges i) ps /\ calc ps = Some (qs, e) /\ (0 < nq (et e))%nat /\
    forall j, (j < p_ebins a)%nat -> exists v, z i j = Some v /\ v * (nth (S j) bins 0 - nth j bins 0) =
      p_factor a * (c * average (seq 0 (nq (et e))) (scattered kB k (w_temperature w) cell sl M pos d qs e (nth j bins 0) (nth (S j) bins 0))).
Proof. exact coherent_tool. Qed.
Print Assumptions C80_coherent.

(** C80.  --weighting dos: entry times bin width is (times --scale) the number of modes in the
    bin, averaged over the samples of the shell and over the atoms. *)
Theorem C80_dos_average : forall calc cell M pos solve ops chunk kB fmin wmin k c src sl rnd rnd2 always coeffs hm room f0 fs a w edges bins z, solves solve -> det3 cell <> 0 -> 0 < k ->
  0 <= q_min a -> q_min a < q_max a -> 0 < q_spacing a -> (1 <= p_ebins a)%nat ->
  p_qb a = None -> p_eb a = None -> p_ei a = None -> p_ef a = None -> w_weighting w = "dos"%string -> w_pdos w = None ->
  powder_map_tool calc cell (mkX M pos (reciprocal_cell cell)) solve ops chunk kB fmin wmin k c src sl rnd rnd2 always coeffs hm room f0 fs a w = Ok (edges, bins, z) ->
  length bins = (p_ebins a + 1)%nat /\ increasing bins /\
  forall i, (i < Z.to_nat (n_q_bins a))%nat -> exists l ps qs e,
    get_qpts_sphere (shell_npts a (bin_middle edges i)) (w_sampling w) (rnd (bin_middle edges i)) (rnd2 (bin_middle edges i)) (always (bin_middle edges i)) = Ok l /\
    length ps = length l /\ on_shell (reciprocal_cell cell) (bin_middle edges i) ps /\ calc ps = Some (qs, e) /\
    forall j, (j < p_ebins a)%nat -> exists v, z i j = Some v /\ v * (nth (S j) bins 0 - nth j bins 0) =
      p_factor a * (3 / INR (nm (et e)) * wmean (et e) (modes_in k (et e) (nth j bins 0) (nth (S j) bins 0))).
Proof. exact plain_tool. Qed.
Print Assumptions C80_dos_average.

Theorem C80_dos_average_runs : forall calc cell M pos solve ops chunk kB fmin wmin k c src sl rnd rnd2 always coeffs hm room f0 fs a w bins, solves solve -> det3 cell <> 0 -> 0 < k ->
  0 <= q_min a -> q_min a < q_max a -> 0 < q_spacing a -> (1 <= p_ebins a)%nat ->
  p_qb a = None -> p_eb a = None -> p_ei a = None -> p_ef a = None -> w_weighting w = "dos"%string -> w_pdos w = None ->
  p_energy_bins a f0 fs room = Ok bins ->
  (forall q, 0 <= q -> exists l, get_qpts_sphere (shell_npts a q) (w_sampling w) (rnd q) (rnd2 q) (always q) = Ok l /\ l <> [] /\ forall p, In p l -> on_sphere p) ->
  (forall ps, ps <> [] -> exists qs e, calc ps = Some (qs, e) /\ total_weight (et e) <> 0) ->
  exists z, powder_map_tool calc cell (mkX M pos (reciprocal_cell cell)) solve ops chunk kB fmin wmin k c src sl rnd rnd2 always coeffs hm room f0 fs a w = Ok (q_edges a, bins, z).
Proof. exact plain_runs. Qed.
Print Assumptions C80_dos_average_runs.

(** C80.  --weighting dos with --pdos, and the weightings by cross section: entry times bin
    width is (times --scale) the sum over the atoms, or over those of the species named with
    --pdos, of the weighted share of the atom in the modes of the bin. *)
Theorem C80_pdos_partial : forall calc cell M pos solve ops chunk kB fmin wmin k c src sl rnd rnd2 always coeffs hm room f0 fs a w ww edges bins z, solves solve -> det3 cell <> 0 -> 0 < k ->
  (forall ps qs e, calc ps = Some (qs, e) -> (0 < n_atoms e)%nat) ->
  0 <= q_min a -> q_min a < q_max a -> 0 < q_spacing a -> (1 <= p_ebins a)%nat ->
  p_qb a = None -> p_eb a = None -> p_ei a = None -> p_ef a = None ->
  weighting_named (w_weighting w) ww -> ~ (w_weighting w = "dos"%string /\ w_pdos w = None) ->
  powder_map_tool calc cell (mkX M pos (reciprocal_cell cell)) solve ops chunk kB fmin wmin k c src sl rnd rnd2 always coeffs hm room f0 fs a w = Ok (edges, bins, z) ->
  length bins = (p_ebins a + 1)%nat /\ increasing bins /\
  forall i, (i < Z.to_nat (n_q_bins a))%nat -> exists l ps qs e (f : nat -> R),
    get_qpts_sphere (shell_npts a (bin_middle edges i)) (w_sampling w) (rnd (bin_middle edges i)) (rnd2 (bin_middle edges i)) (always (bin_middle edges i)) = Ok l /\
    length ps = length l /\ on_shell (reciprocal_cell cell) (bin_middle edges i) ps /\ calc ps = Some (qs, e) /\
    (forall b, (b < n_atoms e)%nat -> atom_factor ww (coherent_cs src) (incoherent_cs src) (element src) M (n_atoms e) b (f b)) /\
    forall j, (j < p_ebins a)%nat -> exists v, z i j = Some v /\ v * (nth (S j) bins 0 - nth j bins 0) =
      p_factor a * Sum (match w_pdos w with None => seq 0 (n_atoms e) | Some s => atoms_of (map (symbol src) (seq 0 (n_atoms e))) s end)
        (fun b => f b * wmean (et e) (atom_part k e (nth j bins 0) (nth (S j) bins 0) b)).
Proof. exact pdos_tool. Qed.
Print Assumptions C80_pdos_partial.

(** C80, refuted for --pdos on a crystal of one species: there is never a map. *)
Theorem C80_one_species_refuted : forall calc cell M pos solve ops chunk kB fmin wmin k c src sl rnd rnd2 always coeffs hm room f0 fs a w s x, q_min a < q_max a -> 0 < q_spacing a -> (1 <= p_ebins a)%nat ->
  (forall ps qs e, calc ps = Some (qs, e) -> (0 < n_atoms e)%nat) ->
  (forall i, symbol src i = x) -> w_pdos w = Some s -> forall r, powder_map_tool calc cell (mkX M pos (reciprocal_cell cell)) solve ops chunk kB fmin wmin k c src sl rnd rnd2 always coeffs hm room f0 fs a w <> Ok r.
Proof. exact one_species_tool. Qed.
Print Assumptions C80_one_species_refuted.

(** C80.  --pdos with --weighting coherent is refused. *)
Theorem C80_pdos_refused : forall calc cell M pos solve ops chunk kB fmin wmin k c src sl rnd rnd2 always coeffs hm room f0 fs a w s, w_weighting w = "coherent"%string -> w_pdos w = Some s ->
  powder_map_tool calc cell (mkX M pos (reciprocal_cell cell)) solve ops chunk kB fmin wmin k c src sl rnd rnd2 always coeffs hm room f0 fs a w = Err PdosNeedsDos.
Proof. exact coherent_pdos. Qed.
Print Assumptions C80_pdos_refused.

(** C80.  When there is a map, for --weighting coherent ... *)
Theorem C80_coherent_runs : forall calc cell M pos solve ops chunk kB fmin wmin k c src sl rnd rnd2 always coeffs hm room f0 fs a w bins d, solves solve -> det3 cell <> 0 -> 0 < k -> (0 < chunk)%nat ->
  0 <= q_min a -> q_min a < q_max a -> 0 < q_spacing a -> (1 <= p_ebins a)%nat ->
  p_qb a = None -> p_eb a = None -> p_ei a = None -> p_ef a = None -> w_weighting w = "coherent"%string -> w_pdos w = None ->
  p_energy_bins a f0 fs room = Ok bins ->
  (match w_temperature w with
   | None => d = None
   | Some t => exists g d0, grid_spec cell (w_grid w) (w_spacing w) = Some g /\ dw_on calc (mkX M pos (reciprocal_cell cell)) ops chunk kB fmin g t d0 /\ d = Some d0
   end) ->
  (forall q, 0 <= q -> exists l, get_qpts_sphere (shell_npts a q) (w_sampling w) (rnd q) (rnd2 q) (always q) = Ok l /\ l <> [] /\ forall p, In p l -> on_sphere p) ->
  (forall ps, ps <> [] -> exists qs e, calc ps = Some (qs, e) /\ (0 < nq (et e))%nat /\
     (forall q m, (q < nq (et e))%nat -> (m < nm (et e))%nat -> freq (et e) q m <> 0) /\ (forall d0, d = Some d0 -> dw_n d0 = n_atoms e)) ->
  exists z, powder_map_tool calc cell (mkX M pos (reciprocal_cell cell)) solve ops chunk kB fmin wmin k c src sl rnd rnd2 always coeffs hm room f0 fs a w = Ok (q_edges a, bins, z).
Proof. exact coherent_runs. Qed.
Print Assumptions C80_coherent_runs.

(** ... and for the densities of states, if the species named with --pdos is not the only
    one. *)
Theorem C80_pdos_runs_partial : forall calc cell M pos solve ops chunk kB fmin wmin k c src sl rnd rnd2 always coeffs hm room f0 fs a w ww bins, solves solve -> det3 cell <> 0 -> 0 < k ->
  0 <= q_min a -> q_min a < q_max a -> 0 < q_spacing a -> (1 <= p_ebins a)%nat ->
  p_qb a = None -> p_eb a = None -> p_ei a = None -> p_ef a = None -> weighting_named (w_weighting w) ww -> ~ (w_weighting w = "dos"%string /\ w_pdos w = None) ->
  p_energy_bins a f0 fs room = Ok bins ->
  (forall q, 0 <= q -> exists l, get_qpts_sphere (shell_npts a q) (w_sampling w) (rnd q) (rnd2 q) (always q) = Ok l /\ l <> [] /\ forall p, In p l -> on_sphere p) ->
  (forall ps, ps <> [] -> exists qs e, calc ps = Some (qs, e) /\ (0 < n_atoms e)%nat /\ total_weight (et e) <> 0 /\
     (forall v b, ww = Some v -> (b < n_atoms e)%nat -> cross_section v (coherent_cs src) (incoherent_cs src) (element src b) <> None) /\
     (forall s, w_pdos w = Some s -> exists b b', (b < n_atoms e)%nat /\ (b' < n_atoms e)%nat /\ symbol src b = s /\ symbol src b' <> s)) ->
  exists z, powder_map_tool calc cell (mkX M pos (reciprocal_cell cell)) solve ops chunk kB fmin wmin k c src sl rnd rnd2 always coeffs hm room f0 fs a w = Ok (q_edges a, bins, z).
Proof. exact pdos_runs. Qed.
Print Assumptions C80_pdos_runs_partial.

(** Non-vacuity: sodium chloride with modes at 1 to 6, weighted in both ways. *)
Example C80_weights_meet : forall M pos sl hm coeffs wmin room, 0 < room -> exists solve bins z z', solves solve /\ det3 cube <> 0 /\
  powder_map_tool flat_calc cube (mkX M pos (reciprocal_cell cube)) solve None 1 1 0 wmin 1 1 salt sl (fun _ => None) (fun _ => None) (fun _ _ => (0, 0))
    coeffs hm room 1 [1; 1] plain_args (mkWA "coherent" None None None 1 "golden") = Ok (q_edges plain_args, bins, z) /\
  powder_map_tool flat_calc cube (mkX M pos (reciprocal_cell cube)) solve None 1 1 0 wmin 1 1 salt sl (fun _ => None) (fun _ => None) (fun _ _ => (0, 0))
    coeffs hm room 1 [1; 1] plain_args (mkWA "coherent-dos" (Some "Cl"%string) None None 1 "golden") = Ok (q_edges plain_args, bins, z').
Proof. exact salt_maps. Qed.

(** C83.  --weighting coherent, of force constants, without broadening: entry times bin width
    is (times --scale) the intensity that the modes of the q-point scatter into the bin, at
    --temperature if it is given; the regions are as for --weighting dos. *)
Theorem C83_coherent : forall calc cell M pos ops chunk kB fmin k c sl coeffs room wm a labels x ticks e qs grid spacing d bins,
  det3 cell <> 0 -> 0 < k -> (0 < chunk)%nat -> (1 <= ia_ebins a)%nat ->
  length x = nq (et e) -> length labels = nq (et e) -> i_bins k room a (et e) = Ok bins ->
  ia_weighting a = "coherent"%string -> ia_qb a = None -> ia_eb a = None ->
  (match ia_temperature a with
   | None => d = None
   | Some t => exists g d0, grid_spec cell grid spacing = Some g /\ dw_on calc (mkX M pos (reciprocal_cell cell)) ops chunk kB fmin g t d0 /\ d = Some d0
   end) ->
  (forall d0, d = Some d0 -> dw_n d0 = n_atoms e) ->
  (forall q m, (q < nq (et e))%nat -> (m < nm (et e))%nat -> freq (et e) q m <> 0) ->
  exists s segs idx, intensity_tool coeffs k room wm a
    (IForce labels (mkPd x (et e) ticks (coherent_rows calc cell (mkX M pos (reciprocal_cell cell)) ops chunk kB fmin k c sl e qs grid spacing))) = Ok (bins, s, segs) /\
  xs s = x /\ length (ys s) = nq (et e) /\ region_starts labels idx /\ cut_at s idx segs /\
  forall i j, (i < nq (et e))%nat -> (j < ia_ebins a)%nat -> exists v, shows s i j v /\
    v * (nth (S j) bins 0 - nth j bins 0) = factor a * (c * scattered kB k (ia_temperature a) cell sl M pos d qs e (nth j bins 0) (nth (S j) bins 0) i).
Proof. exact coherent_force. Qed.
Print Assumptions C83_coherent.

(** C83.  The same of precalculated modes, which cannot be given a temperature. *)
Theorem C83_coherent_of_modes : forall calc cell M pos ops chunk kB fmin k c sl coeffs room wm a x ticks e qs grid spacing bins,
  det3 cell <> 0 -> 0 < k -> (0 < chunk)%nat -> (1 <= ia_ebins a)%nat ->
  length x = nq (et e) -> climbs x -> (2 <= length x)%nat -> i_bins k room a (et e) = Ok bins ->
  ia_weighting a = "coherent"%string -> ia_temperature a = None -> ia_qb a = None -> ia_eb a = None ->
  (forall q m, (q < nq (et e))%nat -> (m < nm (et e))%nat -> freq (et e) q m <> 0) ->
  exists s segs idx md, intensity_tool coeffs k room wm a
    (IModes (mkPd x (et e) ticks (coherent_rows calc cell (mkX M pos (reciprocal_cell cell)) ops chunk kB fmin k c sl e qs grid spacing))) = Ok (bins, s, segs) /\
  xs s = x /\ length (ys s) = nq (et e) /\ is_median md (gaps x) /\ StronglySorted lt idx /\
  (forall b, In b idx <-> (0 < b < length x)%nat /\ big_gap (ia_btol a) md (nth b x 0 - nth (b - 1) x 0)) /\ cut_at s idx segs /\
  forall i j, (i < nq (et e))%nat -> (j < ia_ebins a)%nat -> exists v, shows s i j v /\
    v * (nth (S j) bins 0 - nth j bins 0) = factor a * (c * scattered kB k None cell sl M pos None qs e (nth j bins 0) (nth (S j) bins 0) i).
Proof. exact coherent_modes. Qed.
Print Assumptions C83_coherent_of_modes.

(** Non-vacuity: two q-points of the crystal above, without temperature, energies up to 8. *)
Example C83_coherent_meets : let e := flat_modes [vzero; (1 / 2, 0, 0)] in let a := mkIA "coherent" None 4 (Some 0) (Some 8) None None "gauss" None 10 in
  (exists bins, forall room, i_bins 1 room a (et e) = Ok bins) /\ length [0; 1] = nq (et e) /\ climbs [0; 1] /\
  (forall q m, (q < nq (et e))%nat -> (m < nm (et e))%nat -> freq (et e) q m <> 0).
Proof.
  cbv zeta. split; [|split; [reflexivity|split; [|apply flat_nonzero]]].
  - eexists. intros room. unfold i_bins, all_freqs, pairs. cbn [flat_modes et nq nm length seq list_prod map app fst snd freq]. unfold get_energy_bins. cbn [ia_emin ia_emax].
    destruct (Rleb_spec 8 0); [lra|]. reflexivity.
  - intros i Hi. cbn in Hi. destruct i as [|i]; [cbn; lra|lia].
Qed.
