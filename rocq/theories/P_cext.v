(** Property theorem C12: the compiled extension gives what Python gives. *)
From Verif Require Import Base Cpx Vec3 M_grid M_cell M_qpts M_dynmat M_dipole M_cext M_omp
  S_dynmat S_dipole S_cext L_cell L_qpts L_nac L_chain L_dipole L_omp.
Open Scope R_scope.

(** C12: run the loop of the extension over the q-points in any order, with any
    contents in the scratch arrays and in the output arrays.  Frequencies,
    eigenvectors and mode gradients are then those of the Python loop.
    Conditions (what is missing from the full claim):
    - the dielectric tensor is one whose determinant C computes correctly, no
      component of q is a half-odd-integer, and directions are given only at
      points that are exactly reciprocal lattice vectors;
    - the ASR correction is a symmetric matrix (it always is, see C15);
    - for gradients, the hypotheses under which the matrix is Hermitian. *)
Theorem C12_any_order_matches_python_partial :
  forall eigh erfc d junk mass polar asr grad qpts dirs scratch order o,
  reads_square eigh ->
  let t := sc_images d 2 in
  let fcw := fc_img_weighted t junk (f_fc d) in
  let dip := dip_inputs erfc d polar in
  (forall born diel dp, polar = Some (born, diel, dp) -> c_det_array diel = np_linalg_det diel /\
     forall k, (k < length qpts)%nat -> off_zone_face (nth k qpts vzero) /\
       (dirs k <> None -> qnorm (nth k qpts vzero) = vzero)) ->
  (forall M, asr = Some M -> forall a b, M a b = M b a) ->
  (grad = true -> home_first d /\ search_complete d /\ fc_symmetric d) ->
  Permutation order (seq 0 (length qpts)) ->
  let r := c_loop eigh (marshal d 2 t fcw mass dip asr grad) qpts dirs scratch order o in
  let N := (3 * n_atoms d)%nat in
  forall k, (k < length qpts)%nat ->
  let '(pf, pe, pg) := py_one_q eigh d 2 t fcw mass dip asr (dirs k) (nth k qpts vzero) in
  forall m, (m < N)%nat ->
    o_evals r (k * N + m)%nat = pf m /\
    (forall x, (x < N)%nat -> entry (o_dmats r) (k * (N * N) + m * N + x) = pe m x) /\
    (grad = true -> forall l, (l < 3)%nat -> entry (o_modegs r) (k * (3 * N) + 3 * m + l) = pg m l).
Proof. exact c_loop_python. Qed.
Print Assumptions C12_any_order_matches_python_partial.

(** The hypotheses hold for a polar crystal with an anisotropic diagonal
    dielectric tensor, a general q-point and a split gamma point run in
    reverse order. *)
Example C12_example : forall k0 k1,
  let d := chain k0 k1 in
  let diel : M3 := ((2, 0, 0), (0, 3, 0), (0, 0, 4)) in
  let qpts : list V3 := [(1/4, 0, 0); vzero] in
  let dirs := fun k => if Nat.eqb k 1 then Some (1/3, 0, 0) else None in
  c_det_array diel = np_linalg_det diel /\
  (forall k, (k < length qpts)%nat -> off_zone_face (nth k qpts vzero) /\
       (dirs k <> None -> qnorm (nth k qpts vzero) = vzero)) /\
  home_first d /\ search_complete d /\ fc_symmetric d /\
  Permutation [1; 0]%nat (seq 0 (length qpts)).
Proof.
  intros. split; [unfold c_det_array, np_linalg_det, det3, diel, dot, cross; cbn; ring|].
  split. { intros k Hk. destruct k as [|[|k]]; [| |cbn in Hk; lia]; cbn [nth qpts].
    - split; [|intros H; exfalso; apply H; reflexivity].
      intros m. assert (H0 : 0 <> IZR m + 1/2) by apply (zero_off m).
      split; [|split; exact H0]. intros E.
      assert (E' : 1 = IZR (4 * m + 2)) by (rewrite plus_IZR, mult_IZR; lra). apply eq_IZR in E'. lia.
    - split; [exact zero_off|]. intros _. apply L_cmain.qnorm_vzero. }
  split; [reflexivity|]. split; [apply chain_complete|]. split; [apply chain_sym|]. constructor.
Qed.

(** C12 fails for a dielectric tensor with off-diagonal elements, here the
    symmetric positive definite ((2,1,0),(1,2,0),(0,0,1)): the dipole correction
    written by C (stored conjugated) is not the one Python computes from the
    same Ewald tables. *)
Theorem C12_offdiagonal_dielectric_refuted :
  exists (cell : M3) (atoms : list V3) (D : dipin) (q : V3), symmetric3 (di_diel D) /\ positive_definite (di_diel D) /\
  off_zone_face q /\
  let X := marshal_dip atoms D in
  forall corr,
  entry (c_dipole (vmem q) (length atoms) (pack2 3 (mget cell)) (pack2 3 (mget (reciprocal_cell cell)))
          (cd_atom_r X) (cd_born X) (cd_diel X) (cd_H X) (cd_cells X) (cd_ncells X) (cd_gph X) (cd_gcart X)
          (cd_ngvecs X) (cd_q0 X) (cd_lambda X) corr) 3
  <> Cconj (dipole_correction cell atoms (di_born D) (di_diel D) (di_dd D) q 0 3).
Proof.
  exists unit_cell3, pair_atoms, skew_dip, vzero. split; [reflexivity|]. split; [exact skew_posdef|].
  split; [exact zero_off|]. exact skew_differs.
Qed.
Print Assumptions C12_offdiagonal_dielectric_refuted.

(** C12: a thread that searches for its q-direction while no other thread is in
    the search finds the position of its q-point in the list of split points
    (-1 if absent), as Python's np.where does, and the search ends. *)
Theorem C12_lookup_alone_partial : forall split_idx qof t sched s ps v,
  ps t = P_init -> (forall t', t' <> t -> exists w, ps t' = P_done w) ->
  snd (run_threads split_idx qof sched s ps) t = P_done v ->
  v = match first_where split_idx (qof t) with Some k => Z.of_nat k | None => (-1)%Z end.
Proof. exact lookup_alone. Qed.
Print Assumptions C12_lookup_alone_partial.

Theorem C12_lookup_ends : forall split_idx qof t s ps, ps t = P_init ->
  exists k v, snd (run_threads split_idx qof (repeat t k) s ps) t = P_done v.
Proof. exact lookup_finishes. Qed.
Print Assumptions C12_lookup_ends.

Example C12_lookup_example :
  snd (run_threads [3; 5]%nat (fun _ => 5%nat) (repeat 0%nat 9) (mkSh 7 4) (fun t => if Nat.eqb t 0 then P_init else P_done 0)) 0%nat
  = P_done 1.
Proof. reflexivity. Qed.

(** C12 fails under some schedules: the search variables are shared.  Two
    threads, two split points; thread 0 looks for point 0, thread 1 for point 1.
    Under the first schedule thread 0 uses the direction of point 1; under the
    second it reads q_dirs at index -1, before the start of the array. *)
Theorem C12_shared_lookup_race_refuted :
  exists sched1 sched2 : list nat,
  let run sched := snd (run_threads [0; 1]%nat (fun t => t) sched (mkSh 0 0) (fun _ => P_init)) in
  first_where [0; 1]%nat 0 = Some 0%nat /\ first_where [0; 1]%nat 1 = Some 1%nat /\
  run sched1 0%nat = P_done 1 /\ run sched1 1%nat = P_done 1 /\
  run sched2 0%nat = P_done (-1).
Proof.
  exists (repeat 0 5 ++ repeat 1 9 ++ [0])%nat, (repeat 0 5 ++ [1; 0])%nat. repeat split; reflexivity.
Qed.
Print Assumptions C12_shared_lookup_race_refuted.
