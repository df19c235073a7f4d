(** Lemmas for C12: the C q-point calculation equals the Python one. *)
From Verif Require Import Base Cpx Vec3 M_grid M_cell M_qpts M_dynmat M_dipole M_cext S_dynmat S_dipole
  L_cell L_qpts L_dynmat L_dynmat2 L_dipole L_nac L_cmem L_cext L_cgrad L_cdip L_cborn L_cdip2 S_cext.
Open Scope R_scope.

Lemma cget_add_arrays size a m k : (2 * k + 1 < size)%nat ->
  cget (add_arrays size a m) k = Cadd (cget m k) (cget a k).
Proof.
  intros H. unfold cget. rewrite !add_arrays_at.
  destruct (Nat.ltb_spec (2 * k) size), (Nat.ltb_spec (2 * k + 1) size); try lia.
  apply C_eq; cbn; reflexivity.
Qed.
Lemma cget_mass_weight w n m k : (k < 9 * n * n)%nat ->
  cget (c_mass_weight w n 2 m) k = Cscal (w k) (cget m k).
Proof.
  intros H. apply cget_part. intros c Hc. rewrite c_mass_weight_at by (assumption || lia).
  rewrite part_scal, Rmult_comm. f_equal.
  destruct c as [|[|c]]; [| |lia]; rewrite ?Nat.add_0_r; reflexivity.
Qed.
Lemma gget_mass_weight w n m k l : (k < 9 * n * n)%nat -> (l < 3)%nat ->
  gget (c_mass_weight w n 6 m) k l = Cscal (w k) (gget m k l).
Proof.
  intros H Hl. unfold gget. rewrite <- Nat.add_assoc, !c_mass_weight_at by lia.
  apply C_eq; cbn; ring.
Qed.
Lemma Cconj_add' a b : Cconj (Cadd a b) = Cadd (Cconj a) (Cconj b).
Proof. apply C_eq; cbn; ring. Qed.
Lemma qnorm_vzero : qnorm vzero = vzero.
Proof.
  unfold qnorm, vzero.
  assert (E : rint 0 = 0%Z).
  { unfold rint. replace (Int_part 0) with 0%Z by (symmetry; apply Int_part_unique; simpl; lra).
    destruct (Rlt_dec _ _) as [_|H]; [reflexivity|]. exfalso. apply H. simpl. lra. }
  rewrite E. apply V3_eq; simpl; ring.
Qed.

Section Main.
Variables (d : fcdata) (t : imtab) (fcw : nat -> nat -> nat -> R) (mass : nat -> R)
  (dip : option dipin) (asr : option (nat -> nat -> C)) (grad : bool) (q_dir : option V3) (q : V3).
Let n := n_atoms d.
Let A := marshal d 2 t fcw mass dip asr grad.
Hypothesis Hok : tab_ok t 2.
Hypothesis Hdip : forall D, dip = Some D ->
  (exists mk, dip_ok mk (reciprocal_cell (f_cell d)) (f_atom_r d) (di_dd D)) /\ dip_sized (di_dd D) /\
  c_det_array (di_diel D) = np_linalg_det (di_diel D) /\ off_zone_face q /\
  (q_dir <> None -> qnorm q = vzero).
Hypothesis Hasr : forall M, asr = Some M -> forall a b, M a b = M b a.

Theorem c_matrix_upper dm dg corr i j a b :
  (i <= j)%nat -> (j < n)%nat -> (a < 3)%nat -> (b < 3)%nat ->
  cget (fst (c_matrix A (vmem q) (option_map vmem q_dir) dm dg corr)) (lin n i j a b)
  = Cconj (py_matrix d 2 t fcw mass dip asr q_dir q (3 * i + a) (3 * j + b)).
Proof.
  intros Hij Hj Ha Hb. unfold c_matrix.
  change (ca_n A) with n. change (ca_ncells A) with (n_cells d). change (ca_max A) with (max_images d t).
  change (ca_grad A) with grad.
  pose proof (c_dyn_upper d 2 t fcw mass dip asr grad q Hok dm dg i j a b Hij Hj Ha Hb) as E0.
  fold n A in E0.
  destruct (c_dyn_mat _ n _ _ _ _ _ _ _ _ grad dm dg) as [m0 g0] eqn:Ecd. clear Ecd. cbn [fst] in E0.
  pose proof (lin_lt n i j a b ltac:(lia) Hj Ha Hb) as HL.
  assert (H1 : (2 * lin n i j a b + 1 < 2 * 9 * n * n)%nat) by nia.
  set (x := (3 * i + a)%nat) in *. set (y := (3 * j + b)%nat) in *.
  (* dipole *)
  set (p1 := match ca_dip A with
    | Some D =>
        let corr := c_dipole (vmem q) n (ca_cell A) (ca_recip A) (cd_atom_r D) (cd_born D) (cd_diel D)
                      (cd_H D) (cd_cells D) (cd_ncells D) (cd_gph D) (cd_gcart D) (cd_ngvecs D)
                      (cd_q0 D) (cd_lambda D) corr in
        (add_arrays (2 * 9 * n * n) corr m0, corr)
    | None => (m0, corr)
    end).
  assert (D1 : cget (fst p1) (lin n i j a b) = Cconj (match dip with
     | Some D => Cadd (dyn_mat d 2 t fcw q x y) (dipole_correction (f_cell d) (f_atom_r d) (di_born D) (di_diel D) (di_dd D) q x y)
     | None => dyn_mat d 2 t fcw q x y end)
    /\ (forall D, dip = Some D -> cget (snd p1) (lin n i j a b)
         = Cconj (dipole_correction (f_cell d) (f_atom_r d) (di_born D) (di_diel D) (di_dd D) q x y))).
  { unfold p1. unfold A at 1 3. cbn [marshal ca_dip]. destruct dip as [D|]; cbn [option_map].
    2:{ cbn [fst]. split; [exact E0|discriminate]. }
    destruct (Hdip D eq_refl) as [[mk K1] [K2 [K3 [K4 _]]]]. cbv zeta. cbn [fst snd].
    assert (E1 : cget (c_dipole (vmem q) n (ca_cell A) (ca_recip A) (cd_atom_r (marshal_dip (f_atom_r d) D))
       (cd_born (marshal_dip (f_atom_r d) D)) (cd_diel (marshal_dip (f_atom_r d) D)) (cd_H (marshal_dip (f_atom_r d) D))
       (cd_cells (marshal_dip (f_atom_r d) D)) (cd_ncells (marshal_dip (f_atom_r d) D)) (cd_gph (marshal_dip (f_atom_r d) D))
       (cd_gcart (marshal_dip (f_atom_r d) D)) (cd_ngvecs (marshal_dip (f_atom_r d) D)) (cd_q0 (marshal_dip (f_atom_r d) D))
       (cd_lambda (marshal_dip (f_atom_r d) D)) corr) (lin n i j a b)
       = Cconj (dipole_correction (f_cell d) (f_atom_r d) (di_born D) (di_diel D) (di_dd D) q x y)).
    { pose proof (c_dipole_upper (f_cell d) (f_atom_r d) mk D q K1 K2 K4 corr i j a b Hij Hj Ha Hb) as E.
      etransitivity; [apply E; intros _; apply (ok_q0r _ _ _ _ K1); unfold n, n_atoms in *; lia|].
      f_equal. unfold c_real_factor. rewrite K3. fold (real_factor (dd_lambda (di_dd D)) (di_diel D)).
      apply dip_with_py; assumption. }
    split.
    - rewrite cget_add_arrays by exact H1. rewrite Cconj_add', E0. f_equal. exact E1.
    - intros D' ED. injection ED as <-. exact E1. }
  clearbody p1. destruct p1 as [m1 corr1]. cbn [fst snd] in D1. destruct D1 as [D1 D1'].
  (* asr *)
  set (v1 := match dip with
     | Some D => Cadd (dyn_mat d 2 t fcw q x y) (dipole_correction (f_cell d) (f_atom_r d) (di_born D) (di_diel D) (di_dd D) q x y)
     | None => dyn_mat d 2 t fcw q x y end) in *.
  set (m2 := match ca_asr A with Some c => add_arrays (2 * 9 * n * n) c m1 | None => m1 end).
  assert (D2 : cget m2 (lin n i j a b) = Cconj (match asr with Some M => Cadd v1 (M x y) | None => v1 end)).
  { unfold m2. unfold A. cbn [marshal ca_asr]. destruct asr as [M|]; cbn [option_map]; [|exact D1].
    rewrite cget_add_arrays by exact H1. rewrite D1, Cconj_add'. f_equal. rewrite cget_cpack. fold n.
    rewrite (pack2_at (3 * n) (fun a b => Cconj (M b a)) x y) by (unfold x, y, lin; lia).
    f_equal. apply (Hasr M eq_refl). }
  clearbody m2. set (v2 := match asr with Some M => Cadd v1 (M x y) | None => v1 end) in *.
  (* gamma *)
  set (m3 := match option_map vmem q_dir with
    | Some qd => match ca_dip A with
                 | Some D => add_arrays (2 * 9 * n * n) (c_gamma qd n (ca_cell A) (ca_recip A) (cd_born D) (cd_diel D) corr1) m2
                 | None => m2 end
    | None => m2 end).
  assert (D3 : cget m3 (lin n i j a b) = Cconj (match q_dir, dip with
    | Some v, Some D => Cadd v2 (gamma_correction (f_cell d) (di_born D) (di_diel D) v x y) | _, _ => v2 end)).
  { unfold m3. unfold A at 1. cbn [marshal ca_dip]. destruct q_dir as [v|]; cbn [option_map]; [|exact D2].
    destruct dip as [D|]; cbn [option_map]; [|exact D2].
    destruct (Hdip D eq_refl) as [[mk K1] [K2 [K3 [K4 K5]]]].
    rewrite cget_add_arrays by exact H1. rewrite D2, Cconj_add'. f_equal.
    apply (c_gamma_upper (f_cell d) (f_atom_r d) mk D q K1); try assumption.
    pose proof (f_equal im (D1' D eq_refl)) as E. cbn [cget im] in E. fold n in E. change (length (f_atom_r d)) with n.
    etransitivity; [exact E|]. cbn [Cconj im].
    assert (IM : im (dipole_correction (f_cell d) (f_atom_r d) (di_born D) (di_diel D) (di_dd D) q x y) = 0).
    2:{ rewrite IM. ring. }
    specialize (K5 ltac:(discriminate)).
    assert (EQ : dipole_correction (f_cell d) (f_atom_r d) (di_born D) (di_diel D) (di_dd D) q x y
       = dipole_correction (f_cell d) (f_atom_r d) (di_born D) (di_diel D) (di_dd D) vzero x y).
    { unfold dipole_correction. rewrite K5, qnorm_vzero. reflexivity. }
    rewrite EQ. apply conj_self_im. rewrite <- (dipole_conj mk) by (try exact K1; unfold x, y, n, n_atoms in *; lia).
    f_equal. apply V3_eq; simpl; ring. }
  clearbody m3.
  assert (ES : fst (c_mass_weight (ca_weight A) n 2 m3, if grad then c_mass_weight (ca_weight A) n 6 g0 else g0)
     = c_mass_weight (ca_weight A) n 2 m3) by reflexivity.
  rewrite ES, cget_mass_weight by exact HL. unfold py_matrix, mass_weight. rewrite Cconj_scal.
  cbv zeta. fold v1. fold v2. f_equal.
  - unfold A. cbn [marshal ca_weight]. fold n.
    apply (pack2_at (3 * n) (fun a b => 1 / sqrt (mass (b / 3)%nat * mass (a / 3)%nat)) x y); unfold x, y, lin; lia.
  - exact D3.
Qed.

Theorem c_matrix_eq dm dg corr r c : (r < 3 * n)%nat -> (c < 3 * n)%nat ->
  zheevd_matrix (3 * n) (fst (c_matrix A (vmem q) (option_map vmem q_dir) dm dg corr)) r c
  = herm_upper (py_matrix d 2 t fcw mass dip asr q_dir q) r c.
Proof.
  intros Hr Hc.
  assert (U : forall x y, (x <= y)%nat -> (y < 3 * n)%nat ->
    cget (fst (c_matrix A (vmem q) (option_map vmem q_dir) dm dg corr)) (x * (3 * n) + y)%nat
    = Cconj (py_matrix d 2 t fcw mass dip asr q_dir q x y)).
  { intros x y Hxy Hy.
    assert (Ex : x = (3 * (x / 3) + x mod 3)%nat) by (apply Nat.div_mod; lia).
    assert (Ey : y = (3 * (y / 3) + y mod 3)%nat) by (apply Nat.div_mod; lia).
    pose proof (Nat.mod_upper_bound x 3 ltac:(lia)). pose proof (Nat.mod_upper_bound y 3 ltac:(lia)).
    pose proof (c_matrix_upper dm dg corr (x / 3) (y / 3) (x mod 3) (y mod 3)) as E.
    rewrite <- Ex, <- Ey in E. rewrite <- E; try assumption.
    - f_equal. unfold lin. rewrite <- Ex, <- Ey. reflexivity.
    - apply Nat.div_le_mono; lia.
    - lia. }
  unfold zheevd_matrix, herm_upper.
  destruct (Nat.ltb_spec c r).
  - rewrite U by lia. destruct (Nat.ltb_spec r c); [lia|reflexivity].
  - destruct (Nat.ltb_spec r c); [rewrite U by lia; apply C_eq; cbn; ring|].
    assert (r = c) as -> by lia. rewrite U by lia. reflexivity.
Qed.
End Main.

(** ** mode gradients *)
Lemma c_freq_eq x : c_freq x = freq_of_eval x.
Proof. unfold c_freq, freq_of_eval. cbv zeta. destruct (Rlt_dec x 0); ring. Qed.

Lemma toC_cmult a b : toC (cmult a b) = Cmul (toC a) (toC b).
Proof. apply C_eq; cbn; ring. Qed.

Lemma Sum_div3 n (f : nat -> R) :
  Sum (seq 0 n) (fun i => Sum (seq 0 (3 - 0)) (fun a => f (3 * i + a)%nat)) = Sum (seq 0 (3 * n)) f.
Proof.
  induction n as [|n IH]; [reflexivity|].
  replace (3 * S n)%nat with (3 * n + 3)%nat by lia.
  rewrite seq_S, Sum_app, IH, Sum_cons, Sum_nil. cbn [Nat.add].
  rewrite seq_app, Sum_app. f_equal. rewrite Rplus_0_r. cbn [seq Nat.sub].
  rewrite !Sum_cons, Sum_nil, Nat.add_0_l.
  replace (3 * n + 0)%nat with (3 * n)%nat by lia.
  replace (3 * n + 1)%nat with (S (3 * n)) by lia. replace (3 * n + 2)%nat with (S (S (3 * n))) by lia.
  reflexivity.
Qed.

Lemma c_modeg_at n evals evecs dg m0 k0 : (m0 < 3 * n)%nat -> (k0 < 3)%nat ->
  cget (c_mode_gradients n evals evecs dg (fun _ => 0)) (3 * m0 + k0)
  = Cscal (1 / (2 * evals m0)) (Csum (seq 0 (3 * n)) (fun x => Csum (seq 0 (3 * n)) (fun y =>
      Cmul (Cmul (Cconj (cget evecs (m0 * (3 * n) + x))) (cget evecs (m0 * (3 * n) + y)))
           (gget dg (x * (3 * n) + y) k0)))).
Proof.
  intros Hm Hk. apply cget_part. intros c Hc.
  set (E := fun m i a j b => cmult_conj (at2 evecs (m * (2 * 3 * n) + 6 * j + 2 * b))
                          (at2 evecs (m * (2 * 3 * n) + 6 * i + 2 * a))).
  set (v := fun m i a j b k => cmult (at2 dg (3 * (3 * i + a) * (2 * 3 * n) + 3 * (6 * j + 2 * b) + 2 * k)) (E m i a j b)).
  assert (AD : adds (c_mode_gradients n evals evecs dg)
    (fun x => Sum (seq 0 (3 * n - 0)) (fun m => Sum (seq 0 (n - 0)) (fun i => Sum (seq 0 (3 - 0)) (fun a =>
       Sum (seq 0 (n - 0)) (fun j => Sum (seq 0 (3 - 0)) (fun b => Sum (seq 0 (3 - 0)) (fun k =>
        delta (2 * (3 * m + k)) (1/2 * fst (v m i a j b k) / evals m) x
        + delta (2 * (3 * m + k) + 1) (1/2 * snd (v m i a j b k) / evals m) x))))))) ).
  { unfold c_mode_gradients. cbv zeta. apply for_adds. intros m _. apply for_adds. intros i _.
    apply for_adds. intros a _. apply for_adds. intros j _. apply for_adds. intros b _. apply for_adds. intros k _.
    replace (2 * (3 * m + k))%nat with (6 * m + 2 * k)%nat by ring. apply adds_madd2. }
  rewrite AD, Rplus_0_l. clear AD.
  rewrite (Sum_single _ _ m0); [|apply seq_NoDup|apply in_seq; lia|].
  2:{ intros m _ Hne. apply Sum_zero_ext. intros i _. apply Sum_zero_ext. intros a _.
      apply Sum_zero_ext. intros j _. apply Sum_zero_ext. intros b _. apply Sum_zero_ext. intros k Hk'.
      apply in_seq in Hk'. apply delta2_off; lia. }
  rewrite part_scal, part_sum. rewrite <- Sum_scal, <- Sum_div3, Nat.sub_0_r.
  apply Sum_ext. intros i _. apply Sum_ext. intros a Ha. apply in_seq in Ha.
  rewrite part_sum, <- Sum_scal, <- Sum_div3.
  apply Sum_ext. intros j _. apply Sum_ext. intros b Hb. apply in_seq in Hb.
  rewrite (Sum_single _ _ k0); [|apply seq_NoDup|apply in_seq; lia|].
  2:{ intros k Hk' Hne. apply in_seq in Hk'. apply delta2_off; lia. }
  rewrite delta2_at by exact Hc.
  assert (EV : toC (v m0 i a j b k0) = Cmul (Cmul (Cconj (cget evecs (m0 * (3 * n) + (3 * i + a))))
      (cget evecs (m0 * (3 * n) + (3 * j + b)))) (gget dg ((3 * i + a) * (3 * n) + (3 * j + b)) k0)).
  { unfold v, E. rewrite toC_cmult, toC_conj.
    replace (m0 * (2 * 3 * n) + 6 * j + 2 * b)%nat with (2 * (m0 * (3 * n) + (3 * j + b)))%nat by ring.
    replace (m0 * (2 * 3 * n) + 6 * i + 2 * a)%nat with (2 * (m0 * (3 * n) + (3 * i + a)))%nat by ring.
    rewrite !toC_at2.
    replace (toC (at2 dg (3 * (3 * i + a) * (2 * 3 * n) + 3 * (6 * j + 2 * b) + 2 * k0)))
      with (gget dg ((3 * i + a) * (3 * n) + (3 * j + b)) k0).
    2:{ unfold gget, toC, at2. cbn [fst snd].
        replace (6 * ((3 * i + a) * (3 * n) + (3 * j + b)) + 2 * k0)%nat
          with (3 * (3 * i + a) * (2 * 3 * n) + 3 * (6 * j + 2 * b) + 2 * k0)%nat by ring. reflexivity. }
    ring. }
  rewrite <- EV. unfold part, toC. cbn [re im].
  assert (F : forall u, 1 / 2 * u / evals m0 = 1 / (2 * evals m0) * u).
  { intros u. unfold Rdiv. rewrite Rinv_mult. ring. }
  destruct (Nat.eqb c 0); apply F.
Qed.

Theorem c_one_q_eq eigh d junk mass dip asr grad q_dir q dm dg corr :
  reads_square eigh ->
  let t := sc_images d 2 in
  let fcw := fc_img_weighted t junk (f_fc d) in
  (forall D, dip = Some D ->
    (exists mk, dip_ok mk (reciprocal_cell (f_cell d)) (f_atom_r d) (di_dd D)) /\ dip_sized (di_dd D) /\
    c_det_array (di_diel D) = np_linalg_det (di_diel D) /\ off_zone_face q /\
    (q_dir <> None -> qnorm q = vzero)) ->
  (forall M, asr = Some M -> forall a b, M a b = M b a) ->
  (grad = true -> home_first d /\ search_complete d /\ fc_symmetric d) ->
  let '(cf, ce, cg) := c_one_q eigh (marshal d 2 t fcw mass dip asr grad) (vmem q) (option_map vmem q_dir) dm dg corr in
  let '(pf, pe, pg) := py_one_q eigh d 2 t fcw mass dip asr q_dir q in
  let N := (3 * n_atoms d)%nat in
  forall m, (m < N)%nat ->
    cf m = pf m /\
    (forall r, (r < N)%nat -> cget ce (m * N + r) = pe m r) /\
    (grad = true -> forall l, (l < 3)%nat -> cget cg (3 * m + l) = pg m l).
Proof.
  intros Heig t fcw Hdip Hasr Hgrad.
  set (A := marshal d 2 t fcw mass dip asr grad).
  pose proof (c_matrix_eq d t fcw mass dip asr grad q_dir q (sc_images_ok d 2) Hdip Hasr dm dg corr) as EM.
  fold A in EM. unfold c_one_q, py_one_q. change (ca_n A) with (n_atoms d). change (ca_grad A) with grad.
  assert (EG : grad = true -> forall x y l, (x < 3 * n_atoms d)%nat -> (y < 3 * n_atoms d)%nat -> (l < 3)%nat ->
     gget (snd (c_matrix A (vmem q) (option_map vmem q_dir) dm dg corr)) (x * (3 * n_atoms d) + y) l
     = mass_weight_grad mass (dyn_mat_grad d 2 t fcw q) x y l).
  { intros Hg x y l Hx Hy Hl. destruct (Hgrad Hg) as [G1 [G2 G3]].
    pose proof (c_grad_eq d junk mass dip asr q dm dg x y l G1 G2 G3 Hx Hy Hl) as E. cbv zeta in E.
    fold t in E. fold fcw in E. rewrite <- Hg in E. fold A in E.
    unfold c_matrix. change (ca_n A) with (n_atoms d). change (ca_ncells A) with (n_cells d).
    change (ca_max A) with (max_images d t). change (ca_grad A) with grad.
    destruct (c_dyn_mat _ (n_atoms d) _ _ _ _ _ _ _ _ grad dm dg) as [m0 g0]. cbn [snd] in E.
    match goal with |- gget (snd (let '(_, _) := ?p in _)) _ _ = _ => destruct p as [m1 c1] end.
    assert (ES : forall (u w : mem), snd (u, w) = w) by reflexivity. cbv zeta. rewrite ES. rewrite Hg.
    rewrite gget_mass_weight; [|nia|exact Hl]. unfold mass_weight_grad. rewrite E. f_equal.
    unfold A. cbn [marshal ca_weight].
    apply (pack2_at (3 * n_atoms d) (fun a b => 1 / sqrt (mass (b / 3)%nat * mass (a / 3)%nat)) x y); lia. }
  destruct (c_matrix A (vmem q) (option_map vmem q_dir) dm dg corr) as [m0 g0]. cbn [fst snd] in EM, EG.
  rewrite (Heig _ _ (herm_upper (py_matrix d 2 t fcw mass dip asr q_dir q)))
    by (intros r c Hr Hc; apply EM; assumption).
  destruct (eigh (3 * n_atoms d)%nat (herm_upper (py_matrix d 2 t fcw mass dip asr q_dir q))) as [ev vec].
  set (N := (3 * n_atoms d)%nat) in *. cbv zeta.
  set (ce := fun k : nat => if Nat.even k then re (vec (k / 2 / N)%nat ((k / 2) mod N)) else im (vec (k / 2 / N)%nat ((k / 2) mod N))).
  assert (EC : forall m r, (r < N)%nat -> cget ce (m * N + r) = vec m r).
  { intros m r Hr. change ce with (cpack (fun k => vec (k / N)%nat (k mod N))). rewrite cget_cpack.
    destruct (divmod_at m N r Hr) as [-> ->]. reflexivity. }
  intros m Hm. split; [apply c_freq_eq|]. split; [intros r Hr; apply EC; exact Hr|].
  intros Hg l Hl. rewrite Hg. unfold N in Hm. rewrite c_modeg_at by assumption. fold N.
  unfold mode_gradient. rewrite <- c_freq_eq. f_equal.
  apply Csum_ext. intros x Hx. apply Csum_ext. intros y Hy. apply in_seq in Hx, Hy.
  rewrite !EC by lia. f_equal. apply EG; [exact Hg|lia|lia|exact Hl].
Qed.
