(** Lemmas for C80: broadening and kinematic constraints of the powder map. *)
From Coq Require Import String.
From Verif Require Import Base Cpx Vec3 M_cell M_qpts M_path M_broad S_broad M_dos M_bins M_sample M_kin M_fixed M_clidos M_powder
  S_dos S_sample S_fixed S_clidos S_kin S_powder L_util L_qpts L_cell L_dos L_dos2 L_path2 L_conv L_fixed6 L_clidos2 L_bins L_kin L_sample4 L_powder.
Open Scope R_scope.

Lemma even_bins_axis lo hi n e : (1 <= n)%nat -> even_bins lo hi n e -> even_axis ((hi - lo) / INR n) n e.
Proof. intros Hn [L N]. exists lo. split; [right; exact L|]. intros i Hi. apply N. lia. Qed.

Lemma unwrap {A B X : Type} (r : res A X) (f : A -> res B X) b :
  match r with Ok a => f a | Err e => Err e end = Ok b -> exists a, r = Ok a /\ f a = Ok b.
Proof. destruct r as [a|e]; [intros H; exists a; split; [reflexivity|exact H]|discriminate]. Qed.

Lemma broadened coeffs hm room row f0 fs a bins z0 hx hy : 0 < q_spacing a -> q_min a < q_max a -> (2 <= p_ebins a)%nat -> (2 <= n_q_bins a)%Z ->
  p_shape a = "gauss"%string -> p_ei a = None -> p_ef a = None ->
  (forall q n d, row bins q n = Ok d -> length d = p_ebins a) ->
  hx = (q_max a - q_min a) / INR (Z.to_nat (n_q_bins a)) -> hy = (nth (p_ebins a) bins 0 - nth 0 bins 0) / INR (p_ebins a) ->
  (p_qb a = None \/ exists w, p_qb a = Some [w] /\ 0 < w /\ hx < 10 ^ 14 * w) ->
  (p_eb a = None \/ exists w, p_eb a = Some [w] /\ 0 < w /\ hy < 10 ^ 14 * w) -> (p_qb a <> None \/ p_eb a <> None) ->
  powder_tool coeffs hm room row f0 fs (set_widths a None None) = Ok (q_edges a, bins, z0) ->
  exists z Kx Ky, powder_tool coeffs hm room row f0 fs a = Ok (q_edges a, bins, z) /\
  ((p_qb a = None /\ untouched Kx) \/ exists w M, p_qb a = Some [w] /\ shares Kx M /\ gaussian_of_fwhm w hx Kx M) /\
  ((p_eb a = None /\ untouched Ky) \/ exists w M, p_eb a = Some [w] /\ shares Ky M /\ gaussian_of_fwhm w hy Ky M) /\
  exists v0, (forall i j, z0 i j = Some (v0 i j)) /\
  forall i j, (i < Z.to_nat (n_q_bins a))%nat -> (j < p_ebins a)%nat -> z i j = Some (sumn (p_ebins a) (fun j' =>
    sumn (Z.to_nat (n_q_bins a)) (fun i' => v0 i' j' * Kx (Z.of_nat i - Z.of_nat i')%Z) * Ky (Z.of_nat j - Z.of_nat j')%Z)).
Proof.
  intros Hs Hq Hb Hn Sh Ki Kf Hrow Ex Ey Wq We Ne. destruct (q_axis a Hs Hq) as (Hn1 & Ev & _). pose proof (shells a Hs Hq) as Hp. pose proof Ev as [Le _].
  assert (Lc : length (q_centres a) = Z.to_nat (n_q_bins a)) by (rewrite length_qc; lia). set (n := Z.to_nat (n_q_bins a)) in *.
  destruct a as [qa qb' qs np nd n1 n2 nb e1 e2 ei ef an wq we sh sc]. unfold set_widths.
  cbn [q_min q_max q_spacing p_npts npts_density npts_min npts_max p_ebins p_emin p_emax p_ei p_ef p_angles p_qb p_eb p_shape p_scale] in *. subst sh ei ef.
  unfold powder_tool. cbn [q_spacing].
  change (n_q_bins (mkPA qa qb' qs np nd n1 n2 nb e1 e2 None None an None None "gauss" sc)) with (n_q_bins (mkPA qa qb' qs np nd n1 n2 nb e1 e2 None None an wq we "gauss" sc)).
  destruct (Reqb_spec qs 0) as [Z|_]; [lra|]. destruct (Z.leb_spec (n_q_bins (mkPA qa qb' qs np nd n1 n2 nb e1 e2 None None an wq we "gauss" sc)) 0) as [Z|_]; [lia|].
  change (p_energy_bins (mkPA qa qb' qs np nd n1 n2 nb e1 e2 None None an None None "gauss" sc) f0 fs room)
    with (p_energy_bins (mkPA qa qb' qs np nd n1 n2 nb e1 e2 None None an wq we "gauss" sc) f0 fs room).
  destruct (p_energy_bins _ _ _ _) as [b|] eqn:Eb; [|discriminate].
  change (q_centres (mkPA qa qb' qs np nd n1 n2 nb e1 e2 None None an None None "gauss" sc))
    with (q_centres (mkPA qa qb' qs np nd n1 n2 nb e1 e2 None None an wq we "gauss" sc)).
  change (fun q => row b q (shell_npts (mkPA qa qb' qs np nd n1 n2 nb e1 e2 None None an None None "gauss" sc) q))
    with (fun q => row b q (shell_npts (mkPA qa qb' qs np nd n1 n2 nb e1 e2 None None an wq we "gauss" sc) q)).
  set (A := mkPA qa qb' qs np nd n1 n2 nb e1 e2 None None an wq we "gauss" sc) in *.
  destruct (mapE _ (q_centres A)) as [z|] eqn:Ez; [|discriminate].
  cbn [p_broaden p_eb p_qb p_constrain p_ei p_ef p_scale]. intros E. injection E as <- E0.
  destruct (mapE_inv _ _ _ Ez) as [Lz Nz]. rewrite Lc in Lz. fold n in Lz.
  destruct (energy_axis A f0 fs room b ltac:(cbn; lia) Eb) as (lo & hi & Lh & [Lb Nb] & _). cbn [p_ebins A] in Lb, Nb.
  assert (Ih : nth nb b 0 = hi).
  { rewrite Nb by lia. field. apply not_0_INR. lia. }
  assert (Il : nth 0 b 0 = lo) by (rewrite Nb by lia; cbn [INR]; ring).
  rewrite Ih, Il in Ey.
  assert (Nn : 0 < INR n) by (apply lt_0_INR; lia). assert (Nnb : 0 < INR nb) by (apply lt_0_INR; lia).
  assert (Rz : rect nb z).
  { intros r I. destruct (In_nth _ _ [] I) as (i & Hi & <-). specialize (Nz i 0 [] ltac:(lia)). cbv beta in Nz. exact (Hrow _ _ _ Nz). }
  assert (Wx : (width_arg wq = NoWidth /\ wq = None) \/ exists w, width_arg wq = Fixed w /\ wq = Some [w] /\ 0 < w /\ hx < 10 ^ 14 * w).
  { destruct Wq as [-> | (w & -> & W1 & W2)]; [left; split; reflexivity|right; exists w; repeat split; assumption]. }
  assert (Wy : (width_arg we = NoWidth /\ we = None) \/ exists w, width_arg we = Fixed w /\ we = Some [w] /\ 0 < w /\ hy < 10 ^ 14 * w).
  { destruct We as [-> | (w & -> & W1 & W2)]; [left; split; reflexivity|right; exists w; repeat split; assumption]. }
  destruct (gauss_map coeffs [mk2 (q_edges A) b (Some z)] 0 z nb hx hy (width_arg wq) (width_arg we) None None None Fwhm (1 / 100) ChebyLog)
    as (z' & Kx & Ky & Eg & Lz' & Rz' & Cx & Cy & Nz').
  - reflexivity.
  - exact Rz.
  - lia.
  - exact Hb.
  - rewrite Ex. apply Rdiv_lt_0_compat; lra.
  - rewrite Ey. apply Rdiv_lt_0_compat; lra.
  - rewrite Lz. cbn [get nth sx]. rewrite Ex. apply even_bins_axis; [lia|exact Ev].
  - cbn [get nth sy]. rewrite Ey. apply even_bins_axis; [lia|]. split; [exact Lb|exact Nb].
  - destruct Wx as [[-> _] | (w & -> & _ & W1 & W2)]; [left; reflexivity|right; exists w; repeat split; assumption].
  - destruct Wy as [[-> _] | (w & -> & _ & W1 & W2)]; [left; reflexivity|right; exists w; repeat split; assumption].
  - destruct Ne as [N|N]; [left|right]; [destruct Wx as [[_ ->] | (w & -> & _)]|destruct Wy as [[_ ->] | (w & -> & _)]]; congruence.
  - reflexivity.
  - assert (Pb : p_broaden coeffs A (q_edges A) b z = Ok (Some z')).
    { unfold p_broaden. cbn [A p_eb p_qb p_shape]. fold A. rewrite Eg. cbn [length get app nth sz].
      destruct we as [we'|]; [reflexivity|]. destruct wq as [wq'|]; [reflexivity|]. destruct Ne; congruence. }
    rewrite Pb. exists (p_scaled sc (entries (Some z'))), Kx, Ky. split; [reflexivity|]. split; [|split].
    + destruct Wx as [[Wn ->] | (w & Wf & -> & _)]; [left|right].
      * split; [reflexivity|]. destruct Cx as [[_ U] | (w & M & Bad & _)]; [exact U|cbn in Bad; discriminate].
      * destruct Cx as [[Bad _] | (w' & M & E' & S1 & S2)]; [cbn in Bad; discriminate|]. cbn in E'. injection E' as <-. exists w, M. split; [reflexivity|]. split; [exact S1|exact S2].
    + destruct Wy as [[Wn ->] | (w & Wf & -> & _)]; [left|right].
      * split; [reflexivity|]. destruct Cy as [[_ U] | (w & M & Bad & _)]; [exact U|cbn in Bad; discriminate].
      * destruct Cy as [[Bad _] | (w' & M & E' & S1 & S2)]; [cbn in Bad; discriminate|]. cbn in E'. injection E' as <-. exists w, M. split; [reflexivity|]. split; [exact S1|exact S2].
    + exists (fun i j => cell z i j * match sc with Some x => x | None => 1 end). split.
      * intros i j. rewrite <- E0. unfold p_scaled, entries, option_map, cell. destruct sc; f_equal; lra.
      * intros i j Hi Hj. unfold p_scaled, entries, option_map. change (nth j (nth i z' []) 0) with (cell z' i j).
        rewrite Nz' by lia. rewrite Lz. set (f := match sc with Some x => x | None => 1 end).
        assert (G : forall c, c = f -> sumn nb (fun j' => sumn n (fun i' => cell z i' j' * Kx (Z.of_nat i - Z.of_nat i')%Z) * Ky (Z.of_nat j - Z.of_nat j')%Z) * c
          = sumn nb (fun j' => sumn n (fun i' => cell z i' j' * f * Kx (Z.of_nat i - Z.of_nat i')%Z) * Ky (Z.of_nat j - Z.of_nat j')%Z)).
        { intros c ->. unfold sumn at 1 3. rewrite <- Sum_scal_r. apply Sum_ext. intros j' _. unfold sumn. rewrite <- !Sum_scal_r.
          apply Sum_ext. intros i' _. ring. }
        destruct sc as [x|]; f_equal; [apply G; reflexivity|]. rewrite <- (G 1 eq_refl). ring.
Qed.

Lemma constrained coeffs hm room row f0 fs a edges bins z0 mask : (p_ei a <> None \/ p_ef a <> None) ->
  let emax := match p_ei a, p_emax a with Some e, None => Some e | _, m => m end in
  powder_tool coeffs hm room row f0 fs (unconstrained a emax) = Ok (edges, bins, z0) ->
  apply_kinematic_constraints hm (p_ei a) (p_ef a) (p_angles a) (length edges - 1) (length bins - 1) edges bins (fun _ _ => 0) = Ok mask ->
  exists z, powder_tool coeffs hm room row f0 fs a = Ok (edges, bins, z) /\
  forall i j, z i j = match mask i j with None => None | Some _ => z0 i j end.
Proof.
  intros N. destruct a as [qa qb' qs np nd n1 n2 nb e1 e2 ei ef an wq we sh sc]. unfold unconstrained.
  cbn [q_min q_max q_spacing p_npts npts_density npts_min npts_max p_ebins p_emin p_emax p_ei p_ef p_angles p_qb p_eb p_shape p_scale] in *.
  cbv zeta. set (em := match ei with Some e => match e2 with Some r => Some r | None => Some e end | None => e2 end).
  unfold powder_tool. cbn [q_spacing]. destruct (Reqb qs 0); [discriminate|].
  set (A := mkPA qa qb' qs np nd n1 n2 nb e1 e2 ei ef an wq we sh sc). set (B := mkPA qa qb' qs np nd n1 n2 nb e1 em None None an wq we sh sc).
  change (n_q_bins B) with (n_q_bins A). destruct (Z.leb_spec (n_q_bins A) 0) as [|Hp]; [discriminate|].
  assert (Ee : p_energy_bins B f0 fs room = p_energy_bins A f0 fs room).
  { unfold p_energy_bins, A, B, em. cbn [p_ei p_emax p_ebins p_emin]. destruct ei, e2; reflexivity. }
  rewrite Ee. destruct (p_energy_bins A f0 fs room) as [b|] eqn:Eb; [|discriminate].
  change (q_centres B) with (q_centres A). change (fun q => row b q (shell_npts B q)) with (fun q => row b q (shell_npts A q)).
  destruct (mapE _ (q_centres A)) as [z1|]; [|discriminate].
  change (p_broaden coeffs B (q_edges B) b z1) with (p_broaden coeffs A (q_edges A) b z1). destruct (p_broaden _ _ _ _ _) as [z2|]; [|discriminate].
  change (q_edges B) with (q_edges A). unfold p_constrain. change (p_ei B) with (@None R). change (p_ef B) with (@None R). cbv iota.
  assert (Le : length (q_edges A) = (Z.to_nat (n_q_bins A) + 1)%nat) by apply length_linspace.
  assert (Lc : length (q_centres A) = (length (q_edges A) - 1)%nat) by (apply length_qc; lia). rewrite Lc.
  change (p_ei A) with ei. change (p_ef A) with ef. change (p_angles A) with an. change (p_scale A) with sc. change (p_scale B) with sc.
  intros E Em. injection E as <- <- <-.
  exists (p_scaled sc (fun i j => match mask i j with Some _ => entries z2 i j | None => None end)). split.
  - rewrite Em. destruct ei as [ei|]; [reflexivity|destruct ef as [ef|]; [reflexivity|destruct N; congruence]].
  - intros i j. unfold p_scaled. destruct sc; destruct (mask i j); reflexivity.
Qed.

Lemma tool_axes coeffs hm room row f0 fs a edges bins z : (1 <= p_ebins a)%nat -> powder_tool coeffs hm room row f0 fs a = Ok (edges, bins, z) ->
  edges = q_edges a /\ length edges = (Z.to_nat (n_q_bins a) + 1)%nat /\ length bins = (p_ebins a + 1)%nat /\ p_energy_bins a f0 fs room = Ok bins.
Proof.
  intros Hb. unfold powder_tool. destruct (Reqb _ 0); [discriminate|]. destruct (n_q_bins a <=? 0)%Z; [discriminate|].
  destruct (p_energy_bins a f0 fs room) as [b|] eqn:Eb; [|discriminate]. destruct (mapE _ _); [|discriminate]. destruct (p_broaden _ _ _ _ _); [|discriminate].
  destruct (p_constrain _ _ _ _ _ _ _); [|discriminate]. intros E. injection E as <- <- _. split; [reflexivity|]. split; [apply length_linspace|].
  split; [exact (proj1 (pbins_inc _ _ _ _ _ Eb))|reflexivity].
Qed.

Lemma middles n bins : length bins = (n + 1)%nat -> exists c, get_bin_centres n bins = Ok c /\ forall j, (j < n)%nat -> nth j c 0 = bin_middle bins j.
Proof.
  intros L. unfold get_bin_centres. rewrite L, is_edge_true. eexists. split; [reflexivity|]. intros j Hj. unfold bin_middle.
  rewrite nth_centres by lia. reflexivity.
Qed.

Lemma blanked coeffs hm room row f0 fs a kk edges bins z0 (ei ef : R -> R) : 0 < q_spacing a -> q_min a < q_max a -> (1 <= p_ebins a)%nat -> 0 < hm ->
  (exists e, 0 <= e /\ ((p_ei a = Some e /\ p_ef a = None /\ (forall x, ei x = e) /\ (forall x, ef x = e - x)) \/
                         (p_ei a = None /\ p_ef a = Some e /\ (forall x, ei x = x + e) /\ (forall x, ef x = e)))) ->
  360 * IZR kk <= Rmin (fst (p_angles a)) (snd (p_angles a)) < 360 * IZR kk + 360 -> Rmax (fst (p_angles a)) (snd (p_angles a)) <= 360 * IZR kk + 540 ->
  (exists t, in_bank (p_angles a) t /\ cos t <> 0) ->
  let emax := match p_ei a, p_emax a with Some e, None => Some e | _, m => m end in
  powder_tool coeffs hm room row f0 fs (unconstrained a emax) = Ok (edges, bins, z0) ->
  exists z, powder_tool coeffs hm room row f0 fs a = Ok (edges, bins, z) /\
  forall i j, (i < Z.to_nat (n_q_bins a))%nat -> (j < p_ebins a)%nat ->
  let seen := reachable hm (ei (bin_middle bins j)) (ef (bin_middle bins j)) (p_angles a) (nth i edges 0) (nth (S i) edges 0) in
  (z i j = z0 i j /\ seen) \/ (z i j = None /\ ~ seen).
Proof.
  intros Hs Hq Hb Hm He A1 A2 A3 emax E0. pose proof (shells a Hs Hq) as Hp.
  destruct (tool_axes _ _ _ _ _ _ (unconstrained a emax) _ _ _ Hb E0) as (Ee & Le & Lb & _).
  change (n_q_bins (unconstrained a emax)) with (n_q_bins a) in Le. change (p_ebins (unconstrained a emax)) with (p_ebins a) in Lb.
  change (q_edges (unconstrained a emax)) with (q_edges a) in Ee.
  destruct (q_axis a Hs Hq) as (Hn & [_ Ne] & _).
  destruct (middles _ _ Lb) as (cs & Ec & Nc).
  assert (Eg : get_bin_edges (length edges - 1) edges = Ok edges).
  { unfold get_bin_edges. replace (length edges) with (length edges - 1 + 1)%nat at 2 by lia. rewrite is_edge_true. reflexivity. }
  assert (Ec' : get_bin_centres (length bins - 1) bins = Ok cs) by (rewrite Lb; replace (p_ebins a + 1 - 1)%nat with (p_ebins a) by lia; exact Ec).
  assert (Inc : forall i, (i < Z.to_nat (n_q_bins a))%nat -> nth i edges 0 <= nth (S i) edges 0).
  { intros i Hi. rewrite Ee, !Ne by lia. rewrite S_INR. assert (0 < INR (Z.to_nat (n_q_bins a))) by (apply lt_0_INR; lia).
    assert (0 < (q_max a - q_min a) / INR (Z.to_nat (n_q_bins a))) by (apply Rdiv_lt_0_compat; lra). lra. }
  assert (M : exists mask, apply_kinematic_constraints hm (p_ei a) (p_ef a) (p_angles a) (length edges - 1) (length bins - 1) edges bins (fun _ _ => 0) = Ok mask /\
    forall i j, (i < Z.to_nat (n_q_bins a))%nat -> (j < p_ebins a)%nat ->
    let seen := reachable hm (ei (bin_middle bins j)) (ef (bin_middle bins j)) (p_angles a) (nth i edges 0) (nth (S i) edges 0) in
    (mask i j = Some 0 /\ seen) \/ (mask i j = None /\ ~ seen)).
  { destruct He as (e & E1 & [(-> & -> & F1 & F2)|(-> & -> & F1 & F2)]).
    - destruct (kin_direct hm (p_angles a) kk e _ _ edges bins (fun _ _ => 0) cs edges Hm E1 A1 A2 A3 Ec' Eg) as (out & Eo & No).
      exists out. split; [exact Eo|]. intros i j Hi Hj. cbv zeta. rewrite F1, F2, <- Nc by exact Hj. exact (No i j (Inc i Hi)).
    - destruct (kin_indirect hm (p_angles a) kk e _ _ edges bins (fun _ _ => 0) cs edges Hm E1 A1 A2 A3 Ec' Eg) as (out & Eo & No).
      exists out. split; [exact Eo|]. intros i j Hi Hj. cbv zeta. rewrite F1, F2, <- Nc by exact Hj. exact (No i j (Inc i Hi)). }
  destruct M as (mask & Em & Nm).
  destruct (constrained coeffs hm room row f0 fs a edges bins z0 mask) as (z & Ez & Nz).
  - destruct He as (e & _ & [(-> & _)|(_ & -> & _)]); [left|right]; discriminate.
  - exact E0.
  - exact Em.
  - exists z. split; [exact Ez|]. intros i j Hi Hj. cbv zeta. rewrite Nz. destruct (Nm i j Hi Hj) as [[-> S]|[-> S]]; [left|right]; (split; [reflexivity|exact S]).
Qed.

(** No |q| bins *)
Lemma no_shells coeffs hm room row f0 fs a : 0 < q_spacing a -> q_max a <= q_min a -> powder_tool coeffs hm room row f0 fs a = Err NoShells.
Proof.
  intros Hs Hq. unfold powder_tool. destruct (Reqb_spec (q_spacing a) 0) as [Z|_]; [lra|].
  assert (H : (n_q_bins a <= 0)%Z).
  { unfold n_q_bins. apply Rceil_least. apply (Rmult_le_reg_r (q_spacing a)); [exact Hs|]. unfold Rdiv. rewrite Rmult_assoc, Rinv_l by lra. lra. }
  apply Z.leb_le in H. rewrite H. reflexivity.
Qed.

(** The samplings *)
Lemma dos_map_exact coeffs hm room solve recip omega nm k wmin sampling rnd rnd2 always f0 fs a bins :
  solves solve -> det3 recip <> 0 -> 0 <= q_min a -> q_min a < q_max a -> 0 < q_spacing a -> 0 < k -> (1 <= p_ebins a)%nat ->
  p_qb a = None -> p_eb a = None -> p_ei a = None -> p_ef a = None -> p_energy_bins a f0 fs room = Ok bins ->
  (forall q, 0 <= q -> (6 <= shell_npts a q)%nat) -> jitter_ok rnd -> unit_random always ->
  In sampling ["golden"; "spherical-polar-improved"; "random-sphere"]%string ->
  exists z, powder_tool coeffs hm room (dos_row solve recip omega nm k wmin sampling rnd rnd2 always) f0 fs a = Ok (q_edges a, bins, z) /\
  forall i, (S i < length (q_edges a))%nat -> let q := bin_middle (q_edges a) i in
  exists ps, length ps = shell_npts a q /\ (forall p, In p ps -> norm (vmul p recip) = q) /\
    forall j, (j < p_ebins a)%nat -> exists v, z i j = Some v /\
      v * (nth (S j) bins 0 - nth j bins 0) = p_factor a * (3 / INR nm * average ps (modes_at k omega nm (nth j bins 0) (nth (S j) bins 0))).
Proof.
  intros So De H0 Hq Hs Hk Hb Wq We Ki Kf Eb Hn J U I.
  destruct (dos_map coeffs hm room solve recip omega nm k wmin sampling rnd rnd2 always f0 fs a bins So De H0 Hq Hs Hk Hb Wq We Ki Kf Eb) as (z & Ez & Nz).
  - intros q Q. destruct (sphere_exact (shell_npts a q) sampling rnd rnd2 always (Hn q Q) J U I) as (l & El & Ll & Ol). exists l.
    split; [exact El|]. split; [|exact Ol]. intros ->. cbn in Ll. specialize (Hn q Q). lia.
  - exists z. split; [exact Ez|]. intros i Hi q. unfold q_edges in Hi. rewrite length_linspace in Hi.
    assert (Hi' : (i < Z.to_nat (n_q_bins a))%nat) by lia. destruct (Nz i Hi') as (ps & L & N & V). fold q in L, N.
    pose proof (middle_nonneg a i H0 Hq Hs Hi') as Q. fold q in Q.
    destruct (sphere_exact (shell_npts a q) sampling rnd rnd2 always (Hn q Q) J U I) as (l & El & Ll & Ol).
    exists ps. split; [rewrite (L l El); exact Ll|]. split; [exact N|exact V].
Qed.
Lemma dos_map_grid coeffs hm room solve recip omega nm k wmin sampling rnd rnd2 always f0 fs a bins :
  solves solve -> det3 recip <> 0 -> 0 <= q_min a -> q_min a < q_max a -> 0 < q_spacing a -> 0 < k -> (1 <= p_ebins a)%nat ->
  p_qb a = None -> p_eb a = None -> p_ei a = None -> p_ef a = None -> p_energy_bins a f0 fs room = Ok bins ->
  (forall q, 0 <= q -> (3 <= shell_npts a q)%nat) -> jitter_ok rnd ->
  In sampling ["sphere-projected-grid"; "spherical-polar-grid"]%string ->
  exists z, powder_tool coeffs hm room (dos_row solve recip omega nm k wmin sampling rnd rnd2 always) f0 fs a = Ok (q_edges a, bins, z) /\
  forall i, (S i < length (q_edges a))%nat -> let q := bin_middle (q_edges a) i in
  exists ps n, length ps = (2 * n * n)%nat /\ (shell_npts a q <= 2 * n * n)%nat /\ (forall m, (shell_npts a q <= 2 * m * m)%nat -> (n <= m)%nat) /\
    (forall p, In p ps -> norm (vmul p recip) = q) /\
    forall j, (j < p_ebins a)%nat -> exists v, z i j = Some v /\
      v * (nth (S j) bins 0 - nth j bins 0) = p_factor a * (3 / INR nm * average ps (modes_at k omega nm (nth j bins 0) (nth (S j) bins 0))).
Proof.
  intros So De H0 Hq Hs Hk Hb Wq We Ki Kf Eb Hn J I.
  assert (G : forall q, 0 <= q -> exists l n, get_qpts_sphere (shell_npts a q) sampling rnd rnd2 always = Ok l /\ length l = (2 * n * n)%nat /\
    (shell_npts a q <= 2 * n * n)%nat /\ (forall m, (shell_npts a q <= 2 * m * m)%nat -> (n <= m)%nat) /\ forall p, In p l -> on_sphere p).
  { intros q Q. specialize (Hn q Q). apply sphere_grid; [lia|exact J|]. destruct I as [<- | [<- | []]]; [left; reflexivity|right; split; [reflexivity|exact Hn]]. }
  destruct (dos_map coeffs hm room solve recip omega nm k wmin sampling rnd rnd2 always f0 fs a bins So De H0 Hq Hs Hk Hb Wq We Ki Kf Eb) as (z & Ez & Nz).
  - intros q Q. destruct (G q Q) as (l & n & El & Ll & Le & _ & Ol). exists l.
    split; [exact El|]. split; [|exact Ol]. intros ->. cbn [length] in Ll. specialize (Hn q Q). lia.
  - exists z. split; [exact Ez|]. intros i Hi q. unfold q_edges in Hi. rewrite length_linspace in Hi.
    assert (Hi' : (i < Z.to_nat (n_q_bins a))%nat) by lia. destruct (Nz i Hi') as (ps & L & N & V). fold q in L, N.
    pose proof (middle_nonneg a i H0 Hq Hs Hi') as Q. fold q in Q. destruct (G q Q) as (l & n & El & Ll & Le & Lm & Ol).
    exists ps, n. split; [rewrite (L l El); exact Ll|]. split; [exact Le|]. split; [exact Lm|]. split; [exact N|exact V].
Qed.

Definition three_bins : pargs := mkPA 1 4 1 10 None 100 1000 5 None None None None (0, 180) None None "gauss" None.
Lemma three_meets : exists a, set_widths a None None = three_bins /\ n_q_bins a = 3%Z /\ p_qb a = Some [1] /\
  forall coeffs hm, exists bins z0, powder_tool coeffs hm 1 (fun bins _ _ => Ok (repeat 1 (length bins - 1))) 1 [1; 1] three_bins = Ok (q_edges a, bins, z0) /\
  length bins = (p_ebins a + 1)%nat.
Proof.
  assert (T : n_q_bins three_bins = 3%Z).
  { unfold n_q_bins, three_bins. cbn [q_max q_min q_spacing]. replace ((4 - 1) / 1) with (IZR 3) by lra. pose proof (Rceil_bounds (IZR 3)) as [B1 B2].
    apply Z.le_antisymm; [apply Rceil_least; lra|apply le_IZR; exact B1]. }
  exists (set_widths three_bins (Some [1]) None). split; [reflexivity|]. split; [exact T|]. split; [reflexivity|]. intros coeffs hm.
  destruct (far_bins 1 ltac:(lra)) as (bins & Eb & Lb & _).
  destruct (tool_rows coeffs hm 1 (fun bins _ _ => Ok (repeat 1 (length bins - 1))) 1 [1; 1] three_bins bins) as (z & Ez & _).
  - cbn; lra.
  - cbn; lra.
  - exact Eb.
  - reflexivity.
  - reflexivity.
  - reflexivity.
  - reflexivity.
  - intros i _. eexists. reflexivity.
  - exists bins, z. split; [exact Ez|exact Lb].
Qed.

(** ** Widths from the command line *)
Lemma poly_sum cs x : polynomial cs x = sumn (length cs) (fun i => nth i cs 0 * x ^ i).
Proof.
  induction cs as [|c cs IH]; [reflexivity|]. cbn [polynomial fold_right length]. change (fold_right _ 0 cs) with (polynomial cs x). rewrite IH. unfold sumn. cbn [seq]. rewrite Sum_cons. cbn [nth pow].
  rewrite <- seq_shift, Sum_map. rewrite <- Sum_scal. f_equal; [ring|]. apply Sum_ext. intros i _. cbn [nth pow]. ring.
Qed.
Lemma width_is l w : width_for l w -> width_arg l = w.
Proof.
  destruct w as [|c|f]; cbn [width_for].
  - intros ->. reflexivity.
  - intros ->. reflexivity.
  - intros (cs & -> & L & F). destruct cs as [|c [|c' cs]]; [cbn in L; lia|cbn in L; lia|]. cbn [width_arg length Nat.ltb Nat.leb]. f_equal.
    apply FunctionalExtensionality.functional_extensionality. intros x. rewrite poly_sum, F. reflexivity.
Qed.
Lemma widths coeffs hm room row f0 fs a wx wy bins rows : q_spacing a <> 0 -> (0 < n_q_bins a)%Z -> p_ei a = None -> p_ef a = None ->
  width_for (p_qb a) wx -> width_for (p_eb a) wy -> wx <> NoWidth \/ wy <> NoWidth ->
  p_energy_bins a f0 fs room = Ok bins -> mapE (fun q => row bins q (shell_npts a q)) (q_centres a) = Ok rows ->
  match broaden2d coeffs [mk2 (q_edges a) bins (Some rows)] 0 wx wy (p_shape a) None None None Fwhm (1 / 100) ChebyLog with
  | Err e => powder_tool coeffs hm room row f0 fs a = Err (MapErr e)
  | Ok (st, r) => exists z, powder_tool coeffs hm room row f0 fs a = Ok (q_edges a, bins, z) /\
      forall i j, z i j = match sz (get st r) with Some m => Some (nth j (nth i m []) 0 * p_factor a) | None => None end
  end.
Proof.
  intros Hs Hn Ki Kf Wx Wy Ne Eb Er. rewrite <- (width_is _ _ Wx), <- (width_is _ _ Wy). unfold powder_tool.
  destruct (Reqb_spec (q_spacing a) 0) as [?|_]; [contradiction|]. destruct (Z.leb_spec (n_q_bins a) 0); [lia|]. rewrite Eb, Er. unfold p_broaden, p_constrain. rewrite Ki, Kf.
  assert (D : exists x, p_eb a = Some x \/ p_qb a = Some x).
  { destruct Ne as [Ne|Ne]; [destruct wx as [|c|f]; [contradiction| |]|destruct wy as [|c|f]; [contradiction| |]]; cbn [width_for] in *.
    - exists [c]. right. exact Wx. - destruct Wx as (cs & E & _). exists cs. right. exact E. - exists [c]. left. exact Wy. - destruct Wy as (cs & E & _). exists cs. left. exact E. }
  destruct (broaden2d _ _ _ _ _ _ _ _ _ _ _ _) as [[st r]|e].
  - eexists. split; [destruct D as (x & [D|D]); rewrite D; [reflexivity|destruct (p_eb a); reflexivity]|]. intros i j. unfold p_scaled, entries, p_factor. destruct (p_scale a); destruct (sz (get st r)); cbn; try reflexivity. f_equal. ring.
  - destruct D as (x & [D|D]); rewrite D; [reflexivity|destruct (p_eb a); reflexivity].
Qed.
