(** Lemmas for C12: the whole dipole correction and gamma correction. *)
From Verif Require Import Base Cpx Vec3 M_grid M_cell M_qpts M_dynmat M_dipole M_cext S_dynmat S_dipole
  L_cell L_qpts L_dynmat L_dynmat2 L_dipole L_nac L_cmem L_cext L_cgrad L_cdip L_cborn.
Open Scope R_scope.

Lemma Csum_combine {A B} (l1 : list A) (l2 : list B) d1 d2 (f : A * B -> C) : length l1 = length l2 ->
  Csum (combine l1 l2) f = Csum (seq 0 (length l1)) (fun k => f (nth k l1 d1, nth k l2 d2)).
Proof.
  revert l2. induction l1 as [|x l1 IH]; intros [|y l2] E; try discriminate; [reflexivity|].
  cbn [combine length seq]. rewrite !Csum_cons, IH by (cbn in E; lia). f_equal.
  rewrite <- seq_shift, Csum_map. reflexivity.
Qed.
Lemma Csum_skip {A} (l : list A) o d0 (f : A -> C) :
  Csum (skipn o l) f = Csum (seq 0 (length l - o)) (fun k => f (nth (o + k) l d0)).
Proof.
  revert l. induction o as [|o IH]; intros l.
  - cbn [skipn Nat.add]. rewrite Nat.sub_0_r. clear. induction l as [|x l IHl]; [reflexivity|].
    cbn [length seq]. rewrite !Csum_cons, IHl. f_equal. rewrite <- seq_shift, Csum_map. reflexivity.
  - destruct l as [|x l]; [reflexivity|]. cbn [skipn length Nat.sub]. rewrite IH. reflexivity.
Qed.
Lemma nth_combine {A B} (l1 : list A) (l2 : list B) k d1 d2 : length l1 = length l2 ->
  nth k (combine l1 l2) (d1, d2) = (nth k l1 d1, nth k l2 d2).
Proof. apply combine_nth. Qed.

Definition toC (p : R * R) : C := mkC (fst p) (snd p).
Lemma toC_conj a b : toC (cmult_conj a b) = Cmul (toC a) (Cconj (toC b)).
Proof. apply C_eq; cbn; ring. Qed.
Lemma toC_at2 m k : toC (at2 m (2 * k)) = cget m k.
Proof. reflexivity. Qed.

Lemma cmat9 m : mat9 (pack2 3 (mget m)) = m.
Proof. destruct m as [[[[? ?] ?] [[? ?] ?]] [[? ?] ?]]. reflexivity. Qed.
Lemma vec3_vmem v : vec3 (vmem v) = v.
Proof. destruct v as [[? ?] ?]. reflexivity. Qed.

Definition part (c : nat) (z : C) : R := if Nat.eqb c 0 then re z else im z.
Lemma cget_part m k z : (forall c, (c < 2)%nat -> m (2 * k + c)%nat = part c z) -> cget m k = z.
Proof.
  intros H. apply cget_at.
  - pose proof (H 0%nat ltac:(lia)) as E. rewrite Nat.add_0_r in E. exact E.
  - exact (H 1%nat ltac:(lia)).
Qed.
Lemma part_add c z w : part c (Cadd z w) = part c z + part c w.
Proof. unfold part. destruct (Nat.eqb c 0); reflexivity. Qed.
Lemma part_sub c z w : part c (Csub z w) = part c z - part c w.
Proof. unfold part. destruct (Nat.eqb c 0); reflexivity. Qed.
Lemma part_scal c r z : part c (Cscal r z) = r * part c z.
Proof. unfold part. destruct (Nat.eqb c 0); reflexivity. Qed.
Lemma part_sum {A} c (l : list A) f : part c (Csum l f) = Sum l (fun x => part c (f x)).
Proof. unfold part. destruct (Nat.eqb c 0); reflexivity. Qed.
Lemma part_toC c p : (if Nat.eqb c 0 then fst p else snd p) = part c (toC p).
Proof. reflexivity. Qed.

Lemma c_round_rint x : (forall m : Z, x <> IZR m + 1/2) -> c_round x = rint x.
Proof.
  intros H. unfold c_round, rint. pose proof (base_Int_part x) as [H1 H2].
  destruct (Rlt_dec _ _) as [Ha|Ha]; [reflexivity|].
  destruct (Rlt_dec _ _) as [Hb|Hb]; [reflexivity|].
  exfalso. apply (H (Int_part x)). lra.
Qed.

Lemma qn_mem q : off_zone_face q ->
  forall k, (k < 3)%nat -> vmem q k - IZR (c_round (vmem q k)) = comp (qnorm q) k.
Proof.
  destruct q as [[x y] z]. intros H. cbn in H.
  intros [|[|[|k]]] Hk; try lia; cbn; rewrite c_round_rint; try reflexivity; intros m; apply H.
Qed.

Lemma qn_vec3 q : off_zone_face q ->
  vec3 (fun a => vmem q a - IZR (c_round (vmem q a))) = qnorm q.
Proof.
  intros H. unfold vec3. rewrite !(qn_mem q H) by lia. destruct (qnorm q) as [[? ?] ?]. reflexivity.
Qed.

(** What the stored arrays must look like for the pointer arithmetic to be
    meaningful; [_dipole_correction_init] produces such arrays. *)
Record dip_sized (dd : dipdata) : Prop := {
  sz_c : length (dd_cells dd) = length (dd_H dd);
  sz_g : length (dd_gcart dd) = length (dd_gph dd) }.

Lemma real_shells_len mk n : forall todo r0,
  length (fst (real_shells mk n todo r0)) = length (snd (real_shells mk n todo r0)).
Proof.
  induction todo as [|s todo IH]; intros r0; [reflexivity|]. cbn [real_shells].
  destruct (Rltb _ _); [|reflexivity].
  match goal with |- context [real_shells mk n todo ?r] => specialize (IH r); destruct (real_shells mk n todo r) end.
  cbn [fst snd] in *. rewrite !app_length, map_length, IH. reflexivity.
Qed.
Lemma dipole_init_sized erfc cell atom_r born diel dp : dip_sized (dipole_init erfc cell atom_r born diel dp).
Proof.
  unfold dipole_init. cbv zeta.
  match goal with |- context [real_shells ?mk ?n ?t ?r] =>
    pose proof (real_shells_len mk n t r) as E; destruct (real_shells mk n t r) as [cs hs] end.
  match goal with |- context [recip_shells ?a ?b ?c ?d ?e ?f ?g] => destruct (recip_shells a b c d e f g) as [gs rs] end.
  split; cbn [dd_cells dd_H dd_gcart dd_gph].
  - exact E.
  - rewrite !map_length. reflexivity.
Qed.

Section Dip.
Variables (cell : M3) (atom_r : list V3) (mk : nat -> Z3 -> nat -> nat -> nat -> R) (D : dipin) (q : V3).
Let n := length atom_r.
Let dd := di_dd D.
Let diel := di_diel D.
Let born := di_born D.
Hypothesis Hok : dip_ok mk (reciprocal_cell cell) atom_r dd.
Hypothesis Hsz : dip_sized dd.
Hypothesis Hq : off_zone_face q.
Let X := marshal_dip atom_r D.
Let qn : mem := fun a => vmem q a - IZR (c_round (vmem q a)).
Let o : nat := if is_gamma (qnorm q) then 1%nat else 0%nat.
(** Real-space prefactor as C computes it. *)
Definition c_real_factor : R := dd_lambda dd ^ 3 / sqrt (c_det_array diel).

Lemma H_at nc i j a b : (i <= j)%nat -> (j < n)%nat -> (a < 3)%nat -> (b < 3)%nat ->
  cd_H X (9 * n_elems n * nc + 9 * (hidx n i + j) + 3 * a + b)%nat
  = nth nc (dd_H dd) (fun _ _ _ => 0) (hidx n i + j)%nat a b.
Proof.
  intros Hij Hj Ha Hb. unfold X. cbn [marshal_dip cd_H]. fold n dd.
  apply (pack4_at (n_elems n) 3 3 (fun nc => nth nc (dd_H dd) (fun _ _ _ => 0)) nc (hidx n i + j) a b).
  - apply hidx_bound. lia.
  - exact Ha.
  - exact Hb.
  - ring.
Qed.

Lemma for3 (f : nat -> R) s : for_ 0 3 (fun k s => s + f k) s = s + f 0%nat + f 1%nat + f 2%nat.
Proof. reflexivity. Qed.

Lemma real_phase nc : (nc < length (dd_cells dd))%nat ->
  for_ 0 3 (fun a s => s + qn a * cd_cells X (3 * nc + a)%nat) 0
  = dot (qnorm q) (zvec (nth nc (dd_cells dd) (0,0,0)%Z)).
Proof.
  intros Hnc. rewrite for3. unfold qn. rewrite !(qn_mem q Hq) by lia.
  assert (E : forall k, (k < 3)%nat -> cd_cells X (3 * nc + k)%nat = IZR (zcomp (nth nc (dd_cells dd) (0,0,0)%Z) k)).
  { intros k Hk. unfold X. cbn [marshal_dip cd_cells]. fold dd.
    apply (pack2_at 3 (fun nc k => IZR (zcomp (nth nc (dd_cells dd) (0,0,0)%Z) k)) nc k); [exact Hk|ring]. }
  rewrite !E by lia.
  destruct (qnorm q) as [[x y] z]. destruct (nth nc (dd_cells dd) (0,0,0)%Z) as [[c1 c2] c3]. cbn. ring.
Qed.

Lemma real_part corr i j a b c : (i <= j)%nat -> (j < n)%nat -> (a < 3)%nat -> (b < 3)%nat -> (c < 2)%nat ->
  multiply_array (2 * 9 * n * n) (dd_lambda dd ^ 3 / sqrt (c_det_array (mat9 (cd_diel X))))
    (c_real_loop qn n (cd_H X) (cd_cells X) (cd_ncells X) (memset0 (2 * 9 * n * n) corr))
    (2 * lin n i j a b + c)%nat
  = - part c (Cconj (Cscal c_real_factor (Csum (combine (dd_cells dd) (dd_H dd)) (fun ch =>
         Cscal (snd ch (hidx n i + j)%nat a b) (cis (2 * PI * dot (qnorm q) (zvec (fst ch)))))))).
Proof.
  intros Hij Hj Ha Hb Hc. pose proof (lin_lt n i j a b ltac:(lia) Hj Ha Hb) as HL.
  rewrite multiply_array_at. destruct (Nat.ltb_spec (2 * lin n i j a b + c) (2 * 9 * n * n)); [|nia].
  rewrite c_real_at by assumption. unfold memset0.
  destruct (Nat.ltb_spec (2 * lin n i j a b + c) (2 * 9 * n * n)); [|nia].
  assert (E9 : mat9 (cd_diel X) = diel) by apply cmat9.
  rewrite E9. fold c_real_factor. rewrite Rplus_0_l.
  rewrite Cconj_scal, part_scal, <- Csum_conj, part_sum.
  change (cd_ncells X) with (length (dd_cells dd)).
  rewrite Rmult_comm, <- Ropp_mult_distr_r_reverse. f_equal.
  assert (EC : Sum (combine (dd_cells dd) (dd_H dd)) (fun ch => part c (Cconj
             (Cscal (snd ch (hidx n i + j)%nat a b) (cis (2 * PI * dot (qnorm q) (zvec (fst ch)))))))
          = Sum (seq 0 (length (dd_cells dd))) (fun nc => part c (Cconj
             (Cscal (nth nc (dd_H dd) (fun _ _ _ => 0) (hidx n i + j)%nat a b)
                    (cis (2 * PI * dot (qnorm q) (zvec (nth nc (dd_cells dd) (0,0,0)%Z)))))))).
  { rewrite <- !part_sum. f_equal.
    apply (Csum_combine (dd_cells dd) (dd_H dd) (0,0,0)%Z (fun _ _ _ => 0)
      (fun ch => Cconj (Cscal (snd ch (hidx n i + j)%nat a b) (cis (2 * PI * dot (qnorm q) (zvec (fst ch))))))).
    apply sz_c. exact Hsz. }
  rewrite EC, <- Sum_opp. apply Sum_ext. intros nc Hnc. apply in_seq in Hnc. f_equal.
  rewrite H_at by assumption. cbv zeta. rewrite real_phase by lia.
  rewrite Cconj_scal, part_scal, Rmult_comm. f_equal.
Qed.

(** Reciprocal part. *)
Let gphx := if c_is_gamma (vec3 qn) then fun k => cd_gph X (2 * n + k)%nat else cd_gph X.
Let gcx := if c_is_gamma (vec3 qn) then fun k => cd_gcart X (3 + k)%nat else cd_gcart X.
Let ngx := if c_is_gamma (vec3 qn) then (cd_ngvecs X - 1)%nat else cd_ngvecs X.

Lemma gam_eq : c_is_gamma (vec3 qn) = is_gamma (qnorm q).
Proof. unfold qn. rewrite qn_vec3 by exact Hq. apply c_is_gamma_ok. Qed.

Lemma gcx_at g a : (a < 3)%nat -> gcx (3 * g + a)%nat = comp (nth (o + g) (dd_gcart dd) vzero) a.
Proof.
  intros Ha. unfold gcx, o. rewrite gam_eq. unfold X. cbn [marshal_dip cd_gcart]. fold dd.
  destruct (is_gamma (qnorm q)); apply (pack2_at 3 (fun g k => comp (nth g (dd_gcart dd) vzero) k)); lia.
Qed.
Lemma gphx_at g i : (i < n)%nat -> toC (at2 gphx (2 * (g * n + i))) = nth i (nth (o + g) (dd_gph dd) []) Czero.
Proof.
  intros Hi. unfold gphx, o. rewrite gam_eq. unfold X. cbn [marshal_dip cd_gph]. fold n dd.
  destruct (is_gamma (qnorm q)).
  - unfold at2, toC. cbn [fst snd].
    replace (2 * n + 2 * (g * n + i))%nat with (2 * ((1 + g) * n + i))%nat by ring.
    replace (2 * n + (2 * (g * n + i) + 1))%nat with (2 * ((1 + g) * n + i) + 1)%nat by ring.
    rewrite cpack_re, cpack_im.
    rewrite (pack2_at n (fun g i => nth i (nth g (dd_gph dd) []) Czero) (1 + g) i) by (assumption || reflexivity).
    destruct (nth i _ Czero); reflexivity.
  - rewrite toC_at2, cget_cpack. apply (pack2_at n (fun g i => nth i (nth g (dd_gph dd) []) Czero) g i); [exact Hi|reflexivity].
Qed.
Lemma ngx_at : ngx = (length (combine (dd_gcart dd) (dd_gph dd)) - o)%nat.
Proof.
  unfold ngx, o. rewrite gam_eq, combine_length, (sz_g _ Hsz), Nat.min_id.
  unfold X. cbn [marshal_dip cd_ngvecs]. fold dd. destruct (is_gamma (qnorm q)); lia.
Qed.
Lemma used_skip : used_g dd (qnorm q) = skipn o (combine (dd_gcart dd) (dd_gph dd)).
Proof.
  unfold used_g, o. destruct (is_gamma (qnorm q)); [|reflexivity].
  destruct (combine _ _); reflexivity.
Qed.

Let recm := pack2 3 (mget (reciprocal_cell cell)).
Let fac := PI / (c_cell_volume (mat9 (pack2 3 (mget cell))) * dd_lambda dd ^ 2).

Lemma qc_at a : (a < 3)%nat ->
  for_ 0 3 (fun b s => s + qn b * recm (3 * b + a)%nat) 0 = comp (vmul (qnorm q) (reciprocal_cell cell)) a.
Proof.
  intros Ha. rewrite for3. unfold qn. rewrite !(qn_mem q Hq) by lia. unfold recm.
  rewrite (pack2_at 3 _ 0 a) by lia. rewrite (pack2_at 3 _ 1 a) by lia. rewrite (pack2_at 3 _ 2 a) by lia.
  destruct (qnorm q) as [[x y] z]. destruct (reciprocal_cell cell) as [[[[? ?] ?] [[? ?] ?]] [[? ?] ?]].
  destruct a as [|[|[|a]]]; try lia; cbn; ring.
Qed.
Lemma qph_at i : 
  toC (cos (2 * PI * for_ 0 3 (fun a s => s + qn a * cd_atom_r X (3 * i + a)%nat) 0),
       - sin (2 * PI * for_ 0 3 (fun a s => s + qn a * cd_atom_r X (3 * i + a)%nat) 0))
  = Cconj (cis (2 * PI * dot (qnorm q) (nth i atom_r vzero))).
Proof.
  rewrite for3. unfold qn. rewrite !(qn_mem q Hq) by lia. unfold X. cbn [marshal_dip cd_atom_r].
  rewrite (pack2_at 3 _ i 0) by lia. rewrite (pack2_at 3 _ i 1) by lia. rewrite (pack2_at 3 _ i 2) by lia.
  destruct (qnorm q) as [[x y] z]. destruct (nth i atom_r vzero) as [[u v] w]. cbn [comp fst snd].
  replace (0 + x * u + y * v + z * w) with (dot (x, y, z) (u, v, w)) by (cbn; ring). reflexivity.
Qed.

Lemma recip_part corr i j a b c : (i <= j)%nat -> (j < n)%nat -> (a < 3)%nat -> (b < 3)%nat -> (c < 2)%nat ->
  c_recip_loop qn recm (cd_atom_r X) (fun a => cd_diel X a / (4 * dd_lambda dd ^ 2)) fac n ngx gphx gcx corr
    (2 * lin n i j a b + c)%nat
  = corr (2 * lin n i j a b + c)%nat + part c (Cconj (recip_dipole cell atom_r diel dd (qnorm q) i j a b)).
Proof.
  intros Hij Hj Ha Hb Hc. rewrite c_recip_at by assumption. f_equal.
  unfold recip_dipole. destruct (Nat.ltb_spec j i); [lia|].
  rewrite Cconj_scal, part_scal, <- Csum_conj, part_sum. rewrite used_skip.
  assert (EF : fac = PI / (cell_volume cell * dd_lambda dd ^ 2)).
  { unfold fac. rewrite cmat9, c_cell_volume_ok. reflexivity. }
  rewrite <- EF, <- Sum_scal.
  set (l := combine (dd_gcart dd) (dd_gph dd)).
  match goal with |- _ = Sum (skipn o l) ?f => assert (ES : Sum (skipn o l) f
     = Sum (seq 0 (length l - o)) (fun k => f (nth (o + k)%nat l (vzero, [])))) end.
  { pose proof (Csum_skip l o (vzero, []) (fun g => RtoC (fac * part c (Cconj
        (Cscal (recip_term diel (dd_lambda dd ^ 2) (vadd (fst g) (vmul (qnorm q) (reciprocal_cell cell))) a b)
             (Cdiv (Cmul (nth i (snd g) Czero) (cis (2 * PI * dot (qnorm q) (nth i atom_r vzero))))
                   (Cmul (nth j (snd g) Czero) (cis (2 * PI * dot (qnorm q) (nth j atom_r vzero)))))))))) as E.
    apply (f_equal re) in E. exact E. }
  rewrite ES. clear ES.  rewrite ngx_at. fold l.
  apply Sum_ext. intros g Hg. apply in_seq in Hg.
  (* the row is a genuine g_row *)
  assert (HR : exists z, nth (o + g) l (vzero, []) = g_row (reciprocal_cell cell) atom_r z).
  { destruct (ok_g _ _ _ _ Hok) as [gs [E _]]. fold l in E.
    assert (I : In (nth (o + g) l (vzero, [])) l) by (apply nth_In; lia).
    rewrite E in I at 2. apply in_map_iff in I. destruct I as [z [Ez _]]. exists z. symmetry. exact Ez. }
  assert (HN : nth (o + g) l (vzero, []) = (nth (o + g) (dd_gcart dd) vzero, nth (o + g) (dd_gph dd) [])).
  { apply nth_combine. apply sz_g. exact Hsz. }
  rewrite Rmult_assoc. f_equal. rewrite part_toC, !toC_conj, !gphx_at by lia.
  cbv zeta. rewrite !qph_at. rewrite Cconj_scal, part_scal.
  rewrite HN. cbn [fst snd].
  destruct HR as [z HR]. rewrite HN in HR.
  assert (H1 : nth (o + g) (dd_gcart dd) vzero = fst (g_row (reciprocal_cell cell) atom_r z)) by (rewrite <- HR; reflexivity).
  assert (H2 : nth (o + g) (dd_gph dd) [] = snd (g_row (reciprocal_cell cell) atom_r z)) by (rewrite <- HR; reflexivity).
  rewrite Rmult_comm. f_equal.
  - (* k-vector factor *)
    assert (KV : forall a, (a < 3)%nat -> gcx (3 * g + a)%nat + for_ 0 3 (fun b s => s + qn b * recm (3 * b + a)%nat) 0
        = comp (vadd (nth (o + g) (dd_gcart dd) vzero) (vmul (qnorm q) (reciprocal_cell cell))) a).
    { intros a' Ha'. rewrite gcx_at, qc_at by exact Ha'.
      destruct (nth (o + g) (dd_gcart dd) vzero) as [[? ?] ?]. destruct (vmul _ _) as [[? ?] ?].
      destruct a' as [|[|[|a']]]; try lia; reflexivity. }
    set (K := vadd (nth (o + g) (dd_gcart dd) vzero) (vmul (qnorm q) (reciprocal_cell cell))) in *.
    unfold recip_term.
    assert (EK : for_ 0 3 (fun a => for_ 0 3 (fun b s => s +
        (gcx (3 * g + a)%nat + for_ 0 3 (fun b s => s + qn b * recm (3 * b + a)%nat) 0)
        * (gcx (3 * g + b)%nat + for_ 0 3 (fun c s => s + qn c * recm (3 * c + b)%nat) 0)
        * (cd_diel X (3 * a + b)%nat / (4 * dd_lambda dd ^ 2)))) 0
        = k_len_2 diel (dd_lambda dd ^ 2) K).
    { transitivity (Sum idx3 (fun a => Sum idx3 (fun b => comp K a * comp K b * (mget diel a b / (4 * dd_lambda dd ^ 2))))).
      - assert (DX : forall a b, (a < 3)%nat -> (b < 3)%nat -> cd_diel X (3 * a + b)%nat = mget diel a b).
        { intros a' b' _ Hb'. unfold X. cbn [marshal_dip cd_diel]. apply pack2_at; [exact Hb'|ring]. }
        assert (F3 : forall (f : nat -> nat -> R), for_ 0 3 (fun a => for_ 0 3 (fun b s => s + f a b)) 0
           = Sum idx3 (fun a => Sum idx3 (fun b => f a b))).
        { intros f. unfold for_, Sum, idx3. cbn. ring. }
        rewrite (F3 (fun a b => (gcx (3 * g + a)%nat + for_ 0 3 (fun b s => s + qn b * recm (3 * b + a)%nat) 0)
          * (gcx (3 * g + b)%nat + for_ 0 3 (fun c s => s + qn c * recm (3 * c + b)%nat) 0)
          * (cd_diel X (3 * a + b)%nat / (4 * dd_lambda dd ^ 2)))).
        apply Sum_ext. intros a' Ha'. apply Sum_ext. intros b' Hb'.
        assert (a' < 3)%nat by (destruct Ha' as [<-|[<-|[<-|[]]]]; lia).
        assert (b' < 3)%nat by (destruct Hb' as [<-|[<-|[<-|[]]]]; lia).
        rewrite (KV a'), (KV b'), DX by assumption. reflexivity.
      - unfold k_len_2, Rdiv. rewrite <- Sum_scal_r. apply Sum_ext. intros a' _.
        rewrite <- Sum_scal_r. apply Sum_ext. intros b' _. ring. }
    rewrite EK. rewrite !KV by assumption. reflexivity.
  - f_equal. rewrite H2, !g_row_nth by (fold n; lia). rewrite <- !cis_add, Cdiv_cis.
    repeat (rewrite <- cis_opp || rewrite <- cis_add). f_equal. ring.
Qed.

(** Upper block of the correction with an arbitrary real-space prefactor. *)
Definition dip_with (f : R) (i j a b : nat) : C :=
  let v := born_contract born (fun i j a b =>
      Csub (recip_dipole cell atom_r diel dd (qnorm q) i j a b)
           (Cscal f (Csum (combine (dd_cells dd) (dd_H dd)) (fun ch =>
             Cscal (snd ch (hidx n i + j)%nat a b) (cis (2 * PI * dot (qnorm q) (zvec (fst ch)))))))) i j a b in
  if Nat.eqb i j then Csub v (dd_q0 dd i a b) else v.

Lemma dip_with_py i j a b : (i <= j)%nat -> (j < n)%nat -> (a < 3)%nat -> (b < 3)%nat ->
  dip_with (real_factor (dd_lambda dd) diel) i j a b
  = dipole_correction cell atom_r born diel dd q (3 * i + a) (3 * j + b).
Proof.
  intros Hij Hj Ha Hb. unfold dipole_correction, dip_with. cbv zeta. fold n.
  rewrite !div3_at, !mod3_at by assumption.
  assert (E : forall m m', (forall a b, m i j a b = m' i j a b) -> born_contract born m i j a b = born_contract born m' i j a b).
  { intros m m' H. unfold born_contract. apply Csum_ext. intros a' _. apply Csum_ext. intros b' _. rewrite H. reflexivity. }
  assert (E1 : forall a b, Csub (recip_dipole cell atom_r diel dd (qnorm q) i j a b)
           (Cscal (real_factor (dd_lambda dd) diel) (Csum (combine (dd_cells dd) (dd_H dd)) (fun ch =>
             Cscal (snd ch (hidx n i + j)%nat a b) (cis (2 * PI * dot (qnorm q) (zvec (fst ch)))))))
     = Csub (add_lower (recip_dipole cell atom_r diel dd (qnorm q)) i j a b)
         (add_lower (real_dipole diel n dd (qnorm q)) i j a b)).
  { intros a' b'. rewrite !add_lower_upper by exact Hij. unfold real_dipole.
    rewrite triu_fill_upper by assumption. reflexivity. }
  rewrite (E _ (fun i j a b => Csub (add_lower (recip_dipole cell atom_r diel dd (qnorm q)) i j a b)
         (add_lower (real_dipole diel n dd (qnorm q)) i j a b))) by exact E1.
  reflexivity.
Qed.

Theorem c_dipole_upper corr i j a b : (i <= j)%nat -> (j < n)%nat -> (a < 3)%nat -> (b < 3)%nat ->
  (i = j -> im (dd_q0 dd i a b) = 0) ->
  cget (c_dipole (vmem q) n (pack2 3 (mget cell)) recm (cd_atom_r X) (cd_born X) (cd_diel X)
         (cd_H X) (cd_cells X) (cd_ncells X) (cd_gph X) (cd_gcart X) (cd_ngvecs X) (cd_q0 X) (cd_lambda X) corr)
       (lin n i j a b)
  = Cconj (dip_with c_real_factor i j a b).
Proof.
  intros Hij Hj Ha Hb Hq0. apply cget_part. intros c Hc. unfold c_dipole. cbv zeta. fold qn.
  rewrite c_born_at by assumption.
  fold gphx gcx ngx.
  change (cd_lambda X) with (dd_lambda dd). fold fac.
  match goal with |- Sum idx3 (fun aa => Sum idx3 (fun bb => _ * _ * ?m _)) - _ = _ =>
    assert (EV : forall aa bb, (aa < 3)%nat -> (bb < 3)%nat -> m (2 * lin n i j aa bb + c)%nat
      = part c (Cconj (Csub (recip_dipole cell atom_r diel dd (qnorm q) i j aa bb)
           (Cscal c_real_factor (Csum (combine (dd_cells dd) (dd_H dd)) (fun ch =>
             Cscal (snd ch (hidx n i + j)%nat aa bb) (cis (2 * PI * dot (qnorm q) (zvec (fst ch)))))))))) end.
  { intros aa bb Haa Hbb. rewrite recip_part by assumption. rewrite real_part by assumption.
    rewrite Cconj_sub, part_sub. ring. }
  unfold dip_with. cbv zeta.
  assert (EB : Sum idx3 (fun aa => Sum idx3 (fun bb => cd_born X (9 * i + 3 * a + aa)%nat * cd_born X (9 * j + 3 * b + bb)%nat
      * part c (Cconj (Csub (recip_dipole cell atom_r diel dd (qnorm q) i j aa bb)
           (Cscal c_real_factor (Csum (combine (dd_cells dd) (dd_H dd)) (fun ch =>
             Cscal (snd ch (hidx n i + j)%nat aa bb) (cis (2 * PI * dot (qnorm q) (zvec (fst ch)))))))))))
    = part c (Cconj (born_contract born (fun i j a b =>
      Csub (recip_dipole cell atom_r diel dd (qnorm q) i j a b)
           (Cscal c_real_factor (Csum (combine (dd_cells dd) (dd_H dd)) (fun ch =>
             Cscal (snd ch (hidx n i + j)%nat a b) (cis (2 * PI * dot (qnorm q) (zvec (fst ch)))))))) i j a b))).
  { unfold born_contract. rewrite <- Csum_conj, part_sum. apply Sum_ext. intros aa Haa.
    rewrite <- Csum_conj, part_sum. apply Sum_ext. intros bb Hbb. rewrite Cconj_scal, part_scal.
    assert (aa < 3)%nat by (destruct Haa as [<-|[<-|[<-|[]]]]; lia).
    assert (bb < 3)%nat by (destruct Hbb as [<-|[<-|[<-|[]]]]; lia).
    f_equal. unfold X. cbn [marshal_dip cd_born]. fold born.
    rewrite (pack3_at 3 3 (fun i => mget (born i)) i a aa) by (assumption || ring).
    rewrite (pack3_at 3 3 (fun i => mget (born i)) j b bb) by (assumption || ring). reflexivity. }
  match goal with |- ?l - ?r = _ => replace l with (part c (Cconj (born_contract born (fun i j a b =>
      Csub (recip_dipole cell atom_r diel dd (qnorm q) i j a b)
           (Cscal c_real_factor (Csum (combine (dd_cells dd) (dd_H dd)) (fun ch =>
             Cscal (snd ch (hidx n i + j)%nat a b) (cis (2 * PI * dot (qnorm q) (zvec (fst ch)))))))) i j a b))) end.
  2:{ rewrite <- EB. apply Sum_ext. intros aa Haa. apply Sum_ext. intros bb Hbb.
      assert (aa < 3)%nat by (destruct Haa as [<-|[<-|[<-|[]]]]; lia).
      assert (bb < 3)%nat by (destruct Hbb as [<-|[<-|[<-|[]]]]; lia).
      f_equal. symmetry. apply EV; assumption. }
  destruct (Nat.eqb_spec i j) as [E|E].
  - rewrite Cconj_sub, part_sub. f_equal.
    assert (EQ : cd_q0 X (18 * i + 6 * a + 2 * b + c)%nat = part c (dd_q0 dd i a b)).
    { unfold X. cbn [marshal_dip cd_q0]. fold dd.
      replace (18 * i + 6 * a + 2 * b + c)%nat with (2 * (9 * i + 3 * a + b) + c)%nat by ring.
      assert (P : pack3 3 3 (dd_q0 dd) (9 * i + 3 * a + b) = dd_q0 dd i a b)
        by (apply pack3_at; (assumption || ring)).
      destruct c as [|[|c]]; [| |lia].
      - rewrite Nat.add_0_r, cpack_re, P. reflexivity.
      - rewrite cpack_im, P. reflexivity. }
    rewrite EQ. unfold part. destruct (Nat.eqb c 0); [reflexivity|]. cbn [Cconj im]. rewrite (Hq0 E). ring.
  - ring.
Qed.

(** ** gamma correction *)
Lemma c_gamma_upper qd corr i j a b : (i <= j)%nat -> (j < n)%nat -> (a < 3)%nat -> (b < 3)%nat ->
  corr (2 * lin n i j a b + 1)%nat = 0 ->
  cget (c_gamma (vmem qd) n (pack2 3 (mget cell)) recm (cd_born X) (cd_diel X) corr) (lin n i j a b)
  = Cconj (gamma_correction cell born diel qd (3 * i + a) (3 * j + b)).
Proof.
  intros Hij Hj Ha Hb Him. unfold c_gamma, gamma_correction. rewrite vec3_vmem, c_is_gamma_ok.
  pose proof (lin_lt n i j a b ltac:(lia) Hj Ha Hb) as HL.
  destruct (is_gamma qd).
  { apply cget_part. intros c Hc. unfold memset0.
    destruct (Nat.ltb_spec (2 * lin n i j a b + c) (2 * 9 * n * n)); [|nia].
    unfold part. destruct (Nat.eqb c 0); cbn; lra. }
  cbv zeta. etransitivity; [apply (set_upper n); assumption|].
  rewrite Him. rewrite !div3_at, !mod3_at by assumption.
  assert (QC : forall a, (a < 3)%nat -> for_ 0 3 (fun b s => s + recm (3 * b + a)%nat * vmem qd b) 0
      = comp (vmul qd (reciprocal_cell cell)) a).
  { intros a' Ha'. rewrite for3. unfold recm.
    rewrite (pack2_at 3 _ 0 a') by lia. rewrite (pack2_at 3 _ 1 a') by lia. rewrite (pack2_at 3 _ 2 a') by lia.
    destruct qd as [[x y] z]. destruct (reciprocal_cell cell) as [[[[? ?] ?] [[? ?] ?]] [[? ?] ?]].
    destruct a' as [|[|[|a']]]; try lia; cbn; ring. }
  set (qv := vmul qd (reciprocal_cell cell)) in *.
  set (qcm := fun a => for_ 0 3 (fun b s => s + recm (3 * b + a)%nat * vmem qd b) 0) in *.
  assert (QB : forall i a, (i < n)%nat -> (a < 3)%nat ->
     for_ 0 n (fun i => for_ 0 3 (fun a => for_ 0 3 (fun b m =>
               madd m (3 * i + a) (cd_born X (9 * i + 3 * a + b)%nat * qcm b)))) (fun _ => 0) (3 * i + a)%nat
     = Sum idx3 (fun b => mget (born i) a b * comp qv b)).
  { intros i' a' Hi' Ha'.
    match goal with |- for_ 0 n ?B _ _ = _ => assert (AD : adds (for_ 0 n B)
       (fun x => Sum (seq 0 (n - 0)) (fun i => Sum (seq 0 (3 - 0)) (fun a => Sum (seq 0 (3 - 0)) (fun b =>
          delta (3 * i + a) (cd_born X (9 * i + 3 * a + b)%nat * qcm b) x))))) end.
    { apply for_adds. intros i1 _. apply for_adds. intros a1 _. apply for_adds. intros b1 _. apply adds_madd. }
    rewrite AD, Rplus_0_l.
    assert (Z : forall i1 a1 b1, (3 * i1 + a1 <> 3 * i' + a')%nat ->
      delta (3 * i1 + a1) (cd_born X (9 * i1 + 3 * a1 + b1)%nat * qcm b1) (3 * i' + a')%nat = 0).
    { intros i1 a1 b1 Hne. unfold delta. destruct (Nat.eqb_spec (3 * i' + a') (3 * i1 + a1)); [lia|reflexivity]. }
    rewrite (Sum_single _ _ i'); [|apply seq_NoDup|apply in_seq; lia|].
    2:{ intros i1 H1 Hne. apply Sum_zero_ext. intros a1 H2. apply in_seq in H2. apply Sum_zero_ext. intros b1 _. apply Z. lia. }
    rewrite (Sum_single _ _ a'); [|apply seq_NoDup|apply in_seq; lia|].
    2:{ intros a1 H2 Hne. apply Sum_zero_ext. intros b1 _. apply Z. lia. }
    rewrite seq3. apply Sum_ext. intros b1 Hb1.
    assert (b1 < 3)%nat by (destruct Hb1 as [<-|[<-|[<-|[]]]]; lia).
    unfold delta. rewrite Nat.eqb_refl. unfold qcm. rewrite QC by assumption. f_equal.
    unfold X. cbn [marshal_dip cd_born]. fold born.
    apply (pack3_at 3 3 (fun i => mget (born i)) i' a' b1); (assumption || ring). }
  rewrite !QB by (assumption || lia).
  assert (DEN : for_ 0 3 (fun a => for_ 0 3 (fun b s => s + cd_diel X (3 * a + b)%nat * qcm a * qcm b)) 0
     = Sum idx3 (fun a => Sum idx3 (fun b => mget diel a b * comp qv a * comp qv b))).
  { transitivity (Sum idx3 (fun a => Sum idx3 (fun b => cd_diel X (3 * a + b)%nat * qcm a * qcm b))).
    { unfold for_, Sum, idx3. cbn. ring. }
    apply Sum_ext. intros a' Ha'. apply Sum_ext. intros b' Hb'.
    assert (a' < 3)%nat by (destruct Ha' as [<-|[<-|[<-|[]]]]; lia).
    assert (b' < 3)%nat by (destruct Hb' as [<-|[<-|[<-|[]]]]; lia).
    unfold qcm. rewrite !QC by assumption. f_equal. f_equal.
    unfold X. cbn [marshal_dip cd_diel]. apply pack2_at; [assumption|ring]. }
  unfold qcm in DEN |- *. cbv beta in DEN |- *. rewrite DEN, cmat9, c_cell_volume_ok. apply C_eq; cbn [re im Cconj RtoC]; ring.
Qed.
End Dip.
