(** Lemmas on the choice of origin. *)
From Coq Require Import FunctionalExtensionality.
From Verif Require Import Base Cpx Vec3 M_grid M_cell M_qpts M_sf M_dynmat M_dipole M_struct M_asr M_calc S_origin.
Open Scope R_scope.

Lemma moved_atoms_n : forall s d, M_dynmat.n_atoms (moved s d) = M_dynmat.n_atoms d.
Proof. intros. unfold M_dynmat.n_atoms, moved. cbn [f_atom_r]. apply map_length. Qed.

Lemma nth_moved : forall s l i, (i < length l)%nat -> nth i (map (fun r => vadd r s) l) vzero = vadd (nth i l vzero) s.
Proof.
  intros s l i H. rewrite (nth_indep _ vzero (vadd vzero s)) by (rewrite map_length; exact H).
  apply (map_nth (fun r => vadd r s)).
Qed.

Lemma image_dist_moved : forall s d nc i j m, (i < M_dynmat.n_atoms d)%nat -> (j < M_dynmat.n_atoms d)%nat ->
  image_dist (moved s d) nc i j m = image_dist d nc i j m.
Proof.
  intros s d nc i j m Hi Hj. unfold image_dist, sc_atom_cart, sc_vecs, moved. cbn [f_cell f_atom_r f_sc f_origins].
  rewrite !nth_moved by assumption.
  destruct (nth i (f_atom_r d) vzero) as [[a1 a2] a3], (nth j (f_atom_r d) vzero) as [[b1 b2] b3], s as [[s1 s2] s3].
  destruct (f_cell d) as [[[[c1 c2] c3] [[c4 c5] c6]] [[c7 c8] c9]].
  destruct (zvec (nth 0 (f_origins d) (0, 0, 0)%Z)) as [[z1 z2] z3], (zvec (nth nc (f_origins d) (0, 0, 0)%Z)) as [[y1 y2] y3].
  destruct (vmul (zvec m) _) as [[t1 t2] t3]. cbn.
  f_equal; [f_equal|]; ring.
Qed.

Lemma all_pairs_moved : forall s d i m, (i < M_dynmat.n_atoms d)%nat -> all_pairs (moved s d) i m = all_pairs d i m.
Proof.
  intros s d i m Hi. unfold all_pairs. rewrite moved_atoms_n. change (n_cells (moved s d)) with (n_cells d).
  rewrite !flat_map_concat_map. f_equal. apply map_ext. intros nc. apply map_ext_in. intros j Hj. apply in_seq in Hj.
  rewrite image_dist_moved by lia. reflexivity.
Qed.

Lemma fold_left_ext_in : forall (A B : Type) (f g : A -> B -> A) l a, (forall x b, In b l -> f x b = g x b) -> fold_left f l a = fold_left g l a.
Proof.
  intros A B f g l. induction l as [|b l IH]; intros a H; [reflexivity|]. cbn. rewrite H by (left; reflexivity).
  apply IH. intros x c Hc. apply H. right. exact Hc.
Qed.

Lemma sc_images_moved : forall s d n, sc_images (moved s d) n = sc_images d n.
Proof.
  intros s d n. unfold sc_images. rewrite moved_atoms_n. apply fold_left_ext_in. intros t i Hi. apply in_seq in Hi.
  apply fold_left_ext_in. intros t' [im m] _. unfold image_step. rewrite all_pairs_moved by lia. reflexivity.
Qed.

Lemma max_images_moved : forall s d t, max_images (moved s d) t = max_images d t.
Proof. intros. unfold max_images. rewrite moved_atoms_n. reflexivity. Qed.

Lemma dyn_mat_moved : forall s d sh t fcw q a b, dyn_mat (moved s d) sh t fcw q a b = dyn_mat d sh t fcw q a b.
Proof.
  intros. unfold dyn_mat. change (n_cells (moved s d)) with (n_cells d). f_equal. extensionality nc.
  unfold sc_phase_sum, sc_image_i. rewrite max_images_moved. reflexivity.
Qed.
Lemma dyn_mat_grad_moved : forall s d sh t fcw q, dyn_mat_grad (moved s d) sh t fcw q = dyn_mat_grad d sh t fcw q.
Proof.
  intros. extensionality a. extensionality b. extensionality l. unfold dyn_mat_grad. change (n_cells (moved s d)) with (n_cells d). f_equal. extensionality nc.
  unfold sc_image_i. rewrite max_images_moved. reflexivity.
Qed.

(** Dipole part *)
Lemma H_row_moved : forall erfc l2 cell ie s ar sh c, H_row erfc l2 cell ie (map (fun r => vadd r s) ar) sh c = H_row erfc l2 cell ie ar sh c.
Proof.
  intros. unfold H_row. rewrite map_length. cbv zeta. apply fold_left_ext_in. intros h i Hi. apply in_seq in Hi.
  apply fold_left_ext_in. intros h' j Hj. apply in_seq in Hj.
  rewrite !nth_moved by lia.
  assert (E : vsub (vmul (vadd (nth i ar vzero) s) cell) (vmul (vadd (nth j ar vzero) s) cell)
            = vsub (vmul (nth i ar vzero) cell) (vmul (nth j ar vzero) cell)).
  { destruct (nth i ar vzero) as [[a1 a2] a3], (nth j ar vzero) as [[b1 b2] b3], s as [[s1 s2] s3].
    destruct cell as [[[[c1 c2] c3] [[c4 c5] c6]] [[c7 c8] c9]]. cbn. f_equal; [f_equal|]; ring. }
  assert (E2 : vsub (vmul (vmul (vadd (nth i ar vzero) s) cell) ie) (vmul (vmul (vadd (nth j ar vzero) s) cell) ie)
            = vsub (vmul (vmul (nth i ar vzero) cell) ie) (vmul (vmul (nth j ar vzero) cell) ie)).
  { destruct (nth i ar vzero) as [[a1 a2] a3], (nth j ar vzero) as [[b1 b2] b3], s as [[s1 s2] s3].
    destruct cell as [[[[c1 c2] c3] [[c4 c5] c6]] [[c7 c8] c9]], ie as [[[[d1 d2] d3] [[d4 d5] d6]] [[d7 d8] d9]].
    cbn. f_equal; [f_equal|]; ring. }
  rewrite E, E2. reflexivity.
Qed.

Lemma Cdiv_common : forall u a b, Cnorm2 u = 1 -> Cdiv (Cmul u a) (Cmul u b) = Cdiv a b.
Proof.
  intros [u1 u2] [a1 a2] [b1 b2] H. unfold Cnorm2 in H. cbn [re im] in H.
  unfold Cdiv, Cinv. assert (E : Cnorm2 (Cmul (mkC u1 u2) (mkC b1 b2)) = Cnorm2 (mkC b1 b2)).
  { unfold Cnorm2, Cmul. cbn [re im]. transitivity ((u1 * u1 + u2 * u2) * (b1 * b1 + b2 * b2)); [ring|rewrite H; ring]. }
  rewrite E. unfold Cmul, Rdiv. cbn [re im]. generalize (/ Cnorm2 (mkC b1 b2)). intros w.
  f_equal; [transitivity ((u1 * u1 + u2 * u2) * (a1 * (b1 * w) - a2 * (- b2 * w)))|transitivity ((u1 * u1 + u2 * u2) * (a1 * (- b2 * w) + a2 * (b1 * w)))]; try ring; rewrite H; ring.
Qed.
Lemma Cdiv_zero_l : forall b, Cdiv Czero b = Czero.
Proof. intros [b1 b2]. unfold Cdiv, Cmul, Czero. cbn [re im]. f_equal; ring. Qed.
Lemma Cdiv_zero_r : forall a, Cdiv a Czero = Czero.
Proof. intros [b1 b2]. unfold Cdiv, Cinv, Cmul, Czero, Rdiv. cbn [re im]. f_equal; ring. Qed.

(** Same vector, phases with a common factor of modulus one *)
Definition same_row (g g' : V3 * list C) : Prop := fst g' = fst g /\ exists u, Cnorm2 u = 1 /\ snd g' = map (Cmul u) (snd g).

Lemma cis_dot_add : forall g r s, cis (2 * PI * dot g (vadd r s)) = Cmul (cis (2 * PI * dot g s)) (cis (2 * PI * dot g r)).
Proof.
  intros g r s. rewrite <- cis_add. f_equal. destruct g as [[a b] c], r as [[x y] z], s as [[u v] w]. cbn. ring.
Qed.
Lemma g_row_moved : forall rc s ar g, same_row (g_row rc ar g) (g_row rc (map (fun r => vadd r s) ar) g).
Proof.
  intros. split; [reflexivity|]. exists (cis (2 * PI * dot (zvec g) s)). split; [apply Cnorm2_cis|].
  cbn [snd g_row]. rewrite !map_map. apply map_ext. intros r. apply cis_dot_add.
Qed.
Lemma nth_factor : forall u l i, nth i (map (Cmul u) l) Czero = Cmul u (nth i l Czero).
Proof.
  intros u l i. replace Czero with (Cmul u Czero) at 1 by (unfold Cmul, Czero; cbn; f_equal; ring).
  apply map_nth.
Qed.
Lemma Csum_rel : forall (A : Type) (P : A -> A -> Prop) (f g : A -> C) l l', Forall2 P l l' -> (forall x y, P x y -> f x = g y) -> Csum l f = Csum l' g.
Proof.
  intros A P f g l l' H E. induction H as [|x y l l' h H IH]; [reflexivity|]. rewrite !Csum_cons, IH, (E x y h). reflexivity.
Qed.
Lemma recip_q0_tmp_rel : forall diel l2 gs gs', Forall2 same_row gs gs' -> recip_q0_tmp diel l2 gs' = recip_q0_tmp diel l2 gs.
Proof.
  intros diel l2 gs gs' H. extensionality i. extensionality j. extensionality a. extensionality b.
  unfold recip_q0_tmp. destruct (Nat.ltb j i); [reflexivity|]. symmetry. apply (Csum_rel _ same_row); [exact H|].
  intros x y [E [u [U F]]]. rewrite E, F, !nth_factor, Cdiv_common by exact U. reflexivity.
Qed.
Lemma rows_rel : forall rc s ar l, Forall2 same_row (map (g_row rc ar) l) (map (g_row rc (map (fun r => vadd r s) ar)) l).
Proof. intros. induction l; constructor; [apply g_row_moved|assumption]. Qed.
Lemma recip_shells_moved : forall diel rc l2 s ar todo f acc,
  let r := recip_shells diel rc l2 ar todo f acc in let r' := recip_shells diel rc l2 (map (fun r => vadd r s) ar) todo f acc in
  Forall2 same_row (fst r) (fst r') /\ snd r' = snd r.
Proof.
  intros diel rc l2 s ar todo. induction todo as [|n todo IH]; intros f acc; cbv zeta; [split; [constructor|reflexivity]|].
  cbn [recip_shells]. cbv zeta. rewrite map_length, (recip_q0_tmp_rel _ _ _ _ (rows_rel rc s ar (shell n))).
  destruct (Rltb _ _); [|split; [constructor|reflexivity]].
  match goal with |- context [recip_shells diel rc l2 ar todo ?f' ?acc'] => specialize (IH f' acc');
    destruct (recip_shells diel rc l2 ar todo f' acc') as [l1 a1], (recip_shells diel rc l2 (map (fun r => vadd r s) ar) todo f' acc') as [l2' a2] end.
  cbn [fst snd] in *. destruct IH as [A B]. split; [apply Forall2_app; [apply rows_rel|exact A]|exact B].
Qed.

(** The data kept for the dipole part *)
Definition same_dip (dd dd' : dipdata) : Prop := dd_lambda dd' = dd_lambda dd /\ dd_H dd' = dd_H dd /\ dd_cells dd' = dd_cells dd /\ dd_q0 dd' = dd_q0 dd /\
  Forall2 same_row (combine (dd_gcart dd) (dd_gph dd)) (combine (dd_gcart dd') (dd_gph dd')).
Lemma combine_split : forall (A B : Type) (l : list (A * B)), combine (map fst l) (map snd l) = l.
Proof. intros A B l. induction l as [|[a b] l IH]; [reflexivity|]. cbn. rewrite IH. reflexivity. Qed.
Lemma same_row_refl : forall g, same_row g g.
Proof.
  intros [v l]. split; [reflexivity|]. exists Cone. split; [unfold Cnorm2, Cone; cbn; ring|]. cbn [snd]. rewrite <- (map_id l) at 1. apply map_ext.
  intros [x y]. unfold Cmul, Cone. cbn. f_equal; ring.
Qed.
Lemma dipole_init_moved : forall erfc cell s ar born diel p, same_dip (dipole_init erfc cell ar born diel p) (dipole_init erfc cell (map (fun r => vadd r s) ar) born diel p).
Proof.
  intros. unfold dipole_init. rewrite map_length. cbv zeta.
  replace (H_row erfc (upper_lambda cell diel (length ar) p ^ 2) cell (inv3 diel) (map (fun r => vadd r s) ar))
    with (H_row erfc (upper_lambda cell diel (length ar) p ^ 2) cell (inv3 diel) ar)
    by (extensionality sh; extensionality c; symmetry; apply H_row_moved).
  destruct (real_shells _ _ _ _) as [cells H].
  pose proof (recip_shells_moved diel (reciprocal_cell cell) (upper_lambda cell diel (length ar) p ^ 2) s ar (seq 1 49) 0 (fun _ _ _ _ => Czero)) as E. cbv zeta in E.
  destruct (recip_shells diel (reciprocal_cell cell) _ ar _ _ _) as [gs r].
  destruct (recip_shells diel (reciprocal_cell cell) _ (map _ ar) _ _ _) as [gs' r'].
  cbn [fst snd] in E. destruct E as [E ->].
  unfold same_dip. cbn [dd_lambda dd_H dd_cells dd_q0 dd_gcart dd_gph]. rewrite !combine_split.
  repeat split. constructor; [apply same_row_refl|exact E].
Qed.

Lemma dipole_correction_moved : forall cell s ar born diel dd dd' q, same_dip dd dd' ->
  (forall g, In g (combine (dd_gcart dd) (dd_gph dd)) -> length (snd g) = length ar) ->
  dipole_correction cell (map (fun r => vadd r s) ar) born diel dd' q = dipole_correction cell ar born diel dd q.
Proof.
  intros cell s ar born diel dd dd' q (E1 & E2 & E3 & E4 & E5) L. extensionality x. extensionality y.
  unfold dipole_correction. cbv zeta. rewrite map_length, E4.
  assert (A : recip_dipole cell (map (fun r => vadd r s) ar) diel dd' (qnorm q) = recip_dipole cell ar diel dd (qnorm q)).
  { extensionality i. extensionality j. extensionality a. extensionality b. unfold recip_dipole. cbv zeta. rewrite E1.
    destruct (Nat.ltb j i); [reflexivity|]. f_equal. symmetry.
    assert (G : Forall2 (fun g g' => same_row g g' /\ length (snd g) = length ar) (used_g dd (qnorm q)) (used_g dd' (qnorm q))).
    { assert (G0 : Forall2 (fun g g' => same_row g g' /\ length (snd g) = length ar) (combine (dd_gcart dd) (dd_gph dd)) (combine (dd_gcart dd') (dd_gph dd'))).
      { clear - E5 L. induction E5 as [|g g' l l' h H IH]; constructor; [split; [exact h|apply L; left; reflexivity]|].
        apply IH. intros k K. apply L. right. exact K. }
      unfold used_g. cbv zeta. destruct (is_gamma (qnorm q)); [|exact G0]. inversion G0; [constructor|assumption]. }
    apply (Csum_rel _ _ _ _ _ _ G). intros g g' [[F [u [U V]]] N]. rewrite F, V, !nth_factor. f_equal.
    destruct (Nat.lt_ge_cases i (length ar)) as [Hi|Hi].
    - destruct (Nat.lt_ge_cases j (length ar)) as [Hj|Hj].
      + rewrite !nth_moved, !cis_dot_add by assumption.
        assert (M : forall u w z p, Cmul (Cmul u z) (Cmul w p) = Cmul (Cmul u w) (Cmul z p)).
        { intros. unfold Cmul. cbn [re im]. f_equal; ring. }
        rewrite (M u _ (nth i (snd g) Czero)), (M u _ (nth j (snd g) Czero)). symmetry. apply Cdiv_common. unfold Cnorm2, Cmul. cbn [re im]. pose proof (Cnorm2_cis (2 * PI * dot (qnorm q) s)) as W. unfold Cnorm2 in W, U.
        transitivity ((re u * re u + im u * im u) * (re (cis (2 * PI * dot (qnorm q) s)) * re (cis (2 * PI * dot (qnorm q) s)) + im (cis (2 * PI * dot (qnorm q) s)) * im (cis (2 * PI * dot (qnorm q) s)))); [ring|].
        rewrite U, W. ring.
      + rewrite (@nth_overflow _ (snd g) j Czero) by (rewrite N; exact Hj).
        assert (Z : forall p, Cmul Czero p = Czero) by (intros; unfold Cmul, Czero; cbn; f_equal; ring).
        assert (Z' : forall p, Cmul p Czero = Czero) by (intros; unfold Cmul, Czero; cbn; f_equal; ring).
        rewrite Z', !Z, !Cdiv_zero_r. reflexivity.
    - rewrite (@nth_overflow _ (snd g) i Czero) by (rewrite N; exact Hi).
      assert (Z : forall p, Cmul Czero p = Czero) by (intros; unfold Cmul, Czero; cbn; f_equal; ring).
      assert (Z' : forall p, Cmul p Czero = Czero) by (intros; unfold Cmul, Czero; cbn; f_equal; ring).
      rewrite Z', !Z, !Cdiv_zero_l. reflexivity. }
  rewrite A.
  assert (B : real_dipole diel (length ar) dd' (qnorm q) = real_dipole diel (length ar) dd (qnorm q)).
  { unfold real_dipole. rewrite E1, E2, E3. reflexivity. }
  rewrite B. reflexivity.
Qed.

(** Every row of phases has one entry for each atom. *)
Lemma shells_len : forall diel rc l2 ar todo f acc g, In g (fst (recip_shells diel rc l2 ar todo f acc)) -> length (snd g) = length ar.
Proof.
  intros diel rc l2 ar todo. induction todo as [|n todo IH]; intros f acc g; [intros []|]. cbn [recip_shells]. cbv zeta.
  destruct (Rltb _ _); [|intros []].
  match goal with |- context [recip_shells diel rc l2 ar todo ?f' ?acc'] => specialize (IH f' acc' g); destruct (recip_shells diel rc l2 ar todo f' acc') as [l a] end.
  cbn [fst] in *. intros H. apply in_app_iff in H. destruct H as [H|H]; [|exact (IH H)].
  apply in_map_iff in H. destruct H as [c [<- _]]. apply map_length.
Qed.
Lemma init_len : forall erfc cell ar born diel p g,
  In g (combine (dd_gcart (dipole_init erfc cell ar born diel p)) (dd_gph (dipole_init erfc cell ar born diel p))) -> length (snd g) = length ar.
Proof.
  intros erfc cell ar born diel p g. unfold dipole_init. cbv zeta. destruct (real_shells _ _ _ _) as [cells H].
  pose proof (shells_len diel (reciprocal_cell cell) (upper_lambda cell diel (length ar) p ^ 2) ar (seq 1 49) 0 (fun _ _ _ _ => Czero) g) as E.
  destruct (recip_shells _ _ _ _ _ _ _) as [gs r]. cbn [dd_gcart dd_gph fst] in *. rewrite combine_split.
  intros [<-|K]; [apply repeat_length|exact (E K)].
Qed.

Section Calc.
Variables (erfc : R -> R) (reigh : real_eigh) (ceigh : complex_eigh) (argsort : list R -> list nat) (chunk : nat).

Lemma full_moved : forall s d t fcw dip dip' rec born diel q dir,
  match dip, dip' with
  | None, None => True
  | Some (bo, di, dd), Some (bo', di', dd') => bo' = bo /\ di' = di /\ same_dip dd dd' /\
      (forall g, In g (combine (dd_gcart dd) (dd_gph dd)) -> length (snd g) = length (f_atom_r d))
  | _, _ => False
  end ->
  full_dyn_mat (moved s d) t fcw dip' rec born diel q dir = full_dyn_mat d t fcw dip rec born diel q dir.
Proof.
  intros s d t fcw dip dip' rec born diel q dir H. extensionality a. extensionality b. unfold full_dyn_mat. cbv zeta. rewrite dyn_mat_moved.
  destruct dip as [[[bo di] dd]|], dip' as [[[bo' di'] dd']|]; try contradiction; [|reflexivity].
  destruct H as (-> & -> & S & L).
  change (f_cell (moved s d)) with (f_cell d). change (f_atom_r (moved s d)) with (map (fun r => vadd r s) (f_atom_r d)).
  rewrite (dipole_correction_moved (f_cell d) s (f_atom_r d) bo di dd dd' q S L). reflexivity.
Qed.

Lemma call_moved : forall s junk o d mass born diel,
  snd (call erfc reigh ceigh argsort chunk junk o (new_fc (moved s d) mass born diel))
  = snd (call erfc reigh ceigh argsort chunk junk o (new_fc d mass born diel)).
Proof.
  intros s junk o d mass born diel. unfold call.
  change (o_d (new_fc (moved s d) mass born diel)) with (moved s d). change (o_d (new_fc d mass born diel)) with d. cbv zeta.
  rewrite moved_atoms_n. destruct (negb (weights_ok o)); [reflexivity|].
  change (the_q_dirs (new_fc (moved s d) mass born diel) o) with (the_q_dirs (new_fc d mass born diel) o).
  destruct (the_q_dirs (new_fc d mass born diel) o) as [qd|e]; [|reflexivity].
  assert (A : asr_of reigh argsort chunk (new_fc (moved s d) mass born diel) o = asr_of reigh argsort chunk (new_fc d mass born diel) o).
  { unfold asr_of. cbn [o_asr o_d new_fc]. destruct (p_asr o) as [[]|]; try reflexivity.
    unfold enforce_realspace_asr. cbv zeta. rewrite moved_atoms_n. reflexivity. }
  rewrite A. destruct (asr_of reigh argsort chunk (new_fc d mass born diel) o) as [[[kept fc] warn]|e]; [|reflexivity].
  cbn [snd]. cbn [o_mass o_born o_diel new_fc].
  assert (I : images_of (new_fc (moved s d) mass born diel) = images_of (new_fc d mass born diel)).
  { unfold images_of. cbn [o_images o_d new_fc]. apply sc_images_moved. }
  rewrite I. set (t := images_of (new_fc d mass born diel)). set (fcw := fc_img_weighted t junk fc).
  assert (F : forall rec bo q dir,
    full_dyn_mat (moved s d) t fcw (match born with Some b => match dipole_of erfc (new_fc (moved s d) mass born diel) o with Some (_, dat) => if p_dipole o then Some (b, diel, dat) else None | None => None end | None => None end) rec bo diel q dir
    = full_dyn_mat d t fcw (match born with Some b => match dipole_of erfc (new_fc d mass born diel) o with Some (_, dat) => if p_dipole o then Some (b, diel, dat) else None | None => None end | None => None end) rec bo diel q dir).
  { intros rec bo q dir. apply full_moved. destruct born as [b|]; [|exact Logic.I].
    unfold dipole_of. cbn [o_born o_dip o_d o_diel new_fc]. destruct (p_dipole o); [|exact Logic.I].
    split; [reflexivity|]. split; [reflexivity|]. split; [apply dipole_init_moved|]. intros g. apply init_len. }
  assert (E : enforce_reciprocal_asr ceigh argsort (3 * M_dynmat.n_atoms d) (full_dyn_mat (moved s d) t fcw (match born with Some b => match dipole_of erfc (new_fc (moved s d) mass born diel) o with Some (_, dat) => if p_dipole o then Some (b, diel, dat) else None | None => None end | None => None end) None None diel vzero None)
    = enforce_reciprocal_asr ceigh argsort (3 * M_dynmat.n_atoms d) (full_dyn_mat d t fcw (match born with Some b => match dipole_of erfc (new_fc d mass born diel) o with Some (_, dat) => if p_dipole o then Some (b, diel, dat) else None | None => None end | None => None end) None None diel vzero None)).
  { rewrite F. reflexivity. }
  rewrite E.
  set (rec := match p_asr o with Some Realspace => None | Some Reciprocal => _ | None => None end).
  set (dip' := match born with Some b => match dipole_of erfc (new_fc (moved s d) mass born diel) o with Some (_, dat) => _ | None => None end | None => None end) in *.
  set (dip := match born with Some b => match dipole_of erfc (new_fc d mass born diel) o with Some (_, dat) => _ | None => None end | None => None end) in *.
  change (use_splitting (new_fc (moved s d) mass born diel) o) with (use_splitting (new_fc d mass born diel) o).
  change (the_qpts (new_fc (moved s d) mass born diel) o) with (the_qpts (new_fc d mass born diel) o).
  change (the_weights (new_fc (moved s d) mass born diel) o) with (the_weights (new_fc d mass born diel) o).
  assert (K : (fun q dir => solve ceigh (3 * M_dynmat.n_atoms d) mass (full_dyn_mat (moved s d) t fcw dip' rec born diel q dir) (if p_grads o then Some (dyn_mat_grad (moved s d) 2 t fcw q) else None))
    = (fun q dir => solve ceigh (3 * M_dynmat.n_atoms d) mass (full_dyn_mat d t fcw dip rec born diel q dir) (if p_grads o then Some (dyn_mat_grad d 2 t fcw q) else None))).
  { extensionality q. extensionality dir. rewrite F, dyn_mat_grad_moved. reflexivity. }
  rewrite K. reflexivity.
Qed.
End Calc.

(** Structure factors *)
Lemma exp_factor_moved : forall s x dw q a, exp_factor (moved_atoms s x) dw q a = Cmul (cis (2 * PI * dot q s)) (exp_factor x dw q a).
Proof.
  intros. unfold exp_factor, moved_atoms, Qvec. cbn [pos recip]. rewrite cis_dot_add. destruct dw as [w|]; [|reflexivity].
  unfold Cscal, Cmul. cbn [re im]. f_equal; ring.
Qed.
Lemma sf_term_moved : forall s e x sl dw qpt q m, sf_term e (moved_atoms s x) sl dw qpt q m = Cmul (cis (2 * PI * dot (qpt q) s)) (sf_term e x sl dw qpt q m).
Proof.
  intros. unfold sf_term. rewrite <- Csum_mul. apply Csum_ext. intros a _. rewrite exp_factor_moved.
  change (evec_dot_q e (moved_atoms s x) qpt q m a) with (evec_dot_q e x qpt q m a). change (mass (moved_atoms s x) a) with (mass x a).
  unfold Cscal, Cmul. cbn [re im]. f_equal; ring.
Qed.
Lemma sf_mode_moved : forall s e x sl dw qpt q m, sf_mode e (moved_atoms s x) sl dw qpt q m = sf_mode e x sl dw qpt q m.
Proof.
  intros. unfold sf_mode. cbv zeta. rewrite sf_term_moved. set (t := sf_term e x sl dw qpt q m).
  replace (Cmul (Cmul (cis (2 * PI * dot (qpt q) s)) t) (Cconj (Cmul (cis (2 * PI * dot (qpt q) s)) t))) with (Cmul t (Cconj t)); [reflexivity|].
  pose proof (Cnorm2_cis (2 * PI * dot (qpt q) s)) as W. unfold Cnorm2 in W. destruct (cis (2 * PI * dot (qpt q) s)) as [u v], t as [a b]. cbn [re im] in W.
  unfold Cmul, Cconj. cbn [re im]. f_equal; [transitivity ((u * u + v * v) * (a * a - b * - b)); [rewrite W; ring|ring]|ring].
Qed.
Lemma sf_moved : forall s e x sl dw qpt, calculate_structure_factor e (moved_atoms s x) sl dw qpt = calculate_structure_factor e x sl dw qpt.
Proof.
  intros. unfold calculate_structure_factor.
  replace (sf_mode e (moved_atoms s x) sl dw qpt) with (sf_mode e x sl dw qpt) by (extensionality q; extensionality m; symmetry; apply sf_mode_moved).
  reflexivity.
Qed.
