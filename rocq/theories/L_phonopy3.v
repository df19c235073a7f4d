(** Lemmas for C68-C71: units, file formats, BORN files and FORCE_CONSTANTS files. *)
From Coq Require Import String Ascii.
From Verif Require Import Base Vec3 M_grid M_qpts M_dynmat M_dipole M_struct M_phonopy S_phonopy L_conv2 L_phonopy2.
Open Scope R_scope.

(** ** Units *)
Lemma dipole_of_read N tol k f fmt name text h5 born r nac diel zs : read_interpolation_data N tol k f fmt name text h5 born = Ok r ->
  dipole_data f born = Ok (nac, diel, zs) ->
  r_cell r = mscal (k_len k) (s_lattice f) /\ r_born r = option_map (map (mscal (k_born k))) zs /\
  r_diel r = match zs, diel, nac with Some _, Some d, Some c => Some (mscal (k_diel k) (mscal (/ c) d)) | _, _, _ => None end.
Proof.
  unfold read_interpolation_data. destruct (idx_in_pcell (s_points f)); [|discriminate]. destruct (idx_in_pcell _) as [idx|]; [|discriminate].
  destruct (the_force_constants _ _ _ _ _); [|discriminate]. intros H1 H2. rewrite H2 in H1. destruct (negb _); [discriminate|]. destruct (convert_fc_phases _ _ _ _ _ _ _ _ _) as [[out org]|]; [|discriminate].
  injection H1 as <-. repeat split.
Qed.
Lemma det_mscal k m : det3 (mscal k m) = k * k * k * det3 m.
Proof. destruct m as [[[[? ?] ?] [[? ?] ?]] [[? ?] ?]]. cbn. ring. Qed.
Lemma nth_map_mscal k l i : nth i (map (mscal k) l) ((0,0,0),(0,0,0),(0,0,0)) = mscal k (nth i l ((0,0,0),(0,0,0),(0,0,0))).
Proof. assert (E : mscal k ((0,0,0),(0,0,0),(0,0,0)) = ((0,0,0),(0,0,0),(0,0,0))) by (cbn; rewrite !Rmult_0_r; reflexivity). rewrite <- E at 1. apply map_nth. Qed.
Lemma comp_mscal k q z a : comp (vmul q (mscal k z)) a = k * comp (vmul q z) a.
Proof. destruct q as [[? ?] ?], z as [[[[? ?] ?] [[? ?] ?]] [[? ?] ?]]. destruct a as [|[|]]; cbn; ring. Qed.
Lemma quad_mscal k q e : dot q (mulv (mscal k e) q) = k * dot q (mulv e q).
Proof. destruct q as [[? ?] ?], e as [[[[? ?] ?] [[? ?] ?]] [[? ?] ?]]. cbn. ring. Qed.
Theorem nac_units N tol k u f fmt name text h5 born r c eps zs : conversion u k -> c <> 0 -> det3 (s_lattice f) <> 0 ->
  read_interpolation_data N tol k f fmt name text h5 born = Ok r -> dipole_data f born = Ok (Some c, Some eps, Some zs) ->
  exists zs' eps', r_born r = Some zs' /\ r_diel r = Some eps' /\ length zs' = length zs /\
  forall q i j a b, let z l i := nth i l ((0,0,0),(0,0,0),(0,0,0)) in
    dot q (mulv eps q) <> 0 ->
    nac_term (det3 (r_cell r)) q (z zs' i) (z zs' j) eps' a b * (o_born u * o_born u / (o_len u * o_len u * o_len u * o_diel u))
    = c * nac_term (det3 (s_lattice f)) q (z zs i) (z zs j) eps a b * u_fc u.
Proof.
  intros [O1 [O2 [O3 [O4 [O5 [O6 [O7 [O8 [K1 [K2 [K3 [K4 K5]]]]]]]]]]]] Hc Hdet HR HD. destruct (dipole_of_read _ _ _ _ _ _ _ _ _ _ _ _ _ HR HD) as [E1 [E2 E3]].
  cbn [option_map] in E2. eexists _, _. split; [exact E2|]. split; [exact E3|]. split; [apply map_length|].
  intros q i j a b z Hq. unfold z. rewrite !nth_map_mscal. unfold nac_term. rewrite E1, det_mscal, !comp_mscal, !quad_mscal, K1, K4, K5.
  set (D := dot q (mulv eps q)) in *. set (V := det3 (s_lattice f)) in *. field. repeat split; assumption.
Qed.

(** ** File formats *)
Lemma chars_app s t : chars (s ++ t) = (chars s ++ chars t)%list.
Proof. induction s; [reflexivity|]. cbn. rewrite IHs. reflexivity. Qed.
Lemma unchars_chars s : unchars (chars s) = s.
Proof. induction s; [reflexivity|]. cbn. rewrite IHs. reflexivity. Qed.
Lemma until_app a l r : ~ In a l -> until a (l ++ a :: r) = Some l.
Proof.
  induction l as [|x l IH]; intros H; cbn [app until].
  - destruct (Ascii.eqb_spec a a); [reflexivity|congruence].
  - destruct (Ascii.eqb_spec x a) as [->|]; [exfalso; apply H; left; reflexivity|]. rewrite IH; [reflexivity|]. intros Hi. apply H. right. exact Hi.
Qed.
Lemma until_none a l : ~ In a l -> until a l = None.
Proof. induction l as [|x l IH]; intros H; cbn [until]; [reflexivity|]. destruct (Ascii.eqb_spec x a) as [->|]; [exfalso; apply H; left; reflexivity|]. rewrite IH; [reflexivity|]. intros Hi. apply H. right. exact Hi. Qed.
Lemma extension_spec x base ext : x <> "."%char -> ~ In "/"%char (x :: chars base) -> ~ In "."%char (chars ext) -> ~ In "/"%char (chars ext) ->
  extension (String x base ++ "." ++ ext) = ext.
Proof.
  intros Hx H1 H2 H3. unfold extension. cbn [append]. rewrite <- (unchars_chars ext) at 2. cbn [chars]. rewrite chars_app. cbn [chars append].
  set (l := x :: (chars base ++ "."%char :: chars ext)%list).
  assert (B : basename l = l).
  { unfold basename. rewrite until_none; [apply rev_involutive|]. rewrite <- in_rev. unfold l. intros [E|Hi]; [apply H1; left; exact E|].
    apply in_app_or in Hi. destruct Hi as [Hi|[Hi|Hi]]; [apply H1; right; exact Hi|discriminate|exact (H3 Hi)]. }
  rewrite B. assert (D : drop_dots l = l). { unfold l. cbn [drop_dots]. destruct (Ascii.eqb_spec x "."%char); [contradiction|reflexivity]. }
  rewrite D. assert (E : rev l = (rev (chars ext) ++ "."%char :: rev (chars base) ++ [x])%list).
  { unfold l. cbn [rev]. rewrite rev_app_distr. cbn [rev]. rewrite <- !app_assoc. reflexivity. }
  rewrite E, until_app by (rewrite <- in_rev; exact H2). rewrite rev_involutive. reflexivity.
Qed.
Theorem hdf5_by_extension fc_name : fc_file_kind None fc_name = if mem (extension fc_name) hdf5_exts then (if String.eqb (extension fc_name) "hdf5" then Ok Hdf5 else Err BadFormat) else Ok Text.
Proof.
  unfold fc_file_kind. destruct (mem (extension fc_name) hdf5_exts) eqn:E; [|reflexivity].
  unfold mem, hdf5_exts in E. cbn [existsb] in E. destruct (String.eqb_spec (extension fc_name) "hdf5") as [->|]; [reflexivity|].
  destruct (String.eqb_spec (extension fc_name) "hd5") as [->|]; [reflexivity|]. destruct (String.eqb_spec (extension fc_name) "h5") as [->|]; [reflexivity|]. discriminate.
Qed.
Theorem short_extensions x base ext : x <> "."%char -> ~ In "/"%char (x :: chars base) -> In ext ["hd5"; "h5"]%string -> fc_file_kind None (String x base ++ "." ++ ext) = Err BadFormat.
Proof.
  intros Hx H1 H2. rewrite hdf5_by_extension. rewrite extension_spec; [|exact Hx|exact H1| |]; destruct H2 as [<-|[<-|[]]]; try reflexivity; cbn; intuition discriminate.
Qed.
Theorem long_extension x base : x <> "."%char -> ~ In "/"%char (x :: chars base) -> fc_file_kind None (String x base ++ ".hdf5") = Ok Hdf5.
Proof. intros Hx H1. rewrite hdf5_by_extension. change ".hdf5"%string with ("." ++ "hdf5")%string. rewrite extension_spec; [reflexivity|exact Hx|exact H1| |]; cbn; intuition discriminate. Qed.

(** ** BORN files *)
Theorem born_sources f lines : 
  (complete f -> dipole_data f (Some lines) = Ok (s_nac f, s_diel f, s_born f)) /\
  (~ complete f -> forall nac d b, extract_born lines = Ok (nac, d, b) -> nac <> None \/ s_nac f <> None ->
     dipole_data f (Some lines) = Ok (match nac with Some _ => nac | None => s_nac f end, Some d, Some b)) /\
  (~ complete f -> forall nac d b, extract_born lines = Ok (nac, d, b) -> nac = None -> s_nac f = None -> dipole_data f (Some lines) = Err NoFactor) /\
  (s_born f <> None -> s_nac f = None -> dipole_data f None = Err NoFactor) /\
  (s_born f = None \/ s_nac f <> None -> dipole_data f None = Ok (s_nac f, s_diel f, s_born f)).
Proof.
  unfold dipole_data, complete. destruct (s_nac f) as [c|], (s_diel f) as [d|], (s_born f) as [b|]; repeat split; intros;
    try (exfalso; intuition congruence); try reflexivity;
    try (match goal with H : extract_born lines = _ |- _ => rewrite H end; destruct nac; try reflexivity; exfalso; intuition congruence).
Qed.

(** ** FORCE_CONSTANTS files *)
Definition triples (l : list (list R)) : list (list R) := map (firstn 3) (filter (fun x => Nat.leb 3 (length x)) l).
Lemma triples_app l m : triples (l ++ m) = (triples l ++ triples m)%list.
Proof. unfold triples. rewrite filter_app, map_app. reflexivity. Qed.
Lemma triples_flat {A} (g : A -> list (list R)) l : triples (flat_map g l) = flat_map (fun x => triples (g x)) l.
Proof. induction l; [reflexivity|]. cbn [flat_map]. rewrite triples_app, IHl. reflexivity. Qed.
Definition rows3 (v : nat -> nat -> R) : list (list R) := map (fun a => [v a 0%nat; v a 1%nat; v a 2%nat]) [0; 1; 2]%nat.
Lemma triples_block v i j : triples (fc_block v i j) = rows3 v.
Proof. reflexivity. Qed.
Lemma triples_text r c v : triples (fc_text r c v) = flat_map (fun i => flat_map (fun j => rows3 (v i j)) (seq 0 c)) (seq 0 r).
Proof. unfold fc_text. rewrite triples_flat. apply flat_map_ext. intros i. rewrite triples_flat. reflexivity. Qed.
Lemma length_triples r c v : length (triples (fc_text r c v)) = (r * c * 3)%nat.
Proof.
  rewrite triples_text. rewrite (length_flat_map_const _ _ (c * 3)%nat); [rewrite seq_length; lia|]. intros i _.
  rewrite (length_flat_map_const _ _ 3%nat); [rewrite seq_length; lia|]. reflexivity.
Qed.
Lemma nth_flat_block {A} (g : nat -> list A) k d : forall n b i x, (forall y, length (g y) = k) -> (i < n)%nat -> (x < k)%nat -> nth (i * k + x) (flat_map g (seq b n)) d = nth x (g (b + i)%nat) d.
Proof.
  induction n as [|n IH]; intros b i x Hg Hi Hx; [lia|]. cbn [seq flat_map]. destruct i.
  - rewrite app_nth1 by (rewrite Hg; lia). rewrite Nat.add_0_r. reflexivity.
  - rewrite app_nth2 by (rewrite Hg; lia). rewrite Hg. replace (S i * k + x - k)%nat with (i * k + x)%nat by lia. rewrite IH by (assumption || lia). f_equal. f_equal. lia.
Qed.
Lemma nth_triples r c v i j a b : (i < r)%nat -> (j < c)%nat -> (a < 3)%nat -> (b < 3)%nat -> nth b (nth ((i * c + j) * 3 + a) (triples (fc_text r c v)) []) 0 = v i j a b.
Proof.
  intros Hi Hj Ha Hb. rewrite triples_text. replace ((i * c + j) * 3 + a)%nat with (i * (c * 3) + (j * 3 + a))%nat by lia.
  rewrite (nth_flat_block _ (c * 3)%nat); [|intros y; rewrite (length_flat_map_const _ _ 3%nat); [rewrite seq_length; lia|reflexivity]|exact Hi|lia].
  rewrite (nth_flat_block _ 3%nat); [|reflexivity|exact Hj|exact Ha]. cbn [Nat.add].
  destruct a as [|[|[|a]]]; [| | |lia]; (destruct b as [|[|[|b]]]; [| | |lia]); reflexivity.
Qed.
Lemma header_dims r c header : fc_header r c header -> match header with [a] => Some (a, a) | [a; b] => Some (a, b) | _ => None end = Some (Z.of_nat r, Z.of_nat c).
Proof. intros [->|[-> ->]]; reflexivity. Qed.
Theorem text_back n_atoms n_cells r c header v : (r = n_atoms \/ r = n_cells * n_atoms)%nat -> c = (n_cells * n_atoms)%nat -> (0 < n_cells)%nat -> fc_header r c header ->
  exists fc, extract_force_constants n_atoms n_cells header (fc_text r c v) = Ok fc /\ fa_rows fc = r /\ fa_cols fc = c /\
  forall i j a b, (i < r)%nat -> (j < c)%nat -> (a < 3)%nat -> (b < 3)%nat -> fa_val fc i j a b = v i j a b.
Proof.
  intros Hr Hc Hp Hh. unfold extract_force_constants. rewrite (header_dims r c header Hh). rewrite !Nat2Z.id.
  destruct (Z.ltb_spec (Z.of_nat r) 0); [lia|]. destruct (Z.ltb_spec (Z.of_nat c) 0); [lia|]. cbn [orb].
  assert (S : shape_ok n_atoms n_cells r c = true). { unfold shape_ok. apply andb_true_iff. split; [apply orb_true_iff; rewrite !Nat.eqb_eq; exact Hr|apply Nat.eqb_eq; exact Hc]. }
  rewrite S. cbn [negb]. cbv zeta. fold (triples (fc_text r c v)).
  assert (F : firstn (4 * (n_atoms * n_cells) ^ 2) (triples (fc_text r c v)) = triples (fc_text r c v)).
  { apply firstn_all2. rewrite length_triples, Hc. cbn [Nat.pow]. assert (r <= n_cells * n_atoms)%nat by nia. nia. }
  rewrite F, length_triples, Nat.eqb_refl. cbn [negb]. eexists. split; [reflexivity|]. cbn [fa_rows fa_cols fa_val]. split; [reflexivity|]. split; [reflexivity|].
  intros i j a b Hi Hj Ha Hb. apply nth_triples; assumption.
Qed.
Lemma flat_last (g : nat -> list (list R)) n b : (forall y, exists pre w, g y = (pre ++ [w])%list /\ length w = 3%nat) -> (0 < n)%nat -> exists pre w, flat_map g (seq b n) = (pre ++ [w])%list /\ length w = 3%nat.
Proof.
  revert b. induction n as [|n IH]; intros b Hg Hn; [lia|]. cbn [seq flat_map]. destruct n.
  - cbn [seq flat_map]. rewrite app_nil_r. apply Hg.
  - destruct (IH (S b) Hg ltac:(lia)) as [pre [w [E1 E2]]]. exists (g b ++ pre)%list, w. split; [rewrite E1, app_assoc; reflexivity|exact E2].
Qed.
Lemma text_last r c v : (0 < length (fc_text r c v))%nat -> exists pre w, fc_text r c v = (pre ++ [w])%list /\ length w = 3%nat.
Proof.
  intros H. assert (0 < r)%nat by (destruct r; [cbn in H; lia|lia]).
  assert (0 < c)%nat. { destruct c; [|lia]. exfalso. revert H. unfold fc_text. cbn [seq flat_map]. induction (seq 0 r); cbn; [lia|assumption]. }
  unfold fc_text. apply flat_last; [|assumption]. intros i. apply flat_last; [|assumption]. intros j.
  exists [[INR (S i); INR (S j)]; [v i j 0%nat 0%nat; v i j 0%nat 1%nat; v i j 0%nat 2%nat]; [v i j 1%nat 0%nat; v i j 1%nat 1%nat; v i j 1%nat 2%nat]], [v i j 2%nat 0%nat; v i j 2%nat 1%nat; v i j 2%nat 2%nat]. split; reflexivity.
Qed.
Lemma last_triple r c v k : (k < length (fc_text r c v))%nat -> (length (triples (firstn k (fc_text r c v))) < r * c * 3)%nat.
Proof.
  intros Hk. rewrite <- (length_triples r c v). destruct (text_last r c v ltac:(lia)) as [pre [w [E Hw]]]. rewrite E in *. rewrite app_length in Hk. cbn [length] in Hk.
  rewrite firstn_app. replace (k - length pre)%nat with 0%nat by lia. cbn [firstn]. rewrite app_nil_r, triples_app, app_length.
  assert (length (triples [w]) = 1%nat) as -> by (destruct w as [|? [|? [|? [|]]]]; try discriminate; reflexivity).
  assert (length (triples (firstn k pre)) <= length (triples pre))%nat; [|lia].
  rewrite <- (firstn_skipn k pre) at 2. rewrite triples_app, app_length. lia.
Qed.
Theorem truncated_text n_atoms n_cells r c header v k : fc_header r c header -> (k < length (fc_text r c v))%nat ->
  extract_force_constants n_atoms n_cells header (firstn k (fc_text r c v)) = Err (if shape_ok n_atoms n_cells r c then BadFile else ShapeMismatch).
Proof.
  intros Hh Hk. unfold extract_force_constants. rewrite (header_dims r c header Hh). rewrite !Nat2Z.id.
  destruct (Z.ltb_spec (Z.of_nat r) 0); [lia|]. destruct (Z.ltb_spec (Z.of_nat c) 0); [lia|]. cbn [orb].
  destruct (shape_ok n_atoms n_cells r c); [|reflexivity]. cbn [negb]. cbv zeta. fold (triples (firstn k (fc_text r c v))).
  destruct (Nat.eqb_spec (length (firstn (4 * (n_atoms * n_cells) ^ 2) (triples (firstn k (fc_text r c v))))) (r * c * 3)) as [E|]; [|reflexivity].
  exfalso. rewrite firstn_length in E. pose proof (last_triple r c v k Hk). lia.
Qed.
Theorem wrong_shape n_atoms n_cells r c header lines : fc_header r c header -> ~ ((r = n_atoms \/ r = n_cells * n_atoms) /\ c = n_cells * n_atoms)%nat ->
  extract_force_constants n_atoms n_cells header lines = Err ShapeMismatch.
Proof.
  intros Hh H. unfold extract_force_constants. rewrite (header_dims r c header Hh). rewrite !Nat2Z.id.
  destruct (Z.ltb_spec (Z.of_nat r) 0); [lia|]. destruct (Z.ltb_spec (Z.of_nat c) 0); [lia|]. cbn [orb].
  destruct (shape_ok n_atoms n_cells r c) eqn:E; [|reflexivity]. exfalso. apply H. unfold shape_ok in E. apply andb_true_iff in E. destruct E as [E1 E2]. apply orb_true_iff in E1. rewrite !Nat.eqb_eq in *. split; assumption.
Qed.

Lemma hdf5_shape (s : summary) (name : string) text (fc : fcarr) : s_fc s = None ->
  let n_atoms := length (s_points s) in let n_cells := (length (s_sc_points s) / n_atoms)%nat in
  let fits := ((fa_rows fc = n_atoms \/ fa_rows fc = n_cells * n_atoms) /\ fa_cols fc = n_cells * n_atoms)%nat in
  (fits -> the_force_constants s (Some "hdf5"%string) name text fc = Ok fc) /\ (~ fits -> the_force_constants s (Some "hdf5"%string) name text fc = Err ShapeMismatch).
Proof.
  intros E n_atoms n_cells fits. unfold the_force_constants. rewrite E. cbn [fc_file_kind]. change (fc_file_kind (Some "hdf5"%string) name) with (@Ok fc_kind perr Hdf5). cbv iota. fold n_atoms. fold n_cells.
  unfold extract_force_constants_hdf5. destruct (shape_ok n_atoms n_cells (fa_rows fc) (fa_cols fc)) eqn:Q; unfold shape_ok in Q.
  - apply andb_true_iff in Q. destruct Q as [Q1 Q2]. apply orb_true_iff in Q1. apply Nat.eqb_eq in Q2. split; [reflexivity|]. intros N. exfalso. apply N. split; [destruct Q1 as [Q1|Q1]; apply Nat.eqb_eq in Q1; [left|right]; exact Q1|exact Q2].
  - split; [|reflexivity]. intros [F1 F2]. exfalso. apply andb_false_iff in Q. destruct Q as [Q|Q]; [apply orb_false_iff in Q; destruct Q as [Q1 Q2]; apply Nat.eqb_neq in Q1; apply Nat.eqb_neq in Q2; tauto|apply Nat.eqb_neq in Q; contradiction].
Qed.
