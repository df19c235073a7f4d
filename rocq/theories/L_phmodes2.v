(** Main lemmas for the reader of Phonopy modes (C74, C75). *)
From Coq Require Import String.
From Verif Require Import Base Cpx Vec3 M_phonon M_phonopy M_phase M_phmodes S_phmodes L_phase L_phonopy3 L_phmodes.
Open Scope R_scope.

Section Main.
Variables (d : modes_data) (k : mfactors) (fmt : option string) (name : string) (s : summary).
Notation the_modes m c := (same_data d k c m).
Lemma result_modes c g w : the_modes (the_result d k c g w) c.
Proof. split; [reflexivity|]. split; [reflexivity|]. unfold the_result. cbn [m_freq]. rewrite map_map. apply map_ext. intros i. unfold freqs_of. rewrite map_map. reflexivity. Qed.

Notation from_summary := (crystal_of_summary k s).
Lemma from_summary_eq : in_units (k_sum_len k) (k_sum_mass k) (summary_crystal s) = from_summary.
Proof. unfold in_units, summary_crystal, crystal_of_summary. cbn [c_cell c_r c_mass c_type]. rewrite map_map. reflexivity. Qed.
Lemma summary_n : length (c_r from_summary) = length (s_points s).
Proof. cbn. apply map_length. Qed.

(** Files without crystal *)
Lemma finish_summary file g w : (0 < nq d)%nat -> length (s_points s) = na d ->
  (match modes_kind fmt name, file with
   | Ok KHdf5, HDF5 h => Ok (extract_hdf5 true h) | Ok KYaml, Yaml y => extract_yaml true y | Ok _, _ => Err BadContents | Err e, _ => Err e end
   = Ok {| p_q := map (q d) (idx (nq d)); p_freq := map (freqs_of d) (idx (nq d)); p_ev := Some (elems (nq d) (3 * na d) g); p_w := w; p_cry := None |}) ->
  read_modes k fmt name file s true = Ok (the_result d k from_summary g w).
Proof.
  intros N L E. unfold read_modes. destruct (modes_kind fmt name) as [kd|e]; [|discriminate]. cbn [bind].
  assert (E' : match kd, file with KHdf5, HDF5 h => Ok (extract_hdf5 true h) | KYaml, Yaml y => extract_yaml true y | _, _ => Err BadContents end
    = Ok {| p_q := map (q d) (idx (nq d)); p_freq := map (freqs_of d) (idx (nq d)); p_ev := Some (elems (nq d) (3 * na d) g); p_w := w; p_cry := None |}) by (destruct kd, file; exact E).
  rewrite E'. clear E E'. cbn [bind p_ev p_cry p_freq p_q p_w andb].
  destruct (map (freqs_of d) (idx (nq d))) as [|f fs] eqn:EF; [destruct (nq d); [lia|discriminate]|].
  assert (Lf : length f = (3 * na d)%nat). { destruct (nq d) as [|n]; [lia|]. cbn in EF. injection EF as <- _. unfold freqs_of, idx. rewrite map_length. apply seq_length. }
  rewrite Lf. unfold summary_crystal at 1. cbn [c_r]. rewrite map_length, L, Nat.eqb_refl. cbn [bind].
  rewrite from_summary_eq. rewrite elems_len. rewrite map_length. unfold idx at 1. rewrite seq_length, summary_n, L, Nat.eqb_refl. cbn [bind].
  unfold the_result. rewrite summary_n, L. rewrite EF. reflexivity.
Qed.
Lemma kind_yaml_ok y e : modes_kind fmt name = Ok KYaml -> extract_yaml true y = e ->
  match modes_kind fmt name, Yaml y with Ok KHdf5, HDF5 h => Ok (extract_hdf5 true h) | Ok KYaml, Yaml y => extract_yaml true y | Ok _, _ => Err BadContents | Err e, _ => Err e end = e.
Proof. intros -> E. exact E. Qed.
Lemma yaml_main w : modes_kind fmt name = Ok KYaml -> (0 < nq d)%nat -> length (s_points s) = na d ->
  exists m ev, read_modes k fmt name (Yaml (yaml_of d w None None)) s true = Ok m /\ the_modes m from_summary /\ m_ev m = Some ev /\ right_modes d (site from_summary) ev.
Proof.
  intros K N L. destruct (yaml_elems d w None None) as (wt & E & _). cbn [ycry] in E.
  pose proof (finish_summary (Yaml (yaml_of d w None None)) (by_modes d) wt N L (kind_yaml_ok _ _ K E)) as R.
  destruct (by_modes_right d k from_summary wt) as (ev & A & B); [rewrite summary_n; exact L|]. exists (the_result d k from_summary (by_modes d) wt), ev. split; [exact R|]. split; [apply result_modes|]. split; [exact A|exact B].
Qed.
Lemma band_main segs : modes_kind fmt name = Ok KHdf5 -> (0 < nq d)%nat -> length (s_points s) = na d -> List.concat segs = idx (nq d) ->
  exists m ev, read_modes k fmt name (HDF5 (band_h5_of d segs)) s true = Ok m /\ the_modes m from_summary /\ m_w m = None /\ m_ev m = Some ev /\ right_modes d (site from_summary) ev.
Proof.
  intros K N L C. assert (E : match modes_kind fmt name, HDF5 (band_h5_of d segs) with Ok KHdf5, HDF5 h => Ok (extract_hdf5 true h) | Ok KYaml, Yaml y => extract_yaml true y | Ok _, _ => Err BadContents | Err e, _ => Err e end = Ok (extract_hdf5 true (band_h5_of d segs))) by (rewrite K; reflexivity).
  pose proof (finish_summary (HDF5 (band_h5_of d segs)) (by_modes d) None N L (eq_trans E (f_equal Ok (band_elems d segs C)))) as R.
  destruct (by_modes_right d k from_summary None) as (ev & A & B); [rewrite summary_n; exact L|]. exists (the_result d k from_summary (by_modes d) None), ev. split; [exact R|]. split; [apply result_modes|]. split; [reflexivity|]. split; [exact A|exact B].
Qed.
Lemma points_main w : modes_kind fmt name = Ok KHdf5 -> (0 < nq d)%nat -> length (s_points s) = na d ->
  exists m ev, read_modes k fmt name (HDF5 (points_h5_of d w)) s true = Ok m /\ the_modes m from_summary /\ m_w m = option_map (fun w => convert_weights (map w (idx (nq d)))) w /\ m_ev m = Some ev /\
    forall i b a x, (i < nq d)%nat -> (b < 3 * na d)%nat -> (a < na d)%nat -> (x < 3)%nat ->
      ev i b a x = Cmul (cis (2 * PI * dot (q d i) (vsub (site from_summary a) (site from_summary (b / 3)%nat)))) (V d i (3 * a + x) (b / 3) (b mod 3)).
Proof.
  intros K N L. assert (E : match modes_kind fmt name, HDF5 (points_h5_of d w) with Ok KHdf5, HDF5 h => Ok (extract_hdf5 true h) | Ok KYaml, Yaml y => extract_yaml true y | Ok _, _ => Err BadContents | Err e, _ => Err e end = Ok (extract_hdf5 true (points_h5_of d w))) by (rewrite K; reflexivity).
  pose proof (finish_summary (HDF5 (points_h5_of d w)) (by_columns d) _ N L (eq_trans E (f_equal Ok (points_elems d w)))) as R.
  destruct (result_ev d k from_summary (by_columns d) (option_map (fun w => map w (idx (nq d))) w)) as (ev & A & B); [rewrite summary_n; exact L|].
  eexists. exists ev. split; [exact R|]. split; [apply result_modes|]. split; [cbn [the_result m_w]; destruct w; reflexivity|]. split; [exact A|].
  intros i b a x Hi Hb Ha Hx. rewrite (B i b a x Hi Hb Ha Hx). unfold by_columns, position. reflexivity.
Qed.

(** A crystal in the file takes priority. *)
Lemma ycry_full l ps : ycry (Some l) (Some (map full ps)) = Some {| c_cell := l; c_r := map (fun p => fst (fst p)) ps; c_mass := map (fun p => snd (fst p)) ps; c_type := map snd ps |}.
Proof.
  unfold ycry. rewrite (all_of_map ya_mass full (fun p => snd (fst p))) by (intros [[r m] t] _; reflexivity). rewrite (all_of_map ya_symbol full snd) by (intros [[r m] t] _; reflexivity).
  do 2 f_equal. rewrite map_map. apply map_ext. intros [[r m] t]. reflexivity.
Qed.
Lemma inside_main w l ps : modes_kind fmt name = Ok KYaml -> length ps = na d ->
  exists m ev, read_modes k fmt name (Yaml (yaml_of d w (Some l) (Some (map full ps)))) s true = Ok m /\ the_modes m (crystal_inside k l ps) /\
    (forall f, w = Some f -> m_w m = Some (convert_weights (map f (idx (nq d))))) /\ m_ev m = Some ev /\ right_modes d (site (crystal_inside k l ps)) ev.
Proof.
  intros K L. destruct (yaml_elems d w (Some l) (Some (map full ps))) as (wt & E & W & _). rewrite ycry_full in E.
  assert (R : read_modes k fmt name (Yaml (yaml_of d w (Some l) (Some (map full ps)))) s true = Ok (the_result d k (crystal_inside k l ps) (by_modes d) wt)).
  { unfold read_modes. rewrite K. cbn [bind]. rewrite E. cbn [bind p_ev p_cry p_freq p_q p_w andb].
    assert (EC : in_units (k_angstrom k) (k_amu k) {| c_cell := l; c_r := map (fun p => fst (fst p)) ps; c_mass := map (fun p => snd (fst p)) ps; c_type := map snd ps |} = crystal_inside k l ps) by (unfold in_units, crystal_inside; cbn; rewrite map_map; reflexivity).
    rewrite EC. rewrite elems_len, map_length. unfold idx at 1. rewrite seq_length.
    assert (Lc : length (c_r (crystal_inside k l ps)) = na d) by (cbn; rewrite map_length; exact L). rewrite Lc, Nat.eqb_refl. cbn [bind]. unfold the_result. rewrite Lc. reflexivity. }
  assert (Lc : length (c_r (crystal_inside k l ps)) = na d) by (cbn; rewrite map_length; exact L).
  destruct (by_modes_right d k (crystal_inside k l ps) wt Lc) as (ev & A & B). eexists. exists ev. split; [exact R|]. split; [apply result_modes|]. split; [|split; [exact A|exact B]].
  intros f Hf. cbn [the_result m_w]. rewrite (W f Hf). reflexivity.
Qed.
End Main.

(** Refusals *)
Lemma all_of_none {A B} (f : A -> option B) l a : In a l -> f a = None -> all_of f l = None.
Proof. intros Ia Ea. induction l as [|c l IH]; [destruct Ia|]. cbn [all_of]. destruct Ia as [->|Ia]; [rewrite Ea; reflexivity|]. rewrite (IH Ia). destruct (f c); reflexivity. Qed.
Lemma no_evec_main k fmt name y s : modes_kind fmt name = Ok KYaml -> (exists p b, In p (y_phonon y) /\ In b (yp_band p) /\ yb_evec b = None) ->
  exists e, read_modes k fmt name (Yaml y) s true = Err e /\ ((forall p p', In p (y_phonon y) -> In p' (y_phonon y) -> length (yp_band p) = length (yp_band p')) -> e = NoEvec).
Proof.
  intros K (p & b & I & J & N). unfold read_modes. rewrite K. cbn [bind]. unfold extract_yaml. destruct (negb _) eqn:Q0.
  - eexists. split; [reflexivity|]. intros Eq. rewrite (same_len_const (length (yp_band p))) in Q0; [discriminate|]. intros x Ix. apply in_map_iff in Ix. destruct Ix as (p' & <- & Ip).
    rewrite map_length. apply Eq; assumption.
  - assert (Q : all_of (fun p => all_of yb_evec (yp_band p)) (y_phonon y) = None).
    { apply (all_of_none _ _ p I). apply (all_of_none _ _ b J N). }
    rewrite Q. cbn [bind p_ev andb option_map]. eexists. split; reflexivity.
Qed.
Lemma no_evec_h5 k fmt name s : modes_kind fmt name = Ok KHdf5 ->
  (forall q f w, read_modes k fmt name (HDF5 (H5points q f None w)) s true = Err NoEvec) /\ (forall p f, read_modes k fmt name (HDF5 (H5band p f None)) s true = Err NoEvec).
Proof. intros K. unfold read_modes. rewrite K. split; reflexivity. Qed.
Lemma commensurate_main k fmt name y s ev f fs : modes_kind fmt name = Ok KYaml -> y_lattice y = None ->
  map (fun p => map yb_freq (yp_band p)) (y_phonon y) = f :: fs -> (3 * length (s_points s))%nat <> length f -> exists e, read_modes k fmt name (Yaml y) s ev = Err e.
Proof.
  intros K Hl Ef N. unfold read_modes. rewrite K. cbn [bind]. unfold extract_yaml. destruct (negb (same_len (map (fun p => map yb_freq (yp_band p)) (y_phonon y)))); [eexists; reflexivity|].
  match goal with |- context [bind (match ?X with Some e => _ | None => _ end) _] => destruct X as [e|] end.
  - destruct (negb _); [eexists; reflexivity|]. cbn [bind p_ev p_cry p_freq option_map]. rewrite Hl, Ef. destruct (ev && false)%bool; [eexists; reflexivity|]. cbn [summary_crystal c_r]. rewrite map_length. rewrite (proj2 (Nat.eqb_neq _ _) N). cbn [bind]. eexists. reflexivity.
  - cbn [bind p_ev p_cry p_freq option_map]. destruct (ev && true)%bool; [eexists; reflexivity|]. rewrite Hl, Ef. cbn [summary_crystal c_r]. rewrite map_length. rewrite (proj2 (Nat.eqb_neq _ _) N). cbn [bind]. eexists. reflexivity.
Qed.
Lemma kind_main fmt name : modes_kind fmt name =
  let f := match fmt with Some f => f | None => extension name end in
  if in_dec string_dec f ["hdf5"; "hd5"; "h5"]%string then Ok KHdf5 else if in_dec string_dec f ["yaml"; "yml"; "yl"]%string then Ok KYaml else Err BadExt.
Proof.
  cbv zeta. unfold modes_kind. set (f := match fmt with Some f => f | None => extension name end).
  assert (G : forall l, mem f l = if in_dec string_dec f l then true else false).
  { intros l. unfold mem. destruct (in_dec string_dec f l) as [I|I].
    - apply existsb_exists. exists f. split; [exact I|apply String.eqb_refl].
    - destruct (existsb (String.eqb f) l) eqn:E; [|reflexivity]. apply existsb_exists in E. destruct E as (x & J & E). apply String.eqb_eq in E. subst x. contradiction. }
  unfold hdf5_exts, yaml_exts. rewrite !G. destruct (in_dec string_dec f ["hdf5"; "hd5"; "h5"]%string); [reflexivity|]. destruct (in_dec string_dec f ["yaml"; "yml"; "yl"]%string); reflexivity.
Qed.

(** The witnesses *)
Lemma turned_modes b : (b < 3)%nat -> is_mode 1 turned_matrix (V turned 0 b) (F turned 0 b).
Proof.
  intros Hb a x Ha Hx. assert (a = 0%nat) by lia. subst a. destruct b as [|[|[|b]]]; [| | |lia]; (destruct x as [|[|[|x]]]; [| | |lia]); apply C_eq; cbn; field.
Qed.
Lemma turned_row : exists m ev, read_modes no_change None "mesh.hdf5" (HDF5 (points_h5_of turned None)) (summary_with unit3 [one_point]) true = Ok m /\ m_ev m = Some ev /\ ~ is_mode 1 turned_matrix (ev 0 0)%nat (F turned 0 0).
Proof.
  destruct (points_main turned no_change None "mesh.hdf5" (summary_with unit3 [one_point]) None eq_refl ltac:(cbn; lia) eq_refl) as (m & ev & E & _ & _ & A & B). exists m, ev. split; [exact E|]. split; [exact A|].
  intros H. specialize (H 0%nat 0%nat ltac:(lia) ltac:(lia)). cbn [seq] in H.
  assert (Q : forall x, (x < 3)%nat -> ev 0%nat 0%nat 0%nat x = V turned 0 (3 * 0 + x) (0 / 3) (0 mod 3)).
  { intros x Hx. rewrite (B 0%nat 0%nat 0%nat x) by (cbn; lia). match goal with |- Cmul (cis ?t) _ = _ => replace t with 0 end; [rewrite cis_0; apply C_eq; cbn; ring|]. cbn. ring. }
  rewrite !Csum_cons, !Csum_nil in H. rewrite !Q in H by lia. apply (f_equal re) in H. cbn in H. lra.
Qed.
Lemma units_main k fmt name d w l ps s : modes_kind fmt name = Ok KYaml -> length ps = na d -> (0 < nq d)%nat -> s = summary_with l (map (fun p : V3 * R * string => let '(r, m, t) := p in mkPt r m t None) ps) ->
  k_angstrom k <> k_sum_len k -> l <> ((0, 0, 0), (0, 0, 0), (0, 0, 0)) ->
  exists m1 m2, read_modes k fmt name (Yaml (yaml_of d w (Some l) (Some (map full ps)))) s true = Ok m1 /\ read_modes k fmt name (Yaml (yaml_of d w None None)) s true = Ok m2 /\ c_cell (m_cry m1) <> c_cell (m_cry m2).
Proof.
  intros K L N -> D Z. destruct (inside_main d k fmt name (summary_with l (map (fun p : V3 * R * string => let '(r, m, t) := p in mkPt r m t None) ps)) w l ps K L) as (m1 & ev1 & E1 & (C1 & _) & _).
  destruct (yaml_main d k fmt name (summary_with l (map (fun p : V3 * R * string => let '(r, m, t) := p in mkPt r m t None) ps)) w K N) as (m2 & ev2 & E2 & (C2 & _) & _); [cbn; rewrite map_length; exact L|].
  exists m1, m2. split; [exact E1|]. split; [exact E2|]. rewrite C1, C2. cbn. intros H. apply Z.
  destruct l as [[[[a b] c] [[a' b'] c']] [[a'' b''] c'']]. unfold mscal, vscal in H. cbn in H.
  assert (T : forall x, k_angstrom k * x = k_sum_len k * x -> x = 0) by (intros x Hx; assert ((k_angstrom k - k_sum_len k) * x = 0) by lra; apply Rmult_integral in H0; destruct H0; [exfalso; apply D; lra|assumption]).
  injection H as H1 H2 H3 H4 H5 H6 H7 H8 H9. repeat f_equal; apply T; first [assumption|lra].
Qed.
