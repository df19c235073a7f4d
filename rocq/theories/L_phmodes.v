(** Lemmas for the reader of Phonopy modes (C74, C75). *)
From Coq Require Import String.
From Verif Require Import Base Cpx Vec3 M_phonon M_phonopy M_phase M_phmodes S_phmodes L_phase L_phonopy3.
Open Scope R_scope.

Lemma all_of_map {A B D} (f : B -> option D) (g : A -> B) (h : A -> D) l : (forall a, In a l -> f (g a) = Some (h a)) -> all_of f (map g l) = Some (map h l).
Proof. induction l as [|a l IH]; intros H; [reflexivity|]. cbn [map all_of]. rewrite (H a) by (left; reflexivity). rewrite IH by (intros b I; apply H; right; exact I). reflexivity. Qed.
Lemma same_len_const {A} n (l : list (list A)) : (forall x, In x l -> length x = n) -> same_len l = true.
Proof. destruct l as [|a r]; intros H; [reflexivity|]. cbn. apply forallb_forall. intros x I. apply Nat.eqb_eq. rewrite (H a) by (left; reflexivity). apply H. right. exact I. Qed.
Lemma concat_map_map {A B} (f : A -> B) (ll : list (list A)) : List.concat (map (map f) ll) = map f (List.concat ll).
Proof. symmetry. apply concat_map. Qed.
Lemma concat_of_map {A B} (f : A -> list B) l : List.concat (map f l) = flat_map f l.
Proof. symmetry. apply flat_map_concat_map. Qed.

(** The elements of the array read from each file. *)
Definition elems (N M : nat) (g : nat -> nat -> nat -> C) : list C := flat_map (fun i => flat_map (fun b => map (g i b) (seq 0 M)) (seq 0 M)) (seq 0 N).
Lemma elems_len N M g : length (elems N M g) = (N * M * M)%nat.
Proof.
  unfold elems. rewrite (length_flat_map_const _ _ (M * M)%nat); [rewrite seq_length; lia|]. intros i _. rewrite (length_flat_map_const _ _ M); [rewrite seq_length; reflexivity|]. intros b _. rewrite map_length. apply seq_length.
Qed.
Lemma elems_nth N M g i b j : (i < N)%nat -> (b < M)%nat -> (j < M)%nat -> nth ((i * M + b) * M + j) (elems N M g) Czero = g i b j.
Proof.
  intros Hi Hb Hj. unfold elems. replace ((i * M + b) * M + j)%nat with (i * (M * M) + (b * M + j))%nat by ring.
  rewrite (nth_flat_block _ (M * M)%nat); [| |exact Hi|nia]. 2:{ intros y. rewrite (length_flat_map_const _ _ M); [rewrite seq_length; reflexivity|]. intros c _. rewrite map_length. apply seq_length. }
  cbn [Nat.add]. rewrite (nth_flat_block _ M); [| |exact Hb|exact Hj]. 2:{ intros y. rewrite map_length. apply seq_length. }
  cbn [Nat.add]. rewrite (nth_indep _ Czero (g i b 0%nat)) by (rewrite map_length, seq_length; exact Hj). rewrite (map_nth (g i b) (seq 0 M) 0%nat j). rewrite seq_nth by exact Hj. reflexivity.
Qed.

Lemma seq3 n : flat_map (fun a => map (fun x => (3 * a + x)%nat) (seq 0 3)) (seq 0 n) = seq 0 (3 * n).
Proof.
  induction n as [|n IH]; [reflexivity|]. replace (S n) with (n + 1)%nat by lia. rewrite seq_app, flat_map_app, IH. replace (3 * (n + 1))%nat with (3 * n + 3)%nat by lia. rewrite (seq_app (3 * n) 3 0). f_equal. cbn [Nat.add seq flat_map map app].
  replace (3 * n + 0)%nat with (3 * n)%nat by lia. replace (3 * n + 1)%nat with (S (3 * n)) by lia. replace (3 * n + 2)%nat with (S (S (3 * n))) by lia. reflexivity.
Qed.
Lemma concat_flat {A B} (X : A -> list (list B)) l : List.concat (flat_map X l) = flat_map (fun i => List.concat (X i)) l.
Proof. induction l as [|a l IH]; [reflexivity|]. cbn [flat_map]. rewrite concat_app, IH. reflexivity. Qed.
Lemma map_flat {A B D} (g : B -> D) (X : A -> list B) l : map g (flat_map X l) = flat_map (fun i => map g (X i)) l.
Proof. induction l as [|a l IH]; [reflexivity|]. cbn [flat_map]. rewrite map_app, IH. reflexivity. Qed.
Lemma flat_ext {A B} (f g : A -> list B) l : (forall a, In a l -> f a = g a) -> flat_map f l = flat_map g l.
Proof. intros H. induction l as [|a l IH]; [reflexivity|]. cbn [flat_map]. rewrite (H a) by (left; reflexivity). rewrite IH by (intros b I; apply H; right; exact I). reflexivity. Qed.
Lemma flat_map_seq3 {A} (h : nat -> A) n : flat_map (fun a => map (fun x => h (3 * a + x)%nat) (seq 0 3)) (seq 0 n) = map h (seq 0 (3 * n)).
Proof. rewrite <- seq3, map_flat. apply flat_ext. intros a _. rewrite map_map. reflexivity. Qed.
Lemma div3 a x : (x < 3)%nat -> ((3 * a + x) / 3 = a /\ (3 * a + x) mod 3 = x)%nat.
Proof. intros H. split; [symmetry; apply (Nat.div_unique _ 3 a x); lia|symmetry; apply (Nat.mod_unique _ 3 a x); lia]. Qed.

Section Files.
Variable d : modes_data.
Let M := (3 * na d)%nat.
Definition by_modes (i b j : nat) : C := V d i b (j / 3) (j mod 3).
Definition by_columns (i r j : nat) : C := V d i j (r / 3) (r mod 3).

Definition ycry (l : option M3) (p : option (list yatom)) : option cryst :=
  match l, p with
  | Some l, Some ps => match all_of ya_mass ps, all_of ya_symbol ps with Some m, Some s => Some {| c_cell := l; c_r := map ya_r ps; c_mass := m; c_type := s |} | _, _ => None end
  | _, _ => None end.
Lemma yaml_elems w l p : exists wt, extract_yaml true (yaml_of d w l p) =
  Ok {| p_q := map (q d) (idx (nq d)); p_freq := map (freqs_of d) (idx (nq d)); p_ev := Some (elems (nq d) M by_modes); p_w := wt; p_cry := ycry l p |} /\
  (forall f, w = Some f -> wt = Some (map f (idx (nq d)))) /\ (w = None -> (0 < nq d)%nat -> wt = None).
Proof.
  eexists. assert (E1 : all_of (fun p => all_of yb_evec (yp_band p)) (y_phonon (yaml_of d w l p)) =
     Some (map (fun i => map (fun b => map (fun a => map (fun x => (re (V d i b a x), im (V d i b a x))) (idx 3)) (idx (na d))) (idx M)) (idx (nq d)))).
  { unfold yaml_of. cbn [y_phonon]. apply all_of_map. intros i _. cbn [yp_band]. apply all_of_map. intros b _. reflexivity. }
  assert (E2 : same_len (map (fun p0 => map yb_freq (yp_band p0)) (y_phonon (yaml_of d w l p))) = true).
  { apply (same_len_const M). intros x I. apply in_map_iff in I. destruct I as (y & <- & I). unfold yaml_of in I. cbn [y_phonon] in I. apply in_map_iff in I. destruct I as (i & <- & _). cbn [yp_band]. rewrite !map_length. apply seq_length. }
  split; [|split].
  - unfold extract_yaml. rewrite E2, E1. cbn [negb].
    rewrite (same_len_const (na d)). 2:{ intros x I. apply in_concat in I. destruct I as (y & I & J). apply in_map_iff in I. destruct I as (i & <- & _). apply in_map_iff in J. destruct J as (b & <- & _). rewrite map_length. apply seq_length. }
    rewrite (same_len_const 3). 2:{ intros x I. apply in_concat in I. destruct I as (y & I & J). apply in_concat in I. destruct I as (z & I & K). apply in_map_iff in I. destruct I as (i & <- & _). apply in_map_iff in K. destruct K as (b & <- & _). apply in_map_iff in J. destruct J as (a & <- & _). rewrite map_length. apply seq_length. }
    cbn [andb negb bind]. f_equal. f_equal; [unfold yaml_of; cbn [y_phonon]; rewrite map_map; reflexivity|unfold yaml_of; cbn [y_phonon]; rewrite map_map; apply map_ext; intros i; cbn [yp_band]; rewrite map_map; reflexivity|].
    cbn [option_map]. f_equal. unfold elems. rewrite concat_of_map, !concat_flat, map_flat. unfold idx. apply flat_ext. intros i _.
    rewrite concat_of_map, concat_flat, map_flat. apply flat_ext. intros b _. rewrite concat_of_map, map_flat. change M with (3 * na d)%nat. rewrite <- flat_map_seq3. apply flat_ext. intros a _. rewrite map_map. apply map_ext_in. intros x I.
    apply in_seq in I. unfold by_modes. destruct (div3 a x ltac:(lia)) as (-> & ->). unfold cpx. cbn [fst snd]. destruct (V d i b a x). reflexivity.
  - intros f ->. cbn [option_map yaml_of y_phonon]. apply all_of_map. intros i _. reflexivity.
  - intros -> H. cbn [option_map yaml_of y_phonon]. destruct (nq d) as [|n]; [lia|]. reflexivity.
Qed.
Lemma points_elems w : extract_hdf5 true (points_h5_of d w) =
  {| p_q := map (q d) (idx (nq d)); p_freq := map (freqs_of d) (idx (nq d)); p_ev := Some (elems (nq d) M by_columns); p_w := option_map (fun w => map w (idx (nq d))) w; p_cry := None |}.
Proof. unfold extract_hdf5, points_h5_of. cbn [option_map]. f_equal. f_equal. rewrite concat_of_map, concat_flat. unfold elems. apply flat_ext. intros i _. unfold columns_of. rewrite concat_of_map. reflexivity. Qed.
Lemma transposed_columns i : transposed (columns_of d i) = map (fun b => map (by_modes i b) (seq 0 M)) (seq 0 M).
Proof.
  unfold transposed, columns_of, idx. fold M. assert (E : length (hd [] (map (fun r => map (fun b => V d i b (r / 3) (r mod 3)) (seq 0 M)) (seq 0 M))) = M).
  { destruct M as [|m]; [reflexivity|]. cbn [seq map hd]. cbn [length]. rewrite map_length, seq_length. reflexivity. }
  rewrite E. apply map_ext_in. intros b I. apply in_seq in I. rewrite map_map. apply map_ext. intros r.
  rewrite (nth_indep _ Czero (V d i 0 (r / 3) (r mod 3))) by (rewrite map_length, seq_length; lia). rewrite (map_nth (fun b => V d i b (r / 3)%nat (r mod 3)%nat) (seq 0 M) 0%nat b). rewrite seq_nth by lia. reflexivity.
Qed.
Lemma band_elems segs : List.concat segs = idx (nq d) -> extract_hdf5 true (band_h5_of d segs) =
  {| p_q := map (q d) (idx (nq d)); p_freq := map (freqs_of d) (idx (nq d)); p_ev := Some (elems (nq d) M by_modes); p_w := None; p_cry := None |}.
Proof.
  intros E. unfold extract_hdf5, band_h5_of. cbn [option_map]. rewrite !concat_map_map, E. f_equal. f_equal. rewrite map_map. rewrite concat_of_map, concat_flat. unfold elems. apply flat_ext. intros i _. rewrite transposed_columns, concat_of_map. reflexivity.
Qed.
End Files.

(** From the extracted arrays to the result. *)
Lemma nth_q d i : (i < nq d)%nat -> nth i (map (q d) (idx (nq d))) vzero = q d i.
Proof. intros H. rewrite (nth_indep _ vzero (q d 0%nat)) by (rewrite map_length; unfold idx; rewrite seq_length; exact H). rewrite map_nth. unfold idx. rewrite seq_nth by exact H. reflexivity. Qed.
Definition position (c : cryst) (a : nat) : V3 := nth a (c_r c) vzero.
Definition the_result (d : modes_data) (k : mfactors) (c : cryst) (g : nat -> nat -> nat -> C) (w : option (list R)) : modes :=
  {| m_cry := c; m_q := map (q d) (idx (nq d)); m_freq := map (map (fun x => x * k_thz k)) (map (freqs_of d) (idx (nq d)));
     m_ev := Some (convert_eigenvector_phases (fun a => nth a (c_r c) vzero) (fun i => nth i (map (q d) (idx (nq d))) vzero)
                    (fun i b j => nth ((i * (3 * length (c_r c)) + b) * (3 * length (c_r c)) + j) (elems (nq d) (3 * na d) g) Czero));
     m_w := option_map convert_weights w |}.
Lemma result_ev d k c g w : length (c_r c) = na d -> exists ev, m_ev (the_result d k c g w) = Some ev /\
  forall i b a x, (i < nq d)%nat -> (b < 3 * na d)%nat -> (a < na d)%nat -> (x < 3)%nat ->
    ev i b a x = Cmul (cis (2 * PI * dot (q d i) (vsub (position c a) (position c (b / 3)%nat)))) (g i b (3 * a + x)%nat).
Proof.
  intros L. eexists. split; [reflexivity|]. intros i b a x Hi Hb Ha Hx. rewrite conv_eq. rewrite L, elems_nth by lia. unfold ph, position. rewrite <- cis_add. rewrite nth_q by exact Hi. f_equal. f_equal. rewrite dot_sub. ring.
Qed.
Lemma by_modes_right d k c w : length (c_r c) = na d -> exists ev, m_ev (the_result d k c (by_modes d) w) = Some ev /\ right_modes d (position c) ev.
Proof.
  intros L. destruct (result_ev d k c (by_modes d) w L) as (ev & E & H). exists ev. split; [exact E|]. exists (fun b => (b / 3)%nat). intros i b a x Hi Hb Ha Hx. rewrite (H i b a x Hi Hb Ha Hx). unfold by_modes.
  destruct (div3 a x Hx) as (-> & ->). reflexivity.
Qed.
