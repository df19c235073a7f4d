(** Two descriptions of one crystal: matrices and modes. *)
From Coq Require Import Permutation.
From Verif Require Import Base Cpx Vec3 M_grid M_dos M_sf M_dynmat M_dipole M_calc S_dynmat S_asr S_calc S_frame L_bands4.
From Verif Require L_dynmat2 L_spectral L_phmodes.
Open Scope R_scope.

Lemma three (f : nat -> R) : sumn 3 f = f 0%nat + f 1%nat + f 2%nat.
Proof. unfold sumn. cbn [seq]. rewrite !Sum_cons, Sum_nil. ring. Qed.
Lemma cthree (f : nat -> C) : Csum (seq 0 3) f = Cadd (Cadd (f 0%nat) (f 1%nat)) (f 2%nat).
Proof. cbn [seq]. rewrite !Csum_cons, Csum_nil. ring. Qed.
Lemma index3 i a : (a < 3)%nat -> ((3 * i + a) / 3 = i)%nat /\ ((3 * i + a) mod 3 = a)%nat.
Proof.
  intros H. split.
  - rewrite Nat.mul_comm, Nat.div_add_l by lia. rewrite Nat.div_small by exact H. lia.
  - rewrite Nat.add_comm, Nat.mul_comm, Nat.mod_add by lia. apply Nat.mod_small. exact H.
Qed.

(** ** Orthogonal matrices *)
Lemma dot_turn G u v : orthogonal G -> dot (vmul u G) (vmul v G) = dot u v.
Proof.
  intros O. assert (E : forall a b, (a < 3)%nat -> (b < 3)%nat -> sumn 3 (fun x => entry G a x * entry G b x) = if Nat.eqb a b then 1 else 0)
    by (intros a b A B; apply (O a b A B)).
  destruct G as [[[[g1 g2] g3] [[g4 g5] g6]] [[g7 g8] g9]], u as [[u1 u2] u3], v as [[v1 v2] v3].
  assert (E00 := E 0%nat 0%nat ltac:(lia) ltac:(lia)). assert (E01 := E 0%nat 1%nat ltac:(lia) ltac:(lia)). assert (E02 := E 0%nat 2%nat ltac:(lia) ltac:(lia)).
  assert (E11 := E 1%nat 1%nat ltac:(lia) ltac:(lia)). assert (E12 := E 1%nat 2%nat ltac:(lia) ltac:(lia)). assert (E22 := E 2%nat 2%nat ltac:(lia) ltac:(lia)).
  rewrite three in *. cbn in E00, E01, E02, E11, E12, E22 |- *.
  transitivity (u1 * v1 * (g1 * g1 + g2 * g2 + g3 * g3) + (u1 * v2 + u2 * v1) * (g1 * g4 + g2 * g5 + g3 * g6) + (u1 * v3 + u3 * v1) * (g1 * g7 + g2 * g8 + g3 * g9)
    + u2 * v2 * (g4 * g4 + g5 * g5 + g6 * g6) + (u2 * v3 + u3 * v2) * (g4 * g7 + g5 * g8 + g6 * g9) + u3 * v3 * (g7 * g7 + g8 * g8 + g9 * g9)); [ring|].
  rewrite E00, E01, E02, E11, E12, E22. ring.
Qed.
Lemma vmul_turn v m G : vmul v (turned_rows m G) = vmul (vmul v m) G.
Proof.
  destruct G as [[[[g1 g2] g3] [[g4 g5] g6]] [[g7 g8] g9]], m as [[[[m1 m2] m3] [[m4 m5] m6]] [[m7 m8] m9]], v as [[v1 v2] v3].
  cbn. apply V3_eq; ring.
Qed.
Lemma vsub_turn u v G : vsub (vmul u G) (vmul v G) = vmul (vsub u v) G.
Proof.
  destruct G as [[[[g1 g2] g3] [[g4 g5] g6]] [[g7 g8] g9]], u as [[u1 u2] u3], v as [[v1 v2] v3].
  cbn. apply V3_eq; ring.
Qed.
Lemma vsub_mul u v m : vsub (vmul u m) (vmul v m) = vmul (vsub u v) m.
Proof. exact (vsub_turn u v m). Qed.

(** ** Images *)
Section Two.
Variables (F : frame) (d d' : fcdata) (mass mass' : nat -> R).
Hypothesis HR : redescribes F d d' mass mass'.
Notation n := (M_dynmat.n_atoms d).
Notation p := (fr_p F).
Notation p' := (fr_p' F).
Notation G := (fr_G F).
Notation T := (fr_T F).

Definition shift (i j : nat) (r : Z3) : Z3 := zadd3 r (zadd3 (T j) (zopp3 (T i))).

Lemma sc_vecs_turn : sc_vecs d' = turned_rows (sc_vecs d) G.
Proof.
  destruct HR as (_ & _ & _ & _ & E & E2 & _). unfold sc_vecs. rewrite E, E2.
  destruct (zrows (f_sc d)) as [[a b] c]. rewrite !vmul_turn. reflexivity.
Qed.
Lemma between i j r : (i < n)%nat -> (j < n)%nat ->
  vsub (atom_pos d' (0,0,0)%Z i) (atom_pos d' r j) = vmul (vsub (atom_pos d (0,0,0)%Z (p i)) (atom_pos d (shift i j r) (p j))) G.
Proof.
  intros Hi Hj. destruct HR as (_ & _ & _ & _ & _ & Ec & At & _). destruct (At i Hi) as [_ Ai]. destruct (At j Hj) as [_ Aj].
  unfold atom_pos. rewrite Ec, !vmul_turn, vsub_turn, !vsub_mul, Ai, Aj. f_equal. f_equal.
  unfold shift. destruct r as [[r1 r2] r3], (T i) as [[t1 t2] t3], (T j) as [[w1 w2] w3], (fr_s F) as [[s1 s2] s3],
    (nth (p i) (f_atom_r d) vzero) as [[x1 x2] x3], (nth (p j) (f_atom_r d) vzero) as [[y1 y2] y3].
  cbn -[Z.add Z.opp]. rewrite !plus_IZR, !opp_IZR. apply V3_eq; ring.
Qed.
Lemma near_turn i j r : (i < n)%nat -> (j < n)%nat -> near_image d' i j r <-> near_image d (p i) (p j) (shift i j r).
Proof.
  intros Hi Hj. assert (O : orthogonal G) by apply HR. unfold near_image.
  assert (K : forall f, let w' := vmul (zvec f) (sc_vecs d') in let w := vmul (zvec f) (sc_vecs d) in
    dot (vsub (atom_pos d' (0,0,0)%Z i) (atom_pos d' r j)) w' = dot (vsub (atom_pos d (0,0,0)%Z (p i)) (atom_pos d (shift i j r) (p j))) w /\ dot w' w' = dot w w).
  { intros f. cbv zeta. rewrite sc_vecs_turn, vmul_turn, between by assumption. split; apply dot_turn; exact O. }
  split; intros H f Hf; specialize (H f Hf); destruct (K f) as [K1 K2]; cbv zeta in *; rewrite ?K1, ?K2 in *; assumption.
Qed.
Lemma zadd_assoc a b c : zadd3 (zadd3 a b) c = zadd3 a (zadd3 b c).
Proof. destruct a as [[? ?] ?], b as [[? ?] ?], c as [[? ?] ?]. unfold zadd3. f_equal; [f_equal|]; lia. Qed.
Lemma zadd_comm a b : zadd3 a b = zadd3 b a.
Proof. destruct a as [[? ?] ?], b as [[? ?] ?]. unfold zadd3. f_equal; [f_equal|]; lia. Qed.
Lemma zmul_add a b s : zmul3 (zadd3 a b) s = zadd3 (zmul3 a s) (zmul3 b s).
Proof. destruct a as [[? ?] ?], b as [[? ?] ?], s as [[[[? ?] ?] [[? ?] ?]] [[? ?] ?]]. unfold zmul3, zadd3. f_equal; [f_equal|]; ring. Qed.
Lemma zadd_opp a b : zadd3 (zadd3 a (zopp3 b)) b = a.
Proof. destruct a as [[? ?] ?], b as [[? ?] ?]. unfold zadd3, zopp3. f_equal; [f_equal|]; lia. Qed.
Lemma same_trans s a b c : same_mod_supercell s a b -> same_mod_supercell s b c -> same_mod_supercell s a c.
Proof. intros [m ->] [m' ->]. exists (zadd3 m m'). rewrite zmul_add, zadd_assoc. reflexivity. Qed.
Lemma same_sym s a b : same_mod_supercell s a b -> same_mod_supercell s b a.
Proof.
  intros [m ->]. exists (zopp3 m). destruct m as [[? ?] ?], a as [[? ?] ?], s as [[[[? ?] ?] [[? ?] ?]] [[? ?] ?]]. unfold zadd3, zmul3, zopp3. f_equal; [f_equal|]; ring.
Qed.
Lemma same_shift s a b t : same_mod_supercell s a b -> same_mod_supercell s (zadd3 a t) (zadd3 b t).
Proof. intros [m ->]. exists m. rewrite !zadd_assoc. f_equal. apply zadd_comm. Qed.
Definition unshift (i j : nat) (r : Z3) : Z3 := zadd3 r (zopp3 (zadd3 (T j) (zopp3 (T i)))).
Lemma shift_unshift i j r : shift i j (unshift i j r) = r.
Proof. apply zadd_opp. Qed.
Lemma unshift_shift i j r : unshift i j (shift i j r) = r.
Proof. unfold unshift, shift. set (t := zadd3 (T j) _). destruct r as [[? ?] ?], t as [[? ?] ?]. unfold zadd3, zopp3. f_equal; [f_equal|]; lia. Qed.

Lemma images_turn L L' nc i j : shares_images d L -> shares_images d' L' -> (nc < n_cells d)%nat -> (i < n)%nat -> (j < n)%nat ->
  Permutation (map (shift i j) (L' nc i j)) (L (fr_c F i j nc) (p i) (p j)).
Proof.
  intros HL HL' Hc Hi Hj. destruct HR as (Rn & _ & En & Enc & Esc & _ & _ & Cells).
  destruct (Rn i Hi) as [Pi _]. destruct (Rn j Hj) as [Pj _]. destruct (Cells i j Hi Hj) as [_ CC]. destruct (CC nc Hc) as (Cn & Cm & _).
  destruct (HL _ _ _ Cn Pi Pj) as (_ & N1 & I1 & _).
  destruct (HL' nc i j ltac:(rewrite Enc; exact Hc) ltac:(rewrite En; exact Hi) ltac:(rewrite En; exact Hj)) as (_ & N2 & I2 & _).
  apply NoDup_Permutation; [|exact N1|].
  - apply NoDup_map_inj; [|exact N2]. intros x y _ _ E. rewrite <- (unshift_shift i j x), <- (unshift_shift i j y), E. reflexivity.
  - intros r. rewrite I1. rewrite in_map_iff. split.
    + intros (r' & <- & H). apply I2 in H. destruct H as [H1 H2]. rewrite Esc in H1. split.
      * apply (same_trans _ _ _ _ Cm). apply same_shift. exact H1.
      * apply near_turn; assumption.
    + intros [H1 H2]. exists (unshift i j r). split; [apply shift_unshift|]. apply I2. split.
      * rewrite Esc. rewrite <- (unshift_shift i j (nth nc (f_origins d') (0,0,0)%Z)). apply same_shift. apply same_sym in Cm. exact (same_trans _ _ _ _ Cm H1).
      * apply near_turn; [assumption|assumption|]. rewrite shift_unshift. exact H2.
Qed.

(** ** The matrix *)
(** D' is D with other numbers for the atoms, turned axes and a factor u for each atom. *)
Definition transported (u : nat -> C) (D D' : nat -> nat -> C) : Prop :=
  forall i j a b, (i < n)%nat -> (j < n)%nat -> (a < 3)%nat -> (b < 3)%nat ->
    D' (3 * i + a)%nat (3 * j + b)%nat
    = Cmul (Cmul (u i) (Cconj (u j))) (Csum (seq 0 3) (fun a' => Csum (seq 0 3) (fun b' =>
        Cscal (entry G a' a * entry G b' b) (D (3 * p i + a')%nat (3 * p j + b')%nat)))).
Definition site_phase (q : V3) (i : nat) : C := cis (2 * PI * dot q (zvec (T i))).

Lemma cells_perm i j : (i < n)%nat -> (j < n)%nat -> Permutation (map (fr_c F i j) (seq 0 (n_cells d))) (seq 0 (n_cells d)).
Proof.
  intros Hi Hj. destruct HR as (_ & _ & _ & _ & _ & _ & _ & Cells). destruct (Cells i j Hi Hj) as [Inj CC].
  apply NoDup_Permutation_bis.
  - apply NoDup_map_inj; [|apply seq_NoDup]. intros x y Hx Hy E. apply in_seq in Hx. apply in_seq in Hy. apply Inj; [lia|lia|exact E].
  - rewrite map_length. reflexivity.
  - intros x Hx. apply in_map_iff in Hx. destruct Hx as (y & <- & Hy). apply in_seq in Hy. destruct (CC y) as [A _]; [lia|]. apply in_seq. lia.
Qed.

Lemma fourier_turn L L' q : shares_images d L -> shares_images d' L' -> transported (site_phase q) (fourier_sum d L q) (fourier_sum d' L' q).
Proof.
  intros HL HL' i j a b Hi Hj Ha Hb. unfold fourier_sum.
  destruct (index3 i a Ha) as [Ei _]. destruct (index3 j b Hb) as [Ej _]. rewrite Ei, Ej.
  assert (Ep : forall k x, In x (seq 0 3) -> ((3 * k + x) / 3 = k)%nat) by (intros k x Hx; apply in_seq in Hx; apply index3; lia).
  pose proof HR as (_ & _ & _ & Enc & _ & _ & _ & Cells). destruct (Cells i j Hi Hj) as [_ CC]. rewrite Enc.
  transitivity (Cmul (Cmul (site_phase q i) (Cconj (site_phase q j))) (Csum (seq 0 (n_cells d)) (fun nc =>
     Csum (L (fr_c F i j nc) (p i) (p j)) (fun r => Csum (seq 0 3) (fun a' => Csum (seq 0 3) (fun b' => Cscal (entry G a' a * entry G b' b)
        (Cscal (f_fc d (fr_c F i j nc) (3 * p i + a')%nat (3 * p j + b')%nat / INR (length (L (fr_c F i j nc) (p i) (p j)))) (cis (2 * PI * dot q (zvec r)))))))))).
  - rewrite <- Csum_mul. apply Csum_ext. intros nc Hnc. apply in_seq in Hnc. destruct (CC nc ltac:(lia)) as (_ & _ & Ef).
    rewrite (Ef a b Ha Hb). pose proof (images_turn L L' nc i j HL HL' ltac:(lia) Hi Hj) as P.
    rewrite <- Csum_mul, <- (Csum_perm _ _ _ P), Csum_map. rewrite <- (Permutation_length P), map_length. apply Csum_ext. intros r _.
    assert (E : cis (2 * PI * dot q (zvec r)) = Cmul (Cmul (site_phase q i) (Cconj (site_phase q j))) (cis (2 * PI * dot q (zvec (shift i j r))))).
    { unfold site_phase. rewrite <- cis_opp, <- !cis_add. f_equal. unfold shift. destruct r as [[? ?] ?], (T i) as [[? ?] ?], (T j) as [[? ?] ?], q as [[? ?] ?].
      cbn -[Z.add Z.opp]. rewrite !plus_IZR, !opp_IZR. ring. }
    rewrite E. set (z := cis (2 * PI * dot q (zvec (shift i j r)))). set (u := Cmul (site_phase q i) _). unfold turned_entry.
    rewrite !cthree, !three. unfold Rdiv. apply C_eq; cbn [re im Cadd Cmul Cscal]; ring.
  - f_equal. transitivity (Csum (seq 0 (n_cells d)) (fun nc => Csum (seq 0 3) (fun a' => Csum (seq 0 3) (fun b' => Cscal (entry G a' a * entry G b' b)
        (Csum (L nc (p i) (p j)) (fun r => Cscal (f_fc d nc (3 * p i + a')%nat (3 * p j + b')%nat / INR (length (L nc (p i) (p j)))) (cis (2 * PI * dot q (zvec r))))))))).
    + symmetry. etransitivity; [symmetry; apply (Csum_perm _ _ _ (cells_perm i j Hi Hj))|]. rewrite Csum_map. apply Csum_ext. intros nc _. symmetry.
      rewrite Csum_exchange. apply Csum_ext. intros a' _. rewrite Csum_exchange. apply Csum_ext. intros b' _. rewrite Csum_scal. reflexivity.
    + rewrite Csum_exchange. apply Csum_ext. intros a' Ha'. rewrite Csum_exchange. apply Csum_ext. intros b' Hb'. rewrite Csum_scal. f_equal.
      rewrite (Ep (p i) a' Ha'), (Ep (p j) b' Hb'). reflexivity.
Qed.

(** ** Modes *)
Lemma atoms_perm : Permutation (map p (seq 0 n)) (seq 0 n).
Proof.
  destruct HR as (Rn & _). apply NoDup_Permutation_bis.
  - apply NoDup_map_inj; [|apply seq_NoDup]. intros x y Hx Hy E. apply in_seq in Hx. apply in_seq in Hy.
    destruct (Rn x) as (_ & _ & X & _); [lia|]. destruct (Rn y) as (_ & _ & Y & _); [lia|]. congruence.
  - rewrite map_length. reflexivity.
  - intros x Hx. apply in_map_iff in Hx. destruct Hx as (y & <- & Hy). apply in_seq in Hy. destruct (Rn y) as [A _]; [lia|]. apply in_seq. lia.
Qed.
(** A vector of the second description seen in the first *)
Definition seen (u : nat -> C) (v : nat -> C) (x : nat) : C :=
  Cmul (Cconj (u (p' (x / 3)))) (Csum (seq 0 3) (fun a => Cscal (entry G (x mod 3) a) (v (3 * p' (x / 3) + a)%nat))).
Lemma seen_at u v i a' : (i < n)%nat -> (a' < 3)%nat ->
  seen u v (3 * p i + a')%nat = Cmul (Cconj (u i)) (Csum (seq 0 3) (fun a => Cscal (entry G a' a) (v (3 * i + a)%nat))).
Proof.
  intros Hi Ha. unfold seen. destruct (index3 (p i) a' Ha) as [-> ->]. destruct HR as (Rn & _). destruct (Rn i Hi) as (_ & _ & -> & _). reflexivity.
Qed.
Definition unit_phases (u : nat -> C) : Prop := forall i, (i < n)%nat -> Cmul (Cconj (u i)) (u i) = Cone.

Lemma by_atoms f : Csum (seq 0 (3 * n)) f = Csum (seq 0 n) (fun i => Csum (seq 0 3) (fun a => f (3 * p i + a)%nat)).
Proof. rewrite flat_sum, <- (Csum_perm _ _ _ atoms_perm), Csum_map. reflexivity. Qed.

Lemma ortho1 a b : (a < 3)%nat -> (b < 3)%nat -> sumn 3 (fun x => entry G a x * entry G b x) = if Nat.eqb a b then 1 else 0.
Proof. intros A B. destruct HR as (_ & O & _). apply (O a b A B). Qed.
Lemma ortho2 a b : (a < 3)%nat -> (b < 3)%nat -> sumn 3 (fun x => entry G x a * entry G x b) = if Nat.eqb a b then 1 else 0.
Proof. intros A B. destruct HR as (_ & O & _). apply (O a b A B). Qed.

(** Turning a matrix back on one side *)
Lemma turn_back (h : nat -> C) a' : (a' < 3)%nat ->
  Csum (seq 0 3) (fun a => Cscal (entry G a' a) (Csum (seq 0 3) (fun a'' => Cscal (entry G a'' a) (h a'')))) = h a'.
Proof.
  intros Ha. assert (O : forall b, (b < 3)%nat -> sumn 3 (fun x => entry G a' x * entry G b x) = if Nat.eqb a' b then 1 else 0) by (intros; apply ortho1; assumption).
  assert (O0 := O 0%nat ltac:(lia)). assert (O1 := O 1%nat ltac:(lia)). assert (O2 := O 2%nat ltac:(lia)). rewrite three in O0, O1, O2. clear O.
  rewrite !cthree.
  transitivity (Cadd (Cadd (Cscal (entry G a' 0 * entry G 0 0 + entry G a' 1 * entry G 0 1 + entry G a' 2 * entry G 0 2) (h 0%nat))
     (Cscal (entry G a' 0 * entry G 1 0 + entry G a' 1 * entry G 1 1 + entry G a' 2 * entry G 1 2) (h 1%nat)))
     (Cscal (entry G a' 0 * entry G 2 0 + entry G a' 1 * entry G 2 1 + entry G a' 2 * entry G 2 2) (h 2%nat))).
  - apply C_eq; cbn [re im Cadd Cscal]; ring.
  - rewrite O0, O1, O2. destruct a' as [|[|[|]]]; [| | |lia]; cbn [Nat.eqb]; apply C_eq; cbn [re im Cadd Cscal]; ring.
Qed.
Lemma dot_back (f g : nat -> C) :
  Csum (seq 0 3) (fun a' => Cmul (Cconj (Csum (seq 0 3) (fun a => Cscal (entry G a' a) (f a)))) (Csum (seq 0 3) (fun b => Cscal (entry G a' b) (g b))))
  = Csum (seq 0 3) (fun a => Cmul (Cconj (f a)) (g a)).
Proof.
  assert (O : forall a b, (a < 3)%nat -> (b < 3)%nat -> entry G 0 a * entry G 0 b + entry G 1 a * entry G 1 b + entry G 2 a * entry G 2 b = if Nat.eqb a b then 1 else 0).
  { intros a b A B. rewrite <- (ortho2 a b A B), three. reflexivity. }
  assert (O00 := O 0%nat 0%nat ltac:(lia) ltac:(lia)). assert (O01 := O 0%nat 1%nat ltac:(lia) ltac:(lia)). assert (O02 := O 0%nat 2%nat ltac:(lia) ltac:(lia)).
  assert (O11 := O 1%nat 1%nat ltac:(lia) ltac:(lia)). assert (O12 := O 1%nat 2%nat ltac:(lia) ltac:(lia)). assert (O22 := O 2%nat 2%nat ltac:(lia) ltac:(lia)). clear O. cbn [Nat.eqb] in *.
  rewrite !cthree.
  set (c00 := entry G 0 0) in *. set (c01 := entry G 0 1) in *. set (c02 := entry G 0 2) in *. set (c10 := entry G 1 0) in *. set (c11 := entry G 1 1) in *.
  set (c12 := entry G 1 2) in *. set (c20 := entry G 2 0) in *. set (c21 := entry G 2 1) in *. set (c22 := entry G 2 2) in *.
  transitivity (Cadd (Cadd (Cadd (Cadd (Cscal (c00 * c00 + c10 * c10 + c20 * c20) (Cmul (Cconj (f 0%nat)) (g 0%nat))) (Cscal (c01 * c01 + c11 * c11 + c21 * c21) (Cmul (Cconj (f 1%nat)) (g 1%nat))))
     (Cscal (c02 * c02 + c12 * c12 + c22 * c22) (Cmul (Cconj (f 2%nat)) (g 2%nat))))
     (Cadd (Cscal (c00 * c01 + c10 * c11 + c20 * c21) (Cadd (Cmul (Cconj (f 0%nat)) (g 1%nat)) (Cmul (Cconj (f 1%nat)) (g 0%nat))))
           (Cscal (c00 * c02 + c10 * c12 + c20 * c22) (Cadd (Cmul (Cconj (f 0%nat)) (g 2%nat)) (Cmul (Cconj (f 2%nat)) (g 0%nat))))))
     (Cscal (c01 * c02 + c11 * c12 + c21 * c22) (Cadd (Cmul (Cconj (f 1%nat)) (g 2%nat)) (Cmul (Cconj (f 2%nat)) (g 1%nat))))).
  - apply C_eq; cbn [re im Cadd Cscal Cmul Cconj]; ring.
  - rewrite O00, O01, O02, O11, O12, O22. apply C_eq; cbn [re im Cadd Cscal Cmul Cconj]; ring.
Qed.

Definition seen_modes (u : nat -> C) (md : modes) : modes := mkModes (m_freq md) (fun m => seen u (m_evec md m)) None.
Lemma modes_turn u D D' md : unit_phases u -> transported u D D' -> modes_of (3 * n) mass' D' md -> modes_of (3 * n) mass D (seen_modes u md).
Proof.
  intros U TR [E O]. pose proof HR as (Rn & _ & _ & _ & _ & _ & At & _). split.
  - intros m Hm x Hx. cbn [seen_modes m_freq m_evec]. set (l := m_freq md m * Rabs (m_freq md m)). set (v := m_evec md m).
    specialize (E m Hm). fold l v in E.
    (* x is component a' of atom p i *)
    assert (X : exists i a', (i < n)%nat /\ (a' < 3)%nat /\ x = (3 * p i + a')%nat).
    { exists (p' (x / 3)), (x mod 3)%nat. assert (H3 : (x / 3 < n)%nat) by (apply Nat.div_lt_upper_bound; lia). destruct (Rn _ H3) as (_ & A & _ & B).
      split; [exact A|]. split; [apply Nat.mod_upper_bound; lia|]. rewrite B. apply Nat.div_mod. lia. }
    destruct X as (i & a' & Hi & Ha' & ->). rewrite seen_at by assumption.
    destruct (index3 (p i) a' Ha') as [Ei _]. rewrite Ei.
    rewrite by_atoms.
    transitivity (Csum (seq 0 n) (fun j => Csum (seq 0 3) (fun b => Cmul (Cmul (Cscal (1 / sqrt (mass (p i) * mass (p j))) (Cconj (u j)))
        (Csum (seq 0 3) (fun b' => Cscal (entry G b' b) (D (3 * p i + a')%nat (3 * p j + b')%nat)))) (v (3 * j + b)%nat)))).
    + apply Csum_ext. intros j Hj. apply in_seq in Hj.
      transitivity (Csum (seq 0 3) (fun b' => Csum (seq 0 3) (fun b => Cmul (Cmul (Cscal (1 / sqrt (mass (p i) * mass (p j))) (Cconj (u j)))
         (Cscal (entry G b' b) (D (3 * p i + a')%nat (3 * p j + b')%nat))) (v (3 * j + b)%nat)))).
      * apply Csum_ext. intros b' Hb'. apply in_seq in Hb'. rewrite seen_at by lia. destruct (index3 (p j) b' ltac:(lia)) as [Ej _]. rewrite Ej.
        rewrite !cthree. apply C_eq; cbn [re im Cadd Cscal Cmul Cconj]; ring.
      * rewrite Csum_exchange. apply Csum_ext. intros b _. rewrite !cthree. apply C_eq; cbn [re im Cadd Cscal Cmul Cconj]; ring.
    + transitivity (Cmul (Cconj (u i)) (Csum (seq 0 3) (fun a => Cscal (entry G a' a) (Csum (seq 0 (3 * n)) (fun y =>
         Cmul (Cscal (1 / sqrt (mass' ((3 * i + a) / 3)%nat * mass' (y / 3)%nat)) (D' (3 * i + a)%nat y)) (v y)))))).
      2:{ rewrite <- Cscal_mul || idtac. transitivity (Cmul (Cconj (u i)) (Csum (seq 0 3) (fun a => Cscal (entry G a' a) (Cscal l (v (3 * i + a)%nat))))).
          - f_equal. apply Csum_ext. intros a Ha. apply in_seq in Ha. f_equal. apply E. lia.
          - rewrite !cthree. apply C_eq; cbn [re im Cadd Cscal Cmul Cconj]; ring. }
      transitivity (Csum (seq 0 n) (fun j => Csum (seq 0 3) (fun b => Cmul (Cmul (Cconj (u i)) (Csum (seq 0 3) (fun a => Cscal (entry G a' a)
         (Cscal (1 / sqrt (mass (p i) * mass (p j))) (D' (3 * i + a)%nat (3 * j + b)%nat))))) (v (3 * j + b)%nat)))).
      * apply Csum_ext. intros j Hj. apply in_seq in Hj. apply Csum_ext. intros b Hb. apply in_seq in Hb. f_equal. symmetry.
        rewrite (Csum_ext _ _ (fun a => Cscal (entry G a' a) (Csum (seq 0 3) (fun a'' => Cscal (entry G a'' a)
           (Cmul (Cmul (Cscal (1 / sqrt (mass (p i) * mass (p j))) (u i)) (Cconj (u j))) (Csum (seq 0 3) (fun b' => Cscal (entry G b' b) (D (3 * p i + a'')%nat (3 * p j + b')%nat)))))))).
        2:{ intros a Ha. apply in_seq in Ha. f_equal. rewrite (TR i j a b Hi ltac:(lia) ltac:(lia) ltac:(lia)). rewrite !cthree. apply C_eq; cbn [re im Cadd Cscal Cmul Cconj]; ring. }
        rewrite (turn_back (fun a'' => Cmul (Cmul (Cscal (1 / sqrt (mass (p i) * mass (p j))) (u i)) (Cconj (u j))) (Csum (seq 0 3) (fun b' => Cscal (entry G b' b) (D (3 * p i + a'')%nat (3 * p j + b')%nat)))) a' Ha').
        symmetry. set (W := Csum (seq 0 3) _). rewrite !Cscal_mul. transitivity (Cmul (Cmul (Cconj (u i)) (u i)) (Cmul (Cmul (RtoC (1 / sqrt (mass (p i) * mass (p j)))) (Cconj (u j))) W)); [|ring].
        rewrite (U i Hi). ring.
      * transitivity (Csum (seq 0 n) (fun j => Csum (seq 0 3) (fun b => Csum (seq 0 3) (fun a => Cmul (Cconj (u i)) (Cscal (entry G a' a)
           (Cmul (Cscal (1 / sqrt (mass' ((3 * i + a) / 3)%nat * mass' ((3 * j + b) / 3)%nat)) (D' (3 * i + a)%nat (3 * j + b)%nat)) (v (3 * j + b)%nat))))))).
        -- apply Csum_ext. intros j Hj. apply in_seq in Hj. apply Csum_ext. intros b Hb. apply in_seq in Hb.
           destruct (index3 j b ltac:(lia)) as [-> _]. destruct (At i Hi) as [Mi _]. destruct (At j ltac:(lia)) as [Mj _].
           rewrite (Csum_ext (seq 0 3) (fun a => Cmul (Cconj (u i)) _) (fun a => Cmul (Cconj (u i)) (Cscal (entry G a' a)
             (Cmul (Cscal (1 / sqrt (mass (p i) * mass (p j))) (D' (3 * i + a)%nat (3 * j + b)%nat)) (v (3 * j + b)%nat))))).
           2:{ intros a Ha. apply in_seq in Ha. destruct (index3 i a ltac:(lia)) as [-> _]. rewrite Mi, Mj. reflexivity. }
           rewrite !cthree. apply C_eq; cbn [re im Cadd Cscal Cmul Cconj]; ring.
        -- rewrite <- Csum_mul. rewrite (Csum_ext (seq 0 n) _ (fun j => Csum (seq 0 3) (fun a => Csum (seq 0 3) (fun b => Cmul (Cconj (u i)) (Cscal (entry G a' a)
             (Cmul (Cscal (1 / sqrt (mass' ((3 * i + a) / 3)%nat * mass' ((3 * j + b) / 3)%nat)) (D' (3 * i + a)%nat (3 * j + b)%nat)) (v (3 * j + b)%nat))))))) by (intros; apply Csum_exchange).
           rewrite Csum_exchange. apply Csum_ext. intros a _. rewrite flat_sum, <- Csum_scal, <- Csum_mul. apply Csum_ext. intros j _.
           rewrite <- Csum_scal, <- Csum_mul. reflexivity.
  - intros m k Hm Hk. cbn [seen_modes m_evec]. rewrite by_atoms. specialize (O m k Hm Hk). cbv beta in O. rewrite flat_sum in O. rewrite <- O.
    apply Csum_ext. intros i Hi. apply in_seq in Hi.
    rewrite (Csum_ext _ _ (fun a' => Cmul (Cconj (Csum (seq 0 3) (fun a => Cscal (entry G a' a) (m_evec md m (3 * i + a)%nat)))) (Csum (seq 0 3) (fun b => Cscal (entry G a' b) (m_evec md k (3 * i + b)%nat))))).
    2:{ intros a' Ha'. apply in_seq in Ha'. rewrite !seen_at by lia. set (x := Csum (seq 0 3) _). set (y := Csum (seq 0 3) (fun b => Cscal _ (m_evec md k _))).
        rewrite Cconj_mul, Cconj_conj. transitivity (Cmul (Cmul (Cconj (u i)) (u i)) (Cmul (Cconj x) y)); [ring|]. rewrite (U i) by lia. ring. }
    apply (dot_back (fun a => m_evec md m (3 * i + a)%nat) (fun b => m_evec md k (3 * i + b)%nat)).
Qed.
End Two.
