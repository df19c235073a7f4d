(** The real-space correction (C15). *)
From Verif Require Import Base Cpx Vec3 M_grid M_cell M_qpts M_dynmat S_dynmat M_struct S_struct L_scidx L_conv L_util M_asr S_asr L_asr.
Open Scope R_scope.

Definition relf (t : list (list nat)) (nc c : nat) : nat := nth c (nth nc t []) 0%nat.
Lemma min_abs_spec n ev : (0 < n)%nat -> (forall m, (m < n)%nat -> 0 <= min_abs n ev <= Rabs (ev m)) /\ exists m, (m < n)%nat /\ min_abs n ev = Rabs (ev m).
Proof.
  intros H. unfold min_abs. assert (G : forall l, (forall m, In m l -> 0 <= fold_right (fun m x => Rmin (Rabs (ev m)) x) (Rabs (ev 0%nat)) l <= Rabs (ev m)) /\ (0 <= fold_right (fun m x => Rmin (Rabs (ev m)) x) (Rabs (ev 0%nat)) l) /\ exists m, (m = 0%nat \/ In m l) /\ fold_right (fun m x => Rmin (Rabs (ev m)) x) (Rabs (ev 0%nat)) l = Rabs (ev m)).
  { induction l as [|a l (I1 & I2 & m0 & I3 & I4)]; cbn [fold_right]; [split; [intros m []|split; [apply Rabs_pos|exists 0%nat; split; [left; reflexivity|reflexivity]]]|].
    set (y := fold_right _ _ l) in *. pose proof (Rabs_pos (ev a)). pose proof (Rmin_l (Rabs (ev a)) y). pose proof (Rmin_r (Rabs (ev a)) y). pose proof (Rmin_glb (Rabs (ev a)) y 0 H0 I2).
    split; [intros m [->|M]; [lra|specialize (I1 m M); lra]|]. split; [assumption|]. destruct (Rle_dec (Rabs (ev a)) y) as [Q|Q]; [exists a; split; [right; left; reflexivity|apply Rmin_left; exact Q]|].
    exists m0. split; [destruct I3; [left|right; right]; assumption|]. rewrite Rmin_right by lra. exact I4. }
  destruct (G (seq 0 n)) as (G1 & _ & m & G2 & G3). split; [intros k K; apply G1; apply in_seq; lia|]. exists m. split; [destruct G2 as [->|G2]; [exact H|apply in_seq in G2; lia]|exact G3].
Qed.

Section Realspace.
Variables (d : fcdata) (chunk : nat) (t : list (list nat)).
Hypothesis Hchunk : (0 < chunk)%nat.
Hypothesis Hdet : zdet3 (f_sc d) <> 0%Z.
Hypothesis Hbig : (Z.abs (zdet3 (f_sc d)) < 2 ^ 48)%Z.
Hypothesis Hhome : home_first d.
Hypothesis Hdist : distinct_cells d.
Hypothesis Ht : supercell_relative_idx chunk (f_origins d) (f_sc d) = Ok t.
Variable p : nat -> nat.
Hypothesis Hp : forall nc, (nc < n_cells d)%nat -> (p nc < n_cells d)%nat /\ p (p nc) = nc /\ same_mod_supercell (f_sc d) (zopp3 (nth nc (f_origins d) (0,0,0)%Z)) (nth (p nc) (f_origins d) (0,0,0)%Z).
Hypothesis Hfc : forall nc a b, (nc < n_cells d)%nat -> (a < 3 * n_atoms d)%nat -> (b < 3 * n_atoms d)%nat -> f_fc d nc a b = f_fc d (p nc) b a.
Notation o k := (nth k (f_origins d) (0,0,0)%Z).
Notation n3 := (3 * n_atoms d)%nat.
Notation N := (n_cells d).
Notation rel := (relf t).
Notation sq := (sq_fc n3 rel (f_fc d)).

Lemma rel_facts nc j : (nc < N)%nat -> (j < N)%nat -> (rel nc j < N)%nat /\ same_mod_supercell (f_sc d) (o (rel nc j)) (zsub3 (o j) (o nc)).
Proof.
  intros H1 H2. pose proof (rel_idx_spec chunk (f_origins d) (f_sc d) Hchunk Hdet Hbig) as S. cbv zeta in S. rewrite Ht in S. destruct S as (_ & S). destruct (S nc H1) as (_ & S2). destruct (S2 j H2) as (A & B & _). split; assumption.
Qed.
Lemma unique k k' z : (k < N)%nat -> (k' < N)%nat -> same_mod_supercell (f_sc d) (o k) z -> same_mod_supercell (f_sc d) (o k') z -> k = k'.
Proof.
  intros K K' A B. apply Hdist; [exact K|exact K'|]. apply same_lat. apply same_lat in A, B. pose proof (lat_add _ _ _ A (lat_opp _ _ B)) as X.
  replace (zsub3 (o k') (o k)) with (zadd3 (zsub3 z (o k)) (zopp3 (zsub3 z (o k')))); [exact X|]. generalize (o k) (o k'). intros u w. unfold zsub3. clear. z3.
Qed.
Lemma rel_p c c' : (c < N)%nat -> (c' < N)%nat -> p (rel c' c) = rel c c'.
Proof.
  intros H H'. destruct (rel_facts c c' H H') as (A1 & A2). destruct (rel_facts c' c H' H) as (B1 & B2). destruct (Hp _ B1) as (P1 & _ & P3).
  apply (unique _ _ (zsub3 (o c') (o c))); [exact P1|exact A1| |exact A2]. apply same_lat. apply same_lat in B2, P3.
  pose proof (lat_opp _ _ (lat_add _ _ _ B2 P3)) as X. set (k := rel c' c) in *. 
  replace (zsub3 (zsub3 (o c') (o c)) (o (p k))) with (zopp3 (zadd3 (zsub3 (zsub3 (o c) (o c')) (o k)) (zsub3 (o (p k)) (zopp3 (o k))))); [exact X|].
  generalize (o k) (o (p k)) (o c) (o c'). intros u w x y. unfold zsub3. clear. z3.
Qed.
Lemma rel_home c : (c < N)%nat -> rel 0%nat c = c.
Proof.
  intros H. assert (H0 : (0 < N)%nat) by lia. destruct (rel_facts 0 c H0 H) as (A1 & A2). apply (unique _ _ (zsub3 (o c) (o 0%nat))); [exact A1|exact H|exact A2|]. apply same_lat. rewrite Hhome.
  replace (zsub3 (zsub3 (o c) (0, 0, 0)%Z) (o c)) with (0, 0, 0)%Z; [apply lat_zero|]. generalize (o c). intros u. unfold zsub3. clear. z3.
Qed.
Lemma rel_back c : (c < N)%nat -> rel c 0%nat = p c.
Proof. intros H. rewrite <- (rel_p c 0 H) by lia. f_equal. exact (rel_home c H). Qed.
Lemma rel_inj nc j j' : (nc < N)%nat -> (j < N)%nat -> (j' < N)%nat -> rel nc j = rel nc j' -> j = j'.
Proof.
  intros H J J' E. destruct (rel_facts nc j H J) as (_ & A). destruct (rel_facts nc j' H J') as (_ & B).  rewrite <- E in B. set (k := rel nc j) in *. apply Hdist; [exact J|exact J'|]. apply same_lat. apply same_lat in A, B.
  pose proof (lat_add _ _ _ B (lat_opp _ _ A)) as X. replace (zsub3 (o j') (o j)) with (zadd3 (zsub3 (zsub3 (o j') (o nc)) (o k)) (zopp3 (zsub3 (zsub3 (o j) (o nc)) (o k)))); [exact X|].
  generalize (o k) (o nc) (o j) (o j'). intros u w x y. unfold zsub3. clear. z3.
Qed.
Lemma p_inj c c' : (c < N)%nat -> (c' < N)%nat -> p c = p c' -> c = c'.
Proof. intros H H' E. destruct (Hp c H) as (_ & A & _). destruct (Hp c' H') as (_ & B & _). congruence. Qed.
(** Blocks *)
Lemma sq_block c c' a b : (a < n3)%nat -> (b < n3)%nat -> sq (c * n3 + a)%nat (c' * n3 + b)%nat = f_fc d (rel c c') b a.
Proof.
  intros A B. unfold sq_fc. rewrite !(Nat.add_comm (_ * n3)). rewrite !Nat.div_add, !Nat.mod_add by lia. rewrite !Nat.div_small, !Nat.mod_small by assumption. reflexivity.
Qed.
Lemma blocks i : (i < n3 * N)%nat -> exists c a, (c < N)%nat /\ (a < n3)%nat /\ i = (c * n3 + a)%nat.
Proof.
  intros H. exists (i / n3)%nat, (i mod n3)%nat. assert (n3 <> 0)%nat by lia. split; [apply Nat.div_lt_upper_bound; assumption|]. split; [apply Nat.mod_upper_bound; assumption|]. pose proof (Nat.div_mod i n3). lia.
Qed.
Lemma sq_sym i j : (i < n3 * N)%nat -> (j < n3 * N)%nat -> sq i j = sq j i.
Proof.
  intros I J. destruct (blocks i I) as (c & a & C1 & A1 & ->). destruct (blocks j J) as (c' & b & C2 & B1 & ->). rewrite !sq_block by assumption. rewrite <- (rel_p c' c C2 C1). apply Hfc; [exact (proj1 (rel_facts c c' C1 C2))|exact B1|exact A1].
Qed.
Lemma sq_supercell : supercell_matrix d sq.
Proof.
  intros c c' k a b C1 C2 K A B S. cbv zeta. rewrite sq_block by assumption. f_equal. destruct (rel_facts c c' C1 C2) as (R1 & R2). exact (unique _ _ _ R1 K R2 S).
Qed.
Lemma sq_column c a b : (c < N)%nat -> (a < n3)%nat -> (b < n3)%nat -> sq (c * n3 + a)%nat b = f_fc d c a b.
Proof.
  intros C1 A B. pose proof (sq_block c 0 a b A B) as E. rewrite Nat.mul_0_l, Nat.add_0_l in E. rewrite E. rewrite (rel_back c C1). symmetry. apply Hfc; assumption.
Qed.
Lemma third : (n3 * N / 3)%nat = (n_atoms d * N)%nat.
Proof. rewrite <- Nat.mul_assoc, (Nat.mul_comm 3), Nat.div_mul by lia. reflexivity. Qed.
Lemma sq_sum_rule : sum_rule d -> forall i x, (i < n3 * N)%nat -> (x < 3)%nat -> sumn (n_atoms d * N) (fun k => sq i (3 * k + x)%nat) = 0.
Proof.
  intros S i x I X. destruct (blocks i I) as (c & a & C1 & A1 & ->). rewrite sumn_blocks.
  rewrite (sumn_ext N _ (fun c' => sumn (n_atoms d) (fun k => f_fc d (rel c c') (3 * k + x)%nat a))).
  2:{ intros c' _. apply sumn_ext. intros k K. replace (3 * (c' * n_atoms d + k) + x)%nat with (c' * n3 + (3 * k + x))%nat by lia. apply sq_block; lia. }
  rewrite (sumn_reindex N (rel c) (fun c' => sumn (n_atoms d) (fun k => f_fc d c' (3 * k + x)%nat a))); [|intros j J; exact (proj1 (rel_facts c j C1 J))|intros j j' J J' E; exact (rel_inj c j j' C1 J J' E)].
  rewrite <- (S a x A1 X). rewrite <- (sumn_reindex N p (fun c' => sumn (n_atoms d) (fun k => f_fc d c' a (3 * k + x)%nat))); [|intros j J; exact (proj1 (Hp j J))|exact p_inj].
  apply sumn_ext. intros c' C2. apply sumn_ext. intros k K. apply Hfc; lia.
Qed.
Section Found.
Variables (ev : nat -> R) (v : nat -> nat -> R) (argsort : list R -> list nat) (ac : list nat).
Hypothesis Heig : eigen_system (n3 * N) (sym_upper sq) ev v.
Hypothesis Hsort : sorts argsort.
Hypothesis Hac : find_acoustic_modes argsort (n3 * N) (fun i m => RtoC (v i m)) = Some ac.
Definition fixed (c a b : nat) : R := subtract_modes (fun k => 1 / 10 ^ 8 * min_abs (n3 * N) ev + ev k) v ac sq (c * n3 + a)%nat b.
Lemma eig_sq : eigen_system (n3 * N) sq ev v.
Proof. destruct Heig as (E & O). split; [|exact O]. intros m M. apply (eigenvector_ext _ (sym_upper sq)); [|exact (E m M)]. apply sym_upper_id. intros; apply sq_sym; assumption. Qed.
Lemma found_facts : length ac = 3%nat /\ NoDup ac /\ (forall a, In a ac -> (a < n3 * N)%nat /\ 1 / 2 * INR (n_atoms d * N) < total_displacement_sq (n_atoms d * N) (fun i => v i a)) /\
  forall a k, In a ac -> (k < n3 * N)%nat -> ~ In k ac -> total_displacement_sq (n_atoms d * N) (fun i => v i k) <= total_displacement_sq (n_atoms d * N) (fun i => v i a).
Proof.
  destruct (found_large argsort (n3 * N) _ ac Hsort Hac) as (L & D & B & M). rewrite third in *. split; [exact L|]. split; [exact D|]. split; [intros a A; specialize (B a A); rewrite com_real in B; exact B|].
  intros a k A K X. specialize (M a k A K X). rewrite !com_real in M. exact M.
Qed.
Lemma fixed_spec c a b : (c < N)%nat -> (a < n3)%nat -> (b < n3)%nat ->
  fixed c a b = f_fc d c a b - Sum ac (fun k => (1 / 10 ^ 8 * min_abs (n3 * N) ev + ev k) * (v (c * n3 + a)%nat k * v b k)).
Proof. intros C1 A B. unfold fixed. rewrite subtract_sum, sq_column by assumption. reflexivity. Qed.
(** Force constants that obey the sum rule are not changed. *)
Lemma fixed_same : sum_rule d -> forall c a b, (c < N)%nat -> (a < n3)%nat -> (b < n3)%nat -> fixed c a b = f_fc d c a b.
Proof.
  intros S c a b C1 A B. rewrite fixed_spec by assumption. destruct found_facts as (L & D & F & _).
  assert (Z : forall k, In k ac -> ev k = 0).
  { intros k K. destruct (F k K) as (K1 & K2). destruct (Req_dec (ev k) 0) as [|E]; [assumption|exfalso].
    assert (Q : total_displacement_sq (n_atoms d * N) (fun i => v i k) = 0).
    { apply (no_com (n_atoms d * N) (sym_upper sq) (ev k)); [apply sym_upper_sym| | |exact E].
      - replace (3 * (n_atoms d * N))%nat with (n3 * N)%nat by lia. exact (proj1 Heig k K1).
      - intros i x I X. rewrite <- (sq_sum_rule S i x) by lia. apply sumn_ext. intros j J. apply (sym_upper_id (n3 * N)); [intros; apply sq_sym; assumption|lia|lia]. }
    rewrite Q in K2. pose proof (pos_INR (n_atoms d * N)). lra. }
  rewrite Sum_zero_ext; [ring|]. intros k K. rewrite (Z k K). assert (POS : (0 < n3 * N)%nat) by (pose proof (proj1 (F k K)); lia). destruct (min_abs_spec (n3 * N) ev POS) as (M1 & _). specialize (M1 k (proj1 (F k K))). rewrite (Z k K), Rabs_R0 in M1. replace (min_abs (n3 * N) ev) with 0 by lra. ring.
Qed.
(** The gamma matrix after the correction *)
Hypothesis Hper : forall k, In k ac -> same_in_cells d (fun i => v i k).
Lemma gamma_sym a b : (a < n3)%nat -> (b < n3)%nat -> gamma_matrix N (f_fc d) a b = gamma_matrix N (f_fc d) b a.
Proof.
  intros A B. unfold gamma_matrix. rewrite <- (sumn_reindex N p (fun c => f_fc d c b a)); [|intros j J; exact (proj1 (Hp j J))|exact p_inj]. apply sumn_ext. intros c C1. apply Hfc; assumption.
Qed.
Lemma inner k f : In k ac -> sumn (n3 * N) (fun i => v i k * f (i mod n3)%nat) = INR N * sumn n3 (fun a => v a k * f a).
Proof.
  intros K. rewrite (sumn_blocks N n3). rewrite (sumn_ext N _ (fun _ => sumn n3 (fun a => v a k * f a))); [unfold sumn at 1; rewrite Sum_const, seq_length; reflexivity|].
  intros c C1. apply sumn_ext. intros a A. rewrite (Hper k K c a C1 A). rewrite Nat.add_comm, Nat.mod_add by lia. rewrite Nat.mod_small by exact A. reflexivity.
Qed.
Lemma gamma_old k : In k ac -> eigenvector n3 (gamma_matrix N (f_fc d)) (ev k) (fun a => v a k).
Proof.
  intros K a A. destruct found_facts as (_ & _ & F & _). destruct (F k K) as (K1 & _). pose proof (proj1 eig_sq k K1 a) as E. cbv beta in E. assert (POS : (0 < N)%nat) by (destruct N; [rewrite Nat.mul_0_r in K1; lia|lia]). assert (A' : (a < n3 * N)%nat) by (apply Nat.lt_le_trans with (n3 * 1)%nat; [rewrite Nat.mul_1_r; exact A|apply Nat.mul_le_mono_l; exact POS]). rewrite <- (E A'). rewrite (sumn_blocks N n3). 
  rewrite (sumn_ext N _ (fun c => sumn n3 (fun b => f_fc d c b a * v b k))).
  - rewrite sumn_exchange. apply sumn_ext. intros b B. rewrite gamma_sym by assumption. unfold gamma_matrix. rewrite Rmult_comm, <- sumn_scal. apply sumn_ext. intros c _. ring.
  - intros c C1. apply sumn_ext. intros b B. rewrite (Hper k K c b C1 B). pose proof (sq_block 0 c a b A B) as G. rewrite Nat.mul_0_l, Nat.add_0_l in G. rewrite G, rel_home by exact C1. reflexivity.
Qed.
Lemma gamma_new f a : (a < n3)%nat -> sumn n3 (fun b => gamma_matrix N fixed a b * f b) =
  sumn n3 (fun b => gamma_matrix N (f_fc d) a b * f b) - Sum ac (fun k => (1 / 10 ^ 8 * min_abs (n3 * N) ev + ev k) * v a k * (INR N * sumn n3 (fun b => v b k * f b))).
Proof.
  intros A. rewrite (sumn_ext n3 _ (fun b => gamma_matrix N (f_fc d) a b * f b - Sum ac (fun k => (1 / 10 ^ 8 * min_abs (n3 * N) ev + ev k) * v a k * (INR N * (v b k * f b))))).
  - rewrite sumn_minus. f_equal. unfold sumn. rewrite Sum_exchange. apply Sum_ext. intros k _. rewrite Sum_scal. f_equal. rewrite Sum_scal. reflexivity.
  - intros b B. unfold gamma_matrix. rewrite (sumn_ext N (fun c => fixed c a b) (fun c => f_fc d c a b - Sum ac (fun k => (1 / 10 ^ 8 * min_abs (n3 * N) ev + ev k) * (v a k * v b k)))).
    + rewrite sumn_minus. unfold sumn at 2. rewrite Sum_const, seq_length. rewrite Rmult_minus_distr_r. f_equal. rewrite Rmult_comm, <- Rmult_assoc, <- Sum_scal. apply Sum_ext. intros k _. ring.
    + intros c C1. rewrite fixed_spec by assumption. f_equal. apply Sum_ext. intros k K. rewrite (Hper k K c a C1 A). reflexivity.
Qed.
Lemma gamma_acoustic k : In k ac -> eigenvector n3 (gamma_matrix N fixed) (- (1 / 10 ^ 8 * min_abs (n3 * N) ev)) (fun a => v a k).
Proof.
  intros K a A. rewrite gamma_new by exact A. rewrite (gamma_old k K a A). destruct found_facts as (_ & D & F & _). destruct eig_sq as (_ & O).
  rewrite (Sum_ext ac _ (fun j => if Nat.eqb j k then (1 / 10 ^ 8 * min_abs (n3 * N) ev + ev j) * v a j else 0)).
  - rewrite (Sum_pick ac k (fun j => (1 / 10 ^ 8 * min_abs (n3 * N) ev + ev j) * v a j) D K). ring.
  - intros j J. rewrite <- (inner j (fun b => v b k) J). rewrite (sumn_ext (n3 * N) _ (fun i => v i j * v i k)).
    + rewrite (O j k (proj1 (F j J)) (proj1 (F k K))). destruct (Nat.eqb j k); ring.
    + intros i I. destruct (blocks i I) as (c & b & C1 & B & ->). rewrite (Hper k K c b C1 B). rewrite Nat.add_comm, Nat.mod_add by lia. rewrite Nat.mod_small by exact B. reflexivity.
Qed.
Lemma gamma_optic f : (forall k, In k ac -> sumn n3 (fun b => v b k * f b) = 0) -> forall a, (a < n3)%nat -> sumn n3 (fun b => gamma_matrix N fixed a b * f b) = sumn n3 (fun b => gamma_matrix N (f_fc d) a b * f b).
Proof. intros H a A. rewrite gamma_new by exact A. rewrite Sum_zero_ext; [ring|]. intros k K. rewrite (H k K). ring. Qed.
End Found.
End Realspace.
