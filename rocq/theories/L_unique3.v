(** Two calculations with different eigensolvers; the frequencies at q + G and at -q. *)
From Coq Require Import FunctionalExtensionality Permutation.
From Verif Require Import Base Cpx Vec3 M_dos M_sf M_grid M_cell M_qpts M_dynmat M_dipole M_struct M_asr M_calc
  S_qpts S_dynmat S_dipole S_asr S_calc S_unique L_util L_qpts L_dynmat2 L_dipole L_nac L_conv L_asr L_calc L_calc2 L_spectral L_unique L_unique2.
From Verif Require L_phmodes L_double2 L_calc7 L_dos2.
Open Scope R_scope.

Notation plain := (fun _ : nat => 1).
Lemma herm_upper_herm A : hermitian (herm_upper A).
Proof.
  intros i j. unfold herm_upper. destruct (Nat.ltb_spec i j), (Nat.ltb_spec j i); try lia.
  - reflexivity.
  - apply C_eq; cbn; ring.
  - assert (i = j) as -> by lia. apply C_eq; cbn; ring.
Qed.
Lemma freq_square l : freq_of_eval l * Rabs (freq_of_eval l) = l.
Proof.
  unfold freq_of_eval. destruct (Rlt_dec l 0) as [L|L].
  - rewrite Rabs_mult, (Rabs_pos_eq (sqrt _)) by apply sqrt_pos. rewrite (Rabs_left (-1)) by lra.
    replace (sqrt (Rabs l) * -1 * (sqrt (Rabs l) * - -1)) with (- (sqrt (Rabs l) * sqrt (Rabs l))) by ring.
    rewrite sqrt_sqrt by apply Rabs_pos. rewrite Rabs_left by exact L. ring.
  - rewrite (Rabs_pos_eq (sqrt _)) by apply sqrt_pos. rewrite sqrt_sqrt by apply Rabs_pos. apply Rabs_pos_eq. lra.
Qed.
Lemma freq_mono x y : x <= y -> freq_of_eval x <= freq_of_eval y.
Proof.
  intros H. destruct (Rle_lt_dec (freq_of_eval x) (freq_of_eval y)) as [L|L]; [exact L|exfalso].
  pose proof (freq_square x) as Ex. pose proof (freq_square y) as Ey. unfold Rabs in *.
  destruct (Rcase_abs (freq_of_eval x)), (Rcase_abs (freq_of_eval y)); nra.
Qed.
Lemma modes_plain n A md : ceigen_system n A (fun m => m_freq md m * Rabs (m_freq md m)) (fun i m => m_evec md m i) -> modes_of n plain A md.
Proof.
  intros [E O]. split; [|exact O]. intros m Hm i Hi. rewrite <- (E m Hm i Hi). apply Csum_ext. intros j _.
  replace (1 / sqrt (1 * 1)) with 1; [apply C_eq; cbn; ring|]. rewrite Rmult_1_r, sqrt_1. field.
Qed.
Lemma solve_system ceigh n mass D G md : csolves ceigh -> solve ceigh n mass D G = Some md -> modes_of n plain (herm_upper (mass_weight mass D)) md.
Proof.
  intros Hs E. unfold solve in E. destruct (ceigh n (herm_upper (mass_weight mass D))) as [[ev v]|] eqn:Es; [|discriminate]. injection E as <-.
  apply modes_plain. cbn [m_freq m_evec]. destruct (Hs _ _ _ _ (herm_upper_herm _) Es) as [E1 E2]. split; [|exact E2].
  intros m Hm i Hi. rewrite freq_square. exact (E1 m Hm i Hi).
Qed.
Lemma solve_ascending ceigh n mass D G md : csorts ceigh -> solve ceigh n mass D G = Some md -> ascending n (m_freq md).
Proof.
  intros Hs E. unfold solve in E. destruct (ceigh n (herm_upper (mass_weight mass D))) as [[ev v]|] eqn:Es; [|discriminate]. injection E as <-.
  intros i j L J. cbn [m_freq]. apply freq_mono. exact (Hs _ _ _ _ Es i j L J).
Qed.

Section Calc.
Variable erfc : R -> R.
Variable reigh : real_eigh.
Variable argsort : list R -> list nat.
Variable chunk : nat.

(** the matrix used at one q-point, before mass weighting: the eigensolver plays no part in it *)
Definition matrix_at (junk : nat -> nat -> nat -> R) (o : options) (x : fcobj) (fc : nat -> nat -> nat -> R) (q : V3) (dir : option V3) : nat -> nat -> C :=
  full_dyn_mat (o_d x) (images_of x) (fc_img_weighted (images_of x) junk fc)
    (match o_born x, dipole_of erfc x o with
     | Some bo, Some (_, dat) => if p_dipole o then Some (bo, o_diel x, dat) else None
     | _, _ => None
     end) None (o_born x) (o_diel x) q dir.

Lemma call_solves ceigh junk o x qpts w ms : p_asr o <> Some Reciprocal -> result erfc reigh ceigh argsort chunk junk o x = Ok (qpts, w, ms) ->
  exists kept fc warn, asr_of reigh argsort chunk x o = Ok (kept, fc, warn) /\
  qpts = the_qpts x o /\ w = final_weights (length qpts) (the_weights x o) /\ length ms = length qpts /\
  forall k q, nth_error qpts k = Some q -> exists md G, nth_error ms k = Some md /\
    solve ceigh (3 * n_atoms (o_d x)) (o_mass x)
      (matrix_at junk o x fc (if p_reduce o then canon q else q) (if (use_splitting x o && is_gamma q)%bool then Some (approach qpts k) else None)) G = Some md.
Proof.
  intros Ha H. unfold M_calc.result, M_calc.call in H.
  destruct (weights_ok o); cbn [negb snd] in H; [|discriminate].
  destruct (the_q_dirs x o); [|discriminate].
  destruct (asr_of reigh argsort chunk x o) as [[[kept fc] warn]|]; cbn [snd] in H; [|discriminate].
  exists kept, fc, warn. split; [reflexivity|].
  replace (match p_asr o with Some Realspace => None | Some Reciprocal => _ | None => None end) with (@None (nat -> nat -> C)) in H
    by (destruct (p_asr o) as [[]|]; congruence).
  match type of H with match calculate ?f _ _ _ _ with _ => _ end = _ => set (calc := f) in H end.
  destruct (calculate_correct _ calc None (p_reduce o) (use_splitting x o) (the_qpts x o)) as (out & E & Ln & P).
  rewrite E in H.
  destruct (mapE _ out) as [ms'|] eqn:Em; [|discriminate].
  assert (Q : qpts = the_qpts x o /\ w = final_weights (length (the_qpts x o)) (the_weights x o) /\ ms = ms') by (split; [congruence|split; congruence]). destruct Q as (Eq & Ew & Ems). subst ms'.
  clear H. split; [exact Eq|]. split; [rewrite Eq; exact Ew|]. apply L_dos2.mapE_inv in Em. destruct Em as [Lm Pm]. split; [congruence|].
  intros k q Hk. rewrite <- Eq in P. specialize (P k q Hk).
  assert (Hlt : (k < length out)%nat) by (apply nth_error_Some; congruence).
  pose (md0 := mkModes (fun _ => 0) (fun _ _ => Czero) None).
  specialize (Pm k None md0 Hlt). apply (nth_error_nth _ _ None) in P. rewrite P in Pm.
  exists (nth k ms md0). 
  set (dir := if (use_splitting x o && is_gamma q)%bool then _ else _) in *.
  destruct (calc _ dir) as [md|] eqn:Ec; [|discriminate]. assert (md = nth k ms md0) as <- by congruence.
  unfold calc in Ec. eexists. split; [|exact Ec].
  replace md with (nth k ms md0) by congruence. apply nth_error_nth'. lia.
Qed.

Lemma nth_error_at {A} (l : list A) k da : (k < length l)%nat -> nth_error l k = Some (nth k l da).
Proof. intros H. apply nth_error_nth'. exact H. Qed.

Lemma two_calculations ceigh ceigh' d mass born diel cs cs' junk junk' o r r' : csolves ceigh -> csolves ceigh' -> p_asr o <> Some Reciprocal ->
  result erfc reigh ceigh argsort chunk junk o (after erfc reigh ceigh argsort chunk (new_fc d mass born diel) cs) = Ok r ->
  result erfc reigh ceigh' argsort chunk junk' o (after erfc reigh ceigh' argsort chunk (new_fc d mass born diel) cs') = Ok r' ->
  fst (fst r) = fst (fst r') /\ same_points (table_of (n_atoms d) r) (table_of (n_atoms d) r') /\
  (exists A, table_modes (table_of (n_atoms d) r) plain A /\ table_modes (table_of (n_atoms d) r') plain A) /\
  (csorts ceigh -> csorts ceigh' -> forall q m, (q < length (fst (fst r)))%nat -> (m < 3 * n_atoms d)%nat ->
     freq (et (table_of (n_atoms d) r)) q m = freq (et (table_of (n_atoms d) r')) q m).
Proof.
  intros Hs Hs' Ha H H'. pose (j := fun _ _ _ : nat => 0).
  rewrite (history _ _ _ _ _ _ _ _ _ _ _ j) in H. rewrite (history _ _ _ _ _ _ _ _ _ _ _ j) in H'.
  destruct r as [[qpts w] ms], r' as [[qpts' w'] ms'].
  destruct (call_solves _ _ _ _ _ _ _ Ha H) as (kept & fc & warn & E & Q & W & Ln & P).
  destruct (call_solves _ _ _ _ _ _ _ Ha H') as (kept' & fc' & warn' & E' & Q' & W' & Ln' & P').
  rewrite E in E'. injection E' as <- <- <-. assert (qpts' = qpts) as -> by congruence. assert (w' = w) as -> by congruence.
  cbn [o_d o_mass new_fc] in P, P'. cbn [fst].
  set (A := fun k => herm_upper (mass_weight mass (matrix_at j o (new_fc d mass born diel) fc (if p_reduce o then canon (nth k qpts vzero) else nth k qpts vzero)
              (if (use_splitting (new_fc d mass born diel) o && is_gamma (nth k qpts vzero))%bool then Some (approach qpts k) else None)))).
  assert (T : forall ce mss, csolves ce -> (forall k q, nth_error qpts k = Some q -> exists md G, nth_error mss k = Some md /\
     solve ce (3 * n_atoms d) mass (matrix_at j o (new_fc d mass born diel) fc (if p_reduce o then canon q else q)
        (if (use_splitting (new_fc d mass born diel) o && is_gamma q)%bool then Some (approach qpts k) else None)) G = Some md) ->
     table_modes (table_of (n_atoms d) (qpts, w, mss)) plain A).
  { intros ce mss Hc K. split; [reflexivity|]. cbn [table_of et nq M_dos.n_atoms]. intros q Hq.
    destruct (K q (nth q qpts vzero) (nth_error_at qpts q vzero Hq)) as (md & G & M1 & M2).
    pose proof (solve_system _ _ _ _ _ _ Hc M2) as [S1 S2].
    assert (N : nth q mss (mkModes (fun _ => 0) (fun _ _ => Czero) None) = md) by (apply nth_error_nth; exact M1).
    assert (I : forall i, (3 * (i / 3) + i mod 3)%nat = i) by (intros i; symmetry; apply Nat.div_mod; lia).
    split.
    - intros m Hm i Hi. cbn [modes_at m_freq m_evec table_of et freq evec]. rewrite N, I. specialize (S1 m Hm i Hi).
      rewrite <- S1. apply Csum_ext. intros b _. rewrite I. reflexivity.
    - intros m k Hm Hk. specialize (S2 m k Hm Hk). cbv beta in S2. rewrite <- S2. apply Csum_ext. intros i _.
      cbn [modes_at m_evec table_of et freq evec]. rewrite N, I. reflexivity. }
  pose proof (T ceigh ms Hs P) as T1. pose proof (T ceigh' ms' Hs' P') as T2.
  split; [reflexivity|]. split; [split; [reflexivity|split; [reflexivity|intros; reflexivity]]|]. split; [exists A; split; assumption|].
  intros O O' q m Hq Hm. destruct T1 as [_ T1]. destruct T2 as [_ T2]. specialize (T1 q Hq). specialize (T2 q Hq).
  refine (modes_equal _ _ _ _ _ T1 T2 _ _ m Hm); cbn [modes_at m_freq table_of et freq].
  - destruct (P q _ (nth_error_at qpts q vzero Hq)) as (md & G & M1 & M2). rewrite (nth_error_nth _ _ _ M1). exact (solve_ascending _ _ _ _ _ _ O M2).
  - destruct (P' q _ (nth_error_at qpts q vzero Hq)) as (md & G & M1 & M2). rewrite (nth_error_nth _ _ _ M1). exact (solve_ascending _ _ _ _ _ _ O' M2).
Qed.

(** ** q + G and -q *)
Lemma frac_dist_shift x n : frac_dist (x + IZR n) = frac_dist x.
Proof.
  unfold frac_dist. apply Rle_antisym.
  - pose proof (L_double2.rint_nearest (x + IZR n) (rint x + n)) as E. rewrite plus_IZR in E. replace (x + IZR n - (IZR (rint x) + IZR n)) with (x - IZR (rint x)) in E by ring. exact E.
  - pose proof (L_double2.rint_nearest x (rint (x + IZR n) - n)) as E. rewrite minus_IZR in E. replace (x - (IZR (rint (x + IZR n)) - IZR n)) with (x + IZR n - IZR (rint (x + IZR n))) in E by ring. exact E.
Qed.
Lemma is_gamma_shift q G : is_gamma (vadd q (zvec G)) = is_gamma q.
Proof. destruct q as [[x y] z], G as [[a b] c]. cbn [vadd zvec is_gamma]. rewrite !frac_dist_shift. reflexivity. Qed.

Lemma matrix_nonpolar junk o d mass diel q dir : p_asr o = None -> forall fc, fc = f_fc d -> dir = None ->
  matrix_at junk o (new_fc d mass None diel) fc (if p_reduce o then canon q else q) dir = interp_dyn_mat d junk (if (p_reduce o && is_gamma q)%bool then vzero else q).
Proof.
  intros Ha fc -> ->. extensionality a. extensionality b. unfold matrix_at. cbn [o_d o_born o_diel new_fc images_of o_images].
  transitivity (interp_dyn_mat d junk (if p_reduce o then canon q else q) a b); [reflexivity|].
  destruct (p_reduce o); cbn [andb]; [|reflexivity]. unfold canon. destruct (is_gamma q); [reflexivity|]. apply interp_qnorm.
Qed.

Lemma conj_modes n A md : modes_of n plain A md -> modes_of n plain (fun a b => Cconj (A a b)) (mkModes (m_freq md) (fun m i => Cconj (m_evec md m i)) None).
Proof.
  intros [E O]. split.
  - intros m Hm i Hi. cbn [m_freq m_evec]. specialize (E m Hm i Hi). apply (f_equal Cconj) in E. rewrite <- Csum_conj, Cconj_scal in E.
    rewrite <- E. apply Csum_ext. intros j _. rewrite Cconj_mul, Cconj_scal. reflexivity.
  - intros m k Hm Hk. cbn [m_evec]. specialize (O m k Hm Hk). cbv beta in O. apply (f_equal Cconj) in O. rewrite <- Csum_conj in O.
    rewrite (Csum_ext _ _ (fun i => Cconj (Cmul (Cconj (m_evec md m i)) (m_evec md k i)))) by (intros i _; rewrite Cconj_mul; reflexivity).
    rewrite O. destruct (Nat.eqb m k); apply C_eq; cbn; ring.
Qed.
Lemma herm_conj A i j : herm_upper (fun a b => Cconj (A a b)) i j = Cconj (herm_upper A i j).
Proof. unfold herm_upper. destruct (Nat.ltb i j), (Nat.ltb j i); apply C_eq; cbn; ring. Qed.

Lemma equivalent_frequencies ceigh ceigh' d mass diel cs cs' junk junk' o o' qpts qpts' w w' ms ms' : csolves ceigh -> csolves ceigh' ->
  p_asr o = None -> p_asr o' = None -> p_reduce o = p_reduce o' ->
  result erfc reigh ceigh argsort chunk junk o (after erfc reigh ceigh argsort chunk (new_fc d mass None diel) cs) = Ok (qpts, w, ms) ->
  result erfc reigh ceigh' argsort chunk junk' o' (after erfc reigh ceigh' argsort chunk (new_fc d mass None diel) cs') = Ok (qpts', w', ms') ->
  forall k k' q q' md md' G, nth_error qpts k = Some q -> nth_error qpts' k' = Some q' -> nth_error ms k = Some md -> nth_error ms' k' = Some md' ->
  q' = vadd q (zvec G) \/ q' = vadd (vopp q) (zvec G) ->
  Permutation (map (m_freq md) (seq 0 (3 * n_atoms d))) (map (m_freq md') (seq 0 (3 * n_atoms d))) /\
  (csorts ceigh -> csorts ceigh' -> forall m, (m < 3 * n_atoms d)%nat -> m_freq md m = m_freq md' m).
Proof.
  intros Hs Hs' Ha Ha' Hr H H' k k' q q' md md' G K K' M M' EQ. pose (j := fun _ _ _ : nat => 0).
  rewrite (history _ _ _ _ _ _ _ _ _ _ _ j) in H. rewrite (history _ _ _ _ _ _ _ _ _ _ _ j) in H'.
  assert (Ar : p_asr o <> Some Reciprocal) by congruence. assert (Ar' : p_asr o' <> Some Reciprocal) by congruence.
  destruct (call_solves _ _ _ _ _ _ _ Ar H) as (kept & fc & warn & E & _ & _ & _ & P).
  destruct (call_solves _ _ _ _ _ _ _ Ar' H') as (kept' & fc' & warn' & E' & _ & _ & _ & P').
  unfold asr_of in E, E'. rewrite Ha in E. rewrite Ha' in E'. cbn [o_d new_fc] in E, E'.
  assert (F : fc = f_fc d) by congruence. assert (F' : fc' = f_fc d) by congruence.
  destruct (P k q K) as (md0 & g & N & S1). destruct (P' k' q' K') as (md0' & g' & N' & S1').
  assert (md0 = md) as -> by congruence. assert (md0' = md') as -> by congruence.
  assert (U : forall ox, use_splitting (new_fc d mass None diel) ox = false) by reflexivity. rewrite U in S1, S1'. cbn [andb] in S1, S1'.
  cbn [o_d o_mass new_fc] in S1, S1'.
  rewrite (matrix_nonpolar j o d mass diel q None Ha fc F eq_refl) in S1. rewrite (matrix_nonpolar j o' d mass diel q' None Ha' fc' F' eq_refl) in S1'. rewrite <- Hr in S1'.
  pose proof (solve_system _ _ _ _ _ _ Hs S1) as B. pose proof (solve_system _ _ _ _ _ _ Hs' S1') as B'.
  assert (GG : is_gamma q' = is_gamma q) by (destruct EQ as [-> | ->]; rewrite is_gamma_shift; [reflexivity|apply is_gamma_opp]).
  rewrite GG in B'.
  assert (R : exists mx, modes_of (3 * n_atoms d) plain (herm_upper (mass_weight mass (interp_dyn_mat d j (if (p_reduce o && is_gamma q)%bool then vzero else q)))) mx /\ m_freq mx = m_freq md').
  { destruct EQ as [-> | ->].
    - exists md'. split; [|reflexivity].
      replace (interp_dyn_mat d j (if (p_reduce o && is_gamma q)%bool then vzero else q)) with (interp_dyn_mat d j (if (p_reduce o && is_gamma q)%bool then vzero else vadd q (zvec G))); [exact B'|].
      extensionality a. extensionality b. destruct (p_reduce o && is_gamma q)%bool; [reflexivity|apply interp_periodic].
    - exists (mkModes (m_freq md') (fun m i => Cconj (m_evec md' m i)) None). split; [|reflexivity]. apply conj_modes in B'.
      eapply L_calc7.modes_ext; [|exact B']. intros a b _ _. cbv beta. rewrite <- herm_conj. f_equal. extensionality u. extensionality v.
      unfold mass_weight. rewrite Cconj_scal. f_equal. rewrite <- interp_conj.
      destruct (p_reduce o && is_gamma q)%bool.
      + f_equal. unfold vopp, vzero. cbn. f_equal; [f_equal|]; ring.
      + rewrite <- (interp_periodic d j q (let '(x, y, z) := G in (- x, - y, - z)%Z)). f_equal.
        destruct q as [[x y] z], G as [[g1 g2] g3]. unfold vopp. cbn. rewrite !opp_IZR. f_equal; [f_equal|]; ring. }
  destruct R as (mx & RM & RF). rewrite <- RF. split; [exact (modes_perm _ _ _ _ _ B RM)|].
  intros O O'. apply (modes_equal _ _ _ _ _ B RM); [exact (solve_ascending _ _ _ _ _ _ O S1)|]. rewrite RF. exact (solve_ascending _ _ _ _ _ _ O' S1').
Qed.
End Calc.
