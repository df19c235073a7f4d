(** The real-space correction as a whole, the reciprocal-space correction, and examples (C15). *)
From Verif Require Import Base Cpx Vec3 M_grid M_cell M_qpts M_dynmat S_dynmat M_struct S_struct L_scidx L_conv L_util M_asr S_asr L_asr L_asr2 L_dynmat2 L_near.
Open Scope R_scope.

Lemma rel_exists chunk d : (0 < chunk)%nat -> zdet3 (f_sc d) <> 0%Z -> (Z.abs (zdet3 (f_sc d)) < 2 ^ 48)%Z ->
  (forall nc j, (nc < n_cells d)%nat -> (j < n_cells d)%nat -> exists k, (k < n_cells d)%nat /\ same_mod_supercell (f_sc d) (nth k (f_origins d) (0,0,0)%Z) (zsub3 (nth j (f_origins d) (0,0,0)%Z) (nth nc (f_origins d) (0,0,0)%Z))) ->
  exists t, supercell_relative_idx chunk (f_origins d) (f_sc d) = Ok t.
Proof.
  intros H1 H2 H3 H. pose proof (rel_idx_spec chunk (f_origins d) (f_sc d) H1 H2 H3) as S. cbv zeta in S. destruct (supercell_relative_idx chunk (f_origins d) (f_sc d)) as [t|e]; [exists t; reflexivity|].
  exfalso. destruct S as (nc & j & A & B & X). destruct (H nc j A B) as (k & K & Q). exact (X k K Q).
Qed.

Section Main.
Variables (d : fcdata) (chunk : nat) (eigh : real_eigh) (argsort : list R -> list nat).
Hypothesis Hchunk : (0 < chunk)%nat.
Hypothesis Hdet : zdet3 (f_sc d) <> 0%Z.
Hypothesis Hbig : (Z.abs (zdet3 (f_sc d)) < 2 ^ 48)%Z.
Hypothesis Hhome : home_first d.
Hypothesis Hdist : distinct_cells d.
Hypothesis Hsym : fc_symmetric d.
Hypothesis Hsort : sorts argsort.
Notation n3 := (3 * n_atoms d)%nat.
Notation N := (n_cells d).

Lemma enforce_inv w fc' : enforce_realspace_asr eigh argsort chunk d = Ok (w, fc') ->
  (w = false /\ fc' = f_fc d) \/
  (w = true /\ exists t ev v ac, supercell_relative_idx chunk (f_origins d) (f_sc d) = Ok t /\ eigh (n3 * N)%nat (sym_upper (sq_fc n3 (relf t) (f_fc d))) = Some (ev, v) /\
     find_acoustic_modes argsort (n3 * N) (fun i m => RtoC (v i m)) = Some ac /\ forall c a b, fc' c a b = fixed d t ev v ac c a b).
Proof.
  unfold enforce_realspace_asr. destruct (supercell_relative_idx chunk (f_origins d) (f_sc d)) as [t|e] eqn:E; [|discriminate]. cbv zeta.
  change (fun nc c => nth c (nth nc t []) 0%nat) with (relf t).
  destruct (eigh (n3 * N)%nat (sym_upper (sq_fc n3 (relf t) (f_fc d)))) as [[ev v]|] eqn:G; [|intros [= <- <-]; left; split; reflexivity].
  destruct (find_acoustic_modes argsort (n3 * N) (fun i m => RtoC (v i m))) as [ac|] eqn:F; [|intros [= <- <-]; left; split; reflexivity].
  intros X. right. assert (w = true /\ fc' = fun c a b => subtract_modes (fun a => 1 / 10 ^ 8 * min_abs (n3 * N) ev + ev a) v ac (sq_fc n3 (relf t) (f_fc d)) (c * n3 + a)%nat b) as (-> & ->) by (split; congruence).
  split; [reflexivity|]. exists t, ev, v, ac. split; [reflexivity|]. split; [exact G|]. split; [exact F|]. intros c a b. reflexivity.
Qed.
Lemma kept w fc' : solves eigh -> sum_rule d -> enforce_realspace_asr eigh argsort chunk d = Ok (w, fc') ->
  forall c a b, (c < N)%nat -> (a < n3)%nat -> (b < n3)%nat -> fc' c a b = f_fc d c a b.
Proof.
  intros Hs S E. destruct (enforce_inv w fc' E) as [(_ & ->)|(_ & t & ev & v & ac & T & G & F & X)]; [reflexivity|].
  destruct Hsym as (p & Hp & Hfc). intros c a b C1 A B. rewrite X.
  apply (fixed_same d chunk t Hchunk Hdet Hbig Hhome Hdist T p Hp Hfc ev v argsort ac); [|exact Hsort|exact F|exact S|exact C1|exact A|exact B].
  apply Hs with (1 := sym_upper_sym _) (2 := G).
Qed.
Lemma corrected fc' : solves eigh -> enforce_realspace_asr eigh argsort chunk d = Ok (true, fc') ->
  exists A ev v ac tol, supercell_matrix d A /\ eigen_system (n3 * N) A ev v /\
    (length ac = 3%nat /\ NoDup ac /\ (forall a, In a ac -> (a < n3 * N)%nat /\ 1 / 2 * INR (n_atoms d * N) < total_displacement_sq (n_atoms d * N) (fun i => v i a)) /\
     forall a k, In a ac -> (k < n3 * N)%nat -> ~ In k ac -> total_displacement_sq (n_atoms d * N) (fun i => v i k) <= total_displacement_sq (n_atoms d * N) (fun i => v i a)) /\
    ((forall m, (m < n3 * N)%nat -> tol <= 1 / 10 ^ 8 * Rabs (ev m)) /\ exists m, (m < n3 * N)%nat /\ tol = 1 / 10 ^ 8 * Rabs (ev m)) /\
    (forall c a b, (c < N)%nat -> (a < n3)%nat -> (b < n3)%nat -> fc' c a b = f_fc d c a b - Sum ac (fun k => (tol + ev k) * (v (c * n3 + a)%nat k * v b k))) /\
    ((forall k, In k ac -> same_in_cells d (fun i => v i k)) ->
       (forall k, In k ac -> eigenvector n3 (gamma_matrix N (f_fc d)) (ev k) (fun a => v a k) /\ eigenvector n3 (gamma_matrix N fc') (- tol) (fun a => v a k)) /\
       (forall f, (forall k, In k ac -> sumn n3 (fun b => v b k * f b) = 0) -> forall a, (a < n3)%nat -> sumn n3 (fun b => gamma_matrix N fc' a b * f b) = sumn n3 (fun b => gamma_matrix N (f_fc d) a b * f b)) /\
       fc_symmetric (with_fc d fc')).
Proof.
  intros Hs E. destruct (enforce_inv true fc' E) as [(H & _)|(_ & t & ev & v & ac & T & G & F & X)]; [discriminate|].
  pose proof Hsym as (p & Hp & Hfc). pose proof (Hs _ _ _ _ (sym_upper_sym _) G) as Heig.
  exists (sq_fc n3 (relf t) (f_fc d)), ev, v, ac, (1 / 10 ^ 8 * min_abs (n3 * N) ev).
  split; [eapply sq_supercell; eassumption|].
  split; [eapply eig_sq; eassumption|].
  assert (FF' : length ac = 3%nat /\ NoDup ac /\ (forall a, In a ac -> (a < n3 * N)%nat /\ 1 / 2 * INR (n_atoms d * N) < total_displacement_sq (n_atoms d * N) (fun i => v i a)) /\
     forall a k, In a ac -> (k < n3 * N)%nat -> ~ In k ac -> total_displacement_sq (n_atoms d * N) (fun i => v i k) <= total_displacement_sq (n_atoms d * N) (fun i => v i a)) by (eapply found_facts; eassumption).
  split; [exact FF'|]. assert (POS : (0 < n3 * N)%nat). { destruct FF' as (L & _ & B & _). destruct ac as [|k ac]; [discriminate|]. pose proof (proj1 (B k (or_introl eq_refl))). lia. }
  destruct (min_abs_spec (n3 * N) ev POS) as (M1 & m0 & M2 & M3). split; [split; [intros m M; specialize (M1 m M); lra|exists m0; split; [exact M2|rewrite M3; reflexivity]]|].
  assert (FX : forall c a b, (c < N)%nat -> (a < n3)%nat -> (b < n3)%nat -> fc' c a b = f_fc d c a b - Sum ac (fun k => (1 / 10 ^ 8 * min_abs (n3 * N) ev + ev k) * (v (c * n3 + a)%nat k * v b k))).
  { intros c a b C1 A B. rewrite X. eapply (fixed_spec d chunk t Hchunk Hdet Hbig Hhome Hdist T p Hp Hfc); eassumption. }
  split; [exact FX|]. intros Hper.
  assert (GX : forall a b, gamma_matrix N fc' a b = gamma_matrix N (fixed d t ev v ac) a b) by (intros a b; apply sumn_ext; intros c _; apply X).
  split; [|split].
  - intros k K. split; [eapply (gamma_old d chunk t Hchunk Hdet Hbig Hhome Hdist T p Hp Hfc); eassumption|]. intros a A. rewrite (sumn_ext n3 _ (fun b => gamma_matrix N (fixed d t ev v ac) a b * v b k)) by (intros b _; rewrite GX; reflexivity).
    revert a A. change (eigenvector n3 (gamma_matrix N (fixed d t ev v ac)) (- (1 / 10 ^ 8 * min_abs (n3 * N) ev)) (fun a => v a k)). eapply (gamma_acoustic d chunk t Hchunk Hdet Hbig Hhome Hdist T p Hp Hfc); eassumption.
  - intros f Hf a A. rewrite (sumn_ext n3 _ (fun b => gamma_matrix N (fixed d t ev v ac) a b * f b)) by (intros b _; rewrite GX; reflexivity). eapply (gamma_optic d chunk t Hchunk Hdet Hbig Hhome Hdist T p Hp Hfc); eassumption.
  - exists p. split; [exact Hp|]. intros c a b C1 A B. cbn [f_fc with_fc]. change (n_cells (with_fc d fc')) with N in C1. change (n_atoms (with_fc d fc')) with (n_atoms d) in A, B.
    destruct (Hp c C1) as (P1 & _). rewrite !FX by assumption. rewrite (Hfc c a b C1 A B). f_equal. apply Sum_ext. intros k K. rewrite (Hper k K c a C1 A), (Hper k K (p c) b P1 B). ring.
Qed.
End Main.

(** The interpolated, mass-weighted matrix at gamma *)
Lemma interp_soft d fc' junk mass e tol :
  home_first d -> search_complete d -> (forall i, (i < n_atoms d)%nat -> 0 < mass i) ->
  eigenvector (3 * n_atoms d) (gamma_matrix (n_cells d) fc') (- tol) e ->
  forall a, (a < 3 * n_atoms d)%nat ->
    Csum (seq 0 (3 * n_atoms d)) (fun b => Cmul (mass_weight mass (interp_dyn_mat (with_fc d fc') junk vzero) a b) (RtoC (sqrt (mass (b / 3)%nat) * e b)))
    = Cscal (- (tol / mass (a / 3)%nat)) (RtoC (sqrt (mass (a / 3)%nat) * e a)).
Proof.
  intros H1 H2 M E a A. assert (DIV : forall x, (x < 3 * n_atoms d)%nat -> (x / 3 < n_atoms d)%nat) by (intros x X; apply Nat.div_lt_upper_bound; lia).
  pose proof (M _ (DIV a A)) as Ma. set (ma := mass (a / 3)%nat) in *. pose proof (sqrt_lt_R0 ma Ma) as Sa. assert (Q : sqrt ma * sqrt ma = ma) by (apply sqrt_sqrt; lra).
  rewrite (Csum_ext _ _ (fun b => RtoC (/ sqrt ma * (gamma_matrix (n_cells d) fc' a b * e b)))).
  - apply C_eq; unfold Csum; cbn [re im RtoC Cscal]; [|rewrite Sum_zero_ext; [ring|intros; reflexivity]]. rewrite Sum_scal. fold (sumn (3 * n_atoms d) (fun b => gamma_matrix (n_cells d) fc' a b * e b)). rewrite (E a A).
    rewrite <- Q at 2. field. lra.
  - intros b B. apply in_seq in B. assert (B' : (b < 3 * n_atoms d)%nat) by lia. unfold mass_weight. rewrite gamma_sum_general; [|exact H1|exact H2|exact A|exact B'].
    pose proof (M _ (DIV b B')) as Mb. set (mb := mass (b / 3)%nat) in *. pose proof (sqrt_lt_R0 mb Mb) as Sb. fold ma. cbn [f_fc with_fc]. change (n_cells (with_fc d fc')) with (n_cells d). fold (gamma_matrix (n_cells d) fc' a b).
    rewrite sqrt_mult by lra. apply C_eq; cbn [re im RtoC Cscal Cmul]; field; lra.
Qed.
