(** Lemmas on the conversion of Phonopy eigenvectors (C45). *)
From Verif Require Import Base Cpx Vec3 M_cell M_dos M_sf S_sf L_sf M_grid M_dynmat S_dynmat M_phase S_phase.
Open Scope R_scope.

Section Convert.
Variables (r qpts : nat -> V3) (ev : nat -> nat -> nat -> C).
Notation conv := (convert_eigenvector_phases r qpts ev).
(** The whole phase of atom a in band b at q-point i *)
Definition ph (i b a : nat) : C := Cmul (cis (- (2 * PI * dot (qpts i) (r (b / 3)%nat)))) (cis (2 * PI * dot (qpts i) (r a))).

Lemma dot_sub u v w : dot u (vsub v w) = dot u v - dot u w.
Proof. destruct u as [[? ?] ?], v as [[? ?] ?], w as [[? ?] ?]. cbn. ring. Qed.
Lemma dot_add u v w : dot u (vadd v w) = dot u v + dot u w.
Proof. destruct u as [[? ?] ?], v as [[? ?] ?], w as [[? ?] ?]. cbn. ring. Qed.
Lemma conv_eq i b a x : conv i b a x = Cmul (ph i b a) (ev i b (3 * a + x)%nat).
Proof.
  unfold convert_eigenvector_phases, converted5, eigvecs5, conversion, rk_diff, ph. rewrite <- (Nat.div_mod b 3) by lia. rewrite dot_sub, <- cis_add.
  replace (- (2 * PI * (dot (qpts i) (r (b / 3)%nat) - dot (qpts i) (r a)))) with (- (2 * PI * dot (qpts i) (r (b / 3)%nat)) + 2 * PI * dot (qpts i) (r a)) by ring. ring.
Qed.
Lemma ph_unit i b a : Cnorm2 (ph i b a) = 1.
Proof. unfold ph. rewrite Cnorm2_mul, !Cnorm2_cis. ring. Qed.
Lemma conv_modulus i b a x : Cnorm2 (conv i b a x) = Cnorm2 (ev i b (3 * a + x)%nat).
Proof. rewrite conv_eq, Cnorm2_mul, ph_unit. ring. Qed.
Lemma ph_pair i b c a : Cmul (Cconj (ph i b a)) (ph i c a) = Cmul (cis (2 * PI * dot (qpts i) (r (b / 3)%nat))) (cis (- (2 * PI * dot (qpts i) (r (c / 3)%nat)))).
Proof. unfold ph. rewrite Cconj_mul. repeat rewrite <- cis_opp. repeat rewrite <- cis_add. f_equal. ring. Qed.
Lemma conv_inner n i b c : inner n (conv i b) (conv i c)
  = Cmul (Cmul (cis (2 * PI * dot (qpts i) (r (b / 3)%nat))) (cis (- (2 * PI * dot (qpts i) (r (c / 3)%nat))))) (inner n (fun a x => ev i b (3 * a + x)%nat) (fun a x => ev i c (3 * a + x)%nat)).
Proof.
  unfold inner. rewrite <- Csum_mul. apply Csum_ext. intros a _. rewrite <- Csum_mul. apply Csum_ext. intros x _. rewrite !conv_eq, Cconj_mul, <- (ph_pair i b c a). ring.
Qed.
Lemma conv_orthonormal n i b c (k : R) : (b <> c -> k = 0) -> (inner n (conv i b) (conv i c) = RtoC k <-> inner n (fun a x => ev i b (3 * a + x)%nat) (fun a x => ev i c (3 * a + x)%nat) = RtoC k).
Proof.
  intros K. rewrite conv_inner. set (X := inner n _ _). rewrite <- cis_add. set (t := 2 * PI * dot (qpts i) (r (b / 3)%nat) + - (2 * PI * dot (qpts i) (r (c / 3)%nat))).
  destruct (Nat.eq_dec b c) as [E|N].
  - subst c. assert (T : t = 0) by (unfold t; ring). rewrite T, cis_0. replace (Cmul Cone X) with X by ring. tauto.
  - rewrite (K N). assert (Z : RtoC 0 = Czero) by reflexivity. rewrite Z. split.
    + intros H. assert (G : Cmul (Cconj (cis t)) (Cmul (cis t) X) = X).
      { replace (Cmul (Cconj (cis t)) (Cmul (cis t) X)) with (Cmul (Cmul (cis t) (Cconj (cis t))) X) by ring. rewrite Cmul_conj, Cnorm2_cis. apply C_eq; cbn; ring. }
      rewrite <- G, H. apply C_eq; cbn; ring.
    + intros ->. apply C_eq; cbn; ring.
Qed.
(** If D' has entries D times the ratio of the atoms' phases, eigenvectors of D go to
    eigenvectors of D'. *)
Lemma conv_eigen n i b D D' lam :
  (forall a c x y, (a < n)%nat -> (c < n)%nat -> (x < 3)%nat -> (y < 3)%nat ->
     D' (3 * a + x)%nat (3 * c + y)%nat = Cmul (cis (2 * PI * (dot (qpts i) (r a) - dot (qpts i) (r c)))) (D (3 * a + x)%nat (3 * c + y)%nat)) ->
  eigenvector n D (fun a x => ev i b (3 * a + x)%nat) lam -> eigenvector n D' (conv i b) lam.
Proof.
  intros H E a x Ha Hx. rewrite conv_eq. rewrite <- Cmul_scal_r. rewrite <- (E a x Ha Hx). unfold applied. rewrite <- Csum_mul. apply Csum_ext. intros c Hc. rewrite <- Csum_mul. apply Csum_ext. intros y Hy.
  apply in_seq in Hc. apply in_seq in Hy. rewrite (H a c x y) by lia. rewrite conv_eq. unfold ph.
  assert (P : Cmul (cis (2 * PI * (dot (qpts i) (r a) - dot (qpts i) (r c)))) (cis (2 * PI * dot (qpts i) (r c))) = cis (2 * PI * dot (qpts i) (r a))) by (rewrite <- cis_add; f_equal; ring).
  rewrite <- P. ring.
Qed.
(** Structure factor of the converted eigenvectors *)
Lemma conv_sf t n cell M sl dw q m : det3 cell <> 0 ->
  sf_mode (mkE t n conv) (mkX M r (reciprocal_cell cell)) sl dw qpts q m
  = one_phonon_atom_phase cell sl M n dw (fun a x => ev q m (3 * a + x)%nat) (qpts q) (freq t q m).
Proof.
  intros Hd. rewrite (sf_formula _ cell M r sl dw qpts q m Hd). cbn [M_dos.n_atoms evec et]. unfold one_phonon, one_phonon_atom_phase. cbv zeta. f_equal.
  set (Q := vmul (qpts q) (reciprocal_cell cell)).
  assert (E : Csum (seq 0 n) (fun a => Cscal (sl a / sqrt (M a) * exp (- dw_exponent dw Q a)) (Cmul (Csum (seq 0 3) (fun l => Cscal (comp Q l) (Cconj (conv q m a l)))) (cis (dot Q (vmul (r a) cell)))))
    = Cmul (cis (2 * PI * dot (qpts q) (r (m / 3)%nat))) (Csum (seq 0 n) (fun a => Cscal (sl a / sqrt (M a) * exp (- dw_exponent dw Q a)) (Csum (seq 0 3) (fun l => Cscal (comp Q l) (Cconj (ev q m (3 * a + l)%nat))))))).
  { rewrite <- Csum_mul. apply Csum_ext. intros a _. rewrite Cmul_scal_r. f_equal. rewrite <- Csum_mul, <- Csum_mul_r. apply Csum_ext. intros l _. rewrite conv_eq, Cmul_scal_l, Cmul_scal_r. f_equal.
    unfold Q. rewrite (dot_frac_cart cell (qpts q) (r a) Hd). rewrite Cconj_mul. unfold ph. rewrite Cconj_mul. repeat rewrite <- cis_opp.
    set (z := Cconj (ev q m (3 * a + l)%nat)).
    transitivity (Cmul (Cmul (cis (- - (2 * PI * dot (qpts q) (r (m / 3)%nat)))) (Cmul (cis (- (2 * PI * dot (qpts q) (r a)))) (cis (2 * PI * dot (qpts q) (r a))))) z); [ring|].
    rewrite <- cis_add. rewrite Rplus_opp_l, cis_0, Ropp_involutive. ring. }
  rewrite E, Cnorm2_mul, Cnorm2_cis. ring.
Qed.
End Convert.

(** The two Fourier sums *)
Lemma sums_phase d L q a c x y : (x < 3)%nat -> (y < 3)%nat ->
  fourier_sum d L q (3 * a + x) (3 * c + y) = Cmul (cis (2 * PI * (dot q (nth a (f_atom_r d) vzero) - dot q (nth c (f_atom_r d) vzero)))) (atom_phase_sum d L q (3 * a + x) (3 * c + y)).
Proof.
  intros Hx Hy. unfold fourier_sum, atom_phase_sum. cbv zeta.
  assert (Ea : ((3 * a + x) / 3 = a)%nat) by (symmetry; apply (Nat.div_unique _ 3 a x); lia). assert (Ec : ((3 * c + y) / 3 = c)%nat) by (symmetry; apply (Nat.div_unique _ 3 c y); lia). rewrite Ea, Ec.
  rewrite <- Csum_mul. apply Csum_ext. intros nc _. rewrite <- Csum_mul. apply Csum_ext. intros R0 _. rewrite Cmul_scal_r. f_equal. rewrite <- cis_add. f_equal. rewrite dot_sub, dot_add. ring.
Qed.
Lemma conv_interp d junk L mass qpts ev i b lam :
  (forall q a b, (a < 3 * n_atoms d)%nat -> (b < 3 * n_atoms d)%nat -> interp_dyn_mat d junk q a b = fourier_sum d L q a b) ->
  let r a := nth a (f_atom_r d) vzero in
  eigenvector (n_atoms d) (mass_weight mass (atom_phase_sum d L (qpts i))) (fun a x => ev i b (3 * a + x)%nat) lam ->
  eigenvector (n_atoms d) (mass_weight mass (interp_dyn_mat d junk (qpts i))) (convert_eigenvector_phases r qpts ev i b) lam.
Proof.
  intros H r E. apply (conv_eigen r qpts ev (n_atoms d) i b (mass_weight mass (atom_phase_sum d L (qpts i)))); [|exact E].
  intros a c x y Ha Hc Hx Hy. unfold mass_weight. rewrite H by lia. rewrite sums_phase by assumption. rewrite Cmul_scal_r. reflexivity.
Qed.
