(** C45: conversion of Phonopy eigenvectors to Euphonic's phase convention. *)
From Verif Require Import Base Cpx Vec3 M_cell M_dos M_sf S_sf L_sf L_sf2 M_grid M_dynmat S_dynmat L_dynmat2 L_chain M_phase S_phase L_phase.
Open Scope R_scope.

(** C45: each atom's component is multiplied by exp(2 pi i q.(r_a - r_c)), with c one atom per
    band (its number divided by three); all moduli are kept. *)
Theorem C45_unit_phase : forall r qpts ev i b a x,
  convert_eigenvector_phases r qpts ev i b a x = Cmul (cis (2 * PI * dot (qpts i) (vsub (r a) (r (b / 3)%nat)))) (ev i b (3 * a + x)%nat) /\
  Cnorm2 (convert_eigenvector_phases r qpts ev i b a x) = Cnorm2 (ev i b (3 * a + x)%nat).
Proof.
  intros. split; [|apply conv_modulus]. rewrite conv_eq. unfold ph. rewrite <- cis_add. f_equal. f_equal. rewrite dot_sub. ring.
Qed.
Print Assumptions C45_unit_phase.
(** C45: orthonormality of the bands is kept, both ways (k is 1 for b = c, 0 otherwise). *)
Theorem C45_orthonormal : forall r qpts ev n i b c (k : R), (b <> c -> k = 0) ->
  (inner n (convert_eigenvector_phases r qpts ev i b) (convert_eigenvector_phases r qpts ev i c) = RtoC k <->
   inner n (fun a x => ev i b (3 * a + x)%nat) (fun a x => ev i c (3 * a + x)%nat) = RtoC k).
Proof. intros. apply conv_orthonormal. assumption. Qed.
Print Assumptions C45_orthonormal.
(** C45: an eigenvector of the dynamical matrix in Phonopy's convention becomes an eigenvector
    of the matrix Euphonic builds from the same force constants, with the same eigenvalue. *)
Theorem C45_eigenvectors : forall d junk mass, home_first d -> search_complete d -> det3 (zrows (f_sc d)) <> 0 ->
  exists L : nat -> nat -> nat -> list Z3,
    (forall nc i j, (nc < n_cells d)%nat -> (i < n_atoms d)%nat -> (j < n_atoms d)%nat ->
       NoDup (L nc i j) /\ (forall r, In r (L nc i j) <-> same_mod_supercell (f_sc d) (nth nc (f_origins d) (0,0,0)%Z) r /\ near_image d i j r)) /\
    forall qpts ev i b lam,
      eigenvector (n_atoms d) (mass_weight mass (atom_phase_sum d L (qpts i))) (fun a x => ev i b (3 * a + x)%nat) lam ->
      eigenvector (n_atoms d) (mass_weight mass (interp_dyn_mat d junk (qpts i)))
        (convert_eigenvector_phases (fun a => nth a (f_atom_r d) vzero) qpts ev i b) lam.
Proof.
  intros d junk mass H S D. destruct (interp_fourier_general d junk H S D) as (L & P & Q). exists L. split.
  - intros nc i j Hnc Hi Hj. destruct (P nc i j Hnc Hi Hj) as (A & B & _). split; [exact A|exact B].
  - intros qpts ev i b lam E. exact (conv_interp d junk L mass qpts ev i b lam Q E).
Qed.
Print Assumptions C45_eigenvectors.
(** C45: the structure factors computed from the converted eigenvectors are those of the
    original ones in their own convention, whatever the q-point. *)
Theorem C45_structure_factor : forall r qpts ev t n cell M sl dw, det3 cell <> 0 ->
  (forall q m, (q < nq t)%nat -> (m < nm t)%nat -> freq t q m <> 0) -> match dw with Some d => dw_n d = n | None => True end ->
  exists s, calculate_structure_factor (mkE t n (convert_eigenvector_phases r qpts ev)) (mkX M r (reciprocal_cell cell)) sl dw qpts = Ok s /\
    forall q m, sf_val s q m = one_phonon_atom_phase cell sl M n dw (fun a x => ev q m (3 * a + x)%nat) (qpts q) (freq t q m).
Proof.
  intros r qpts ev t n cell M sl dw Hd Hf Hw.
  destruct (structure_factor_formula (mkE t n (convert_eigenvector_phases r qpts ev)) cell M r sl dw qpts Hd Hf Hw) as (s & E & _ & _ & _ & _ & V). exists s. split; [exact E|].
  intros q m. rewrite (proj1 (V q m)), <- sf_formula by exact Hd. exact (conv_sf r qpts ev t n cell M sl dw q m Hd).
Qed.
Print Assumptions C45_structure_factor.
(** Two atoms half a cell apart at the zone boundary: the second atom's part of the first band
    is turned by i, the first atom's part of the fourth band by -i; and the hypotheses of
    C45_eigenvectors hold for the chain of L_chain. *)
Example C45_case : let r := fun a => nth a [(0, 0, 0); (1/2, 0, 0)] vzero in let qpts := fun _ : nat => (1/2, 0, 0) in forall z,
  convert_eigenvector_phases r qpts (fun _ _ _ => z) 0 0 1 0 = Cmul Ci z /\ convert_eigenvector_phases r qpts (fun _ _ _ => z) 0 3 0 0 = Cmul (Copp Ci) z.
Proof.
  intros r qpts z. rewrite !(proj1 (C45_unit_phase _ _ _ _ _ _ _)). cbn [Nat.div Nat.divmod fst]. unfold r, qpts. cbn [nth dot vsub vadd vopp vscal].
  assert (A : cis (PI / 2) = Ci) by (unfold cis; rewrite cos_PI2, sin_PI2; reflexivity).
  split; f_equal; [rewrite <- A; f_equal; field|]. transitivity (cis (- (PI / 2))); [f_equal; field|]. rewrite cis_opp, A. apply C_eq; cbn; ring.
Qed.
Example C45_chain : forall k0 k1, home_first (chain k0 k1) /\ search_complete (chain k0 k1) /\ det3 (zrows (f_sc (chain k0 k1))) <> 0.
Proof. intros. split; [reflexivity|]. split; [apply chain_complete|]. cbn. lra. Qed.
