(** C65: nothing is missing from the modes returned. *)
From Verif Require Import Base Cpx Vec3 M_grid M_qpts M_dynmat M_dipole M_struct M_asr M_calc S_qpts S_dynmat S_dipole S_asr S_calc L_nac L_calc7 L_spectral.
Open Scope R_scope.

Lemma modes_spectral erfc reigh ceigh argsort chunk d mass born diel :
  home_first d -> search_complete d -> det3 (zrows (f_sc d)) <> 0 -> fc_symmetric d -> symmetric3 diel -> csolves ceigh -> (forall i, (i < n_atoms d)%nat -> 0 < mass i) ->
  exists L, shares_images d L /\
  forall cs junk o qpts w ms, p_asr o = None ->
    result erfc reigh ceigh argsort chunk junk o (after erfc reigh ceigh argsort chunk (new_fc d mass born diel) cs) = Ok (qpts, w, ms) ->
    forall k q md, nth_error qpts k = Some q -> nth_error ms k = Some md ->
    let n := (3 * n_atoms d)%nat in
    let D := whole_matrix erfc d born diel (p_dipole o) (p_param o) L (if (p_reduce o && is_gamma q)%bool then vzero else q)
               (if (p_splitting o && is_gamma q)%bool then Some (approach qpts k) else None) in
    (forall a b, (a < n)%nat -> (b < n)%nat -> Cscal (1 / sqrt (mass (a / 3)%nat * mass (b / 3)%nat)) (D a b)
       = Csum (seq 0 n) (fun m => Cscal (m_freq md m * Rabs (m_freq md m)) (Cmul (m_evec md m a) (Cconj (m_evec md m b))))) /\
    sumn n (fun m => m_freq md m * Rabs (m_freq md m)) = sumn n (fun a => re (D a a) / mass (a / 3)%nat).
Proof.
  intros H1 H2 H3 H4 H5 H6 Hm. destruct (modes_fourier erfc reigh ceigh argsort chunk d mass born diel H1 H2 H3 H4 H5 H6) as (L & HL & HF).
  exists L. split; [exact HL|]. intros cs junk o qpts w ms Ha E k q md Hk Hmd. destruct (HF cs junk o qpts w ms Ha E) as (_ & _ & K).
  destruct (K k q Hk) as (md' & Em & M). assert (md' = md) as -> by congruence. cbv zeta. split.
  - exact (modes_matrix _ mass _ md M).
  - apply (modes_trace _ mass _ md); [|exact M]. intros a Ia. apply Hm. apply Nat.div_lt_upper_bound; lia.
Qed.
