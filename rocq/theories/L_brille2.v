From Coq Require Import String.
From Verif Require Import Base Cpx Vec3 M_grid M_qpts M_dynmat M_dipole M_struct M_asr M_calc M_brille S_brille S_asr S_dynmat S_calc L_qpts L_calc7 L_calc2 S_dipole S_qpts L_nac L_brille.
Open Scope R_scope.

(** With asr=None: the modes of the interpolated matrix *)
Lemma grid_eigenmodes {Z} (zone : M3 -> list V3 -> list nat -> Z) volume points erfc reigh ceigh argsort chunk d mass born diel interpolate k cpus :
  home_first d -> search_complete d -> det3 (zrows (f_sc d)) <> 0 -> fc_symmetric d -> symmetric3 diel -> csolves ceigh -> exact_at_points interpolate ->
  exists L, shares_images d L /\
  forall junk u types gt n dn kw ikw g d' x', i_asr (given ikw no_kwargs) = None ->
    from_force_constants zone volume points erfc reigh ceigh argsort chunk junk u types (new_fc d mass born diel) gt n dn kw ikw = Ok (g, d', x') -> NoDup (g_rlu g) ->
    forall qpts ik i j q, nth_error qpts i = Some q -> nth_error (g_rlu g) j = Some q -> exists md,
      modes_of (3 * n_atoms d) mass
        (whole_matrix erfc d born diel (given (i_dipole (given ikw no_kwargs)) true) (given (i_param (given ikw no_kwargs)) 1) L q
           (if (given (i_splitting (given ikw no_kwargs)) true && is_gamma q)%bool then Some (approach (g_rlu g) j) else None)) md /\
      let r := interpolated interpolate k cpus g qpts ik in
      (forall m, b_freq r i m = m_freq md m * k) /\ (forall m a c, (c < 3)%nat -> b_evec r i m a c = m_evec md m (3 * a + c)%nat).
Proof.
  intros H1 H2 H3 H4 H5 H6 HE. destruct (modes_fourier erfc reigh ceigh argsort chunk d mass born diel H1 H2 H3 H4 H5 H6) as (L & HL & HF).
  exists L. split; [exact HL|]. intros junk u types gt n dn kw ikw g d' x' Ha HM HN qpts ik i j q Hi Hj.
  destruct (grid_points zone volume points erfc reigh ceigh argsort chunk interpolate k cpus junk u types _ gt n dn kw ikw g d' x' HE HM HN) as (w & ms & E & Len & G).
  destruct (G qpts ik i j q Hi Hj) as (md & Em & _ & F1 & F2).
  assert (A0 : p_asr (with_kwargs (g_rlu g) (forced (given ikw no_kwargs))) = None) by (cbn; rewrite Ha; reflexivity).
  destruct (HF [] junk (with_kwargs (g_rlu g) (forced (given ikw no_kwargs))) _ _ _ A0 E) as (_ & _ & K). destruct (K j q Hj) as (md' & Em' & M). rewrite Em in Em'. inversion Em'; subst md'.
  exists md. split; [|split; [exact F1|exact F2]]. exact M.
Qed.

(** An interpolation that meets the contract: the values of the grid point, or zeros *)
Definition v3b (a b : V3) : bool := (Reqb (comp a 0) (comp b 0) && Reqb (comp a 1) (comp b 1) && Reqb (comp a 2) (comp b 2))%bool.
Lemma v3b_spec a b : v3b a b = true <-> a = b.
Proof.
  unfold v3b. destruct a as [[a1 a2] a3], b as [[b1 b2] b3]. cbn. rewrite !Bool.andb_true_iff.
  destruct (Reqb_spec a1 b1), (Reqb_spec a2 b2), (Reqb_spec a3 b3); split; intros H; subst; intuition congruence.
Qed.
Fixpoint place (q : V3) (l : list V3) : nat := match l with [] => 0%nat | p :: r => if v3b q p then 0%nat else S (place q r) end.
Lemma place_nodup l j q : NoDup l -> nth_error l j = Some q -> place q l = j.
Proof.
  revert j. induction l as [|p l IH]; intros j N E; [destruct j; discriminate|]. inversion N as [|? ? Na Nb]; subst. destruct j as [|j]; cbn in *.
  - inversion E; subst. rewrite (proj2 (v3b_spec q q) eq_refl). reflexivity.
  - destruct (v3b q p) eqn:V; [apply v3b_spec in V; subst; apply nth_error_In in E; contradiction|]. rewrite (IH j Nb E). reflexivity.
Qed.
Definition lookup_points (g : grid) (qpts : list V3) (kw : kwargs) : (nat -> nat -> nat -> R) * (nat -> nat -> nat -> C) :=
  (fun i m l => g_values g (place (nth i qpts vzero) (g_rlu g)) m l, fun i m l => g_vectors g (place (nth i qpts vzero) (g_rlu g)) m l).
Lemma lookup_exact : exact_at_points lookup_points.
Proof.
  intros g qpts kw i j q N Hi Hj. cbn. rewrite (nth_error_nth _ _ _ Hi), (place_nodup _ _ _ N Hj). split; reflexivity.
Qed.
Definition some_points : list V3 := [vzero; (1/2, 0, 0); (0, 0, 1/3)].
Definition det_zone (c : M3) (r : list V3) (t : list nat) : M3 := c.
Definition det_volume (c : M3) : R := / det3 c.
Lemma det_scales : volume_scales det_zone det_volume.
Proof.
  intros c [[a1 a2] a3] [[b1 b2] b3] [[c1 c2] c3] r t Hc. unfold det_volume, det_zone.
  assert (E : det3 (vscal c (a1, a2, a3), vscal c (b1, b2, b3), vscal c (c1, c2, c3)) = c ^ 3 * det3 ((a1, a2, a3), (b1, b2, b3), (c1, c2, c3))) by (cbn; ring).
  rewrite E. rewrite Rinv_mult. unfold Rdiv. ring.
Qed.
Lemma some_points_nodup : NoDup some_points.
Proof.
  unfold some_points, vzero. repeat constructor; cbn; intros H.
  - destruct H as [H | [H | []]]; inversion H; lra.
  - destruct H as [H | []]; inversion H; lra.
  - exact H.
Qed.
Lemma brille_meets erfc reigh argsort chunk junk x : exists r,
  from_force_constants det_zone det_volume (fun _ _ _ => Ok some_points) erfc reigh (fun _ _ => Some ((fun _ => 0), (fun _ _ => Czero))) argsort chunk junk 1 [] x "nest" 100 None None None = Ok r
  /\ g_rlu (fst (fst r)) = some_points.
Proof.
  unfold from_force_constants. cbn [grid_kind String.eqb]. cbn [grid_args].
  match goal with |- context [snd (snd (call ?a ?b ?c ?d ?e ?f ?o x))] => change (snd (snd (call a b c d e f o x))) with (result a b c d e f o x); destruct (result a b c d e f o x) as [[[qs w] ms]|e'] eqn:E end.
  - eexists. split; reflexivity.
  - exfalso. destruct (only_errors _ _ _ _ _ _ _ _ _ E) as [(_ & w & W & _) | [(s & _ & W & _) | (_ & M & W)]]; discriminate W.
Qed.

(** Which grid is made, and with which arguments *)
Lemma grid_made {Z} (zone : M3 -> list V3 -> list nat -> Z) volume points erfc reigh ceigh argsort chunk junk u types x gt n dn kw ikw g d' x' :
  from_force_constants zone volume points erfc reigh ceigh argsort chunk junk u types x gt n dn kw ikw = Ok (g, d', x') ->
  exists t args, ((gt = "trellis"%string /\ t = Trellis) \/ (gt = "mesh"%string /\ t = Mesh) \/ (gt = "nest"%string /\ t = Nest)) /\
  points t (zone (spglib_cell u (f_cell (o_d x))) (f_atom_r (o_d x)) types) args = Ok (g_rlu g) /\ forall given, kw = Some given -> args = given.
Proof.
  unfold from_force_constants. destruct (grid_kind gt) as [t|] eqn:Ek; [|discriminate]. cbv zeta.
  destruct (grid_args t n dn kw _) as [args|] eqn:Ea; [|discriminate]. destruct (points t _ args) as [rlu|] eqn:Ep; [|discriminate].
  destruct (snd (snd (call _ _ _ _ _ _ _ _))) as [[[? ?] ms]|]; [|discriminate]. destruct (p_grads _); [discriminate|]. intros H.
  assert (Hg : g = filled rlu ms) by congruence. exists t, args. split; [|split].
  - unfold grid_kind in Ek. destruct (String.eqb_spec gt "trellis"); [left; split; congruence|]. destruct (String.eqb_spec gt "mesh"); [right; left; split; congruence|].
    destruct (String.eqb_spec gt "nest"); [right; right; split; congruence|discriminate].
  - rewrite Hg. exact Ep.
  - intros given ->. cbn in Ea. congruence.
Qed.
(** A density or number of points of zero *)
Lemma zero_raises {Z} (zone : M3 -> list V3 -> list nat -> Z) volume points erfc reigh ceigh argsort chunk junk u types x gt n dn ikw :
  gt = "trellis"%string \/ gt = "mesh"%string -> dn = Some 0 \/ (dn = None /\ n = 0) ->
  from_force_constants zone volume points erfc reigh ceigh argsort chunk junk u types x gt n dn None ikw = Err ZeroDivision.
Proof.
  assert (D : forall y, M_brille.div y 0 = Err ZeroDivision) by (intros y; unfold M_brille.div; destruct (Reqb_spec 0 0); [reflexivity|congruence]).
  intros [-> | ->] [-> | [-> ->]]; unfold from_force_constants; cbn [grid_kind String.eqb Ascii.eqb Bool.eqb]; cbv zeta; cbn [grid_args]; rewrite D; reflexivity.
Qed.
