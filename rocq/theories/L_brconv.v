(** Lemmas for C93: each grid's results do not depend on the grids before it. *)
From Coq Require Import String.
From Verif Require Import Base Cpx Vec3 M_path M_broad M_dos M_sf M_bins M_sample M_fixed M_grid M_qpts M_dynmat M_dipole M_struct M_asr M_calc M_brille M_brconv
  S_brconv L_calc.
Open Scope R_scope.

Section BC.
Context {Zn : Type}.
Variables (zone : M3 -> list V3 -> list nat -> Zn) (volume : Zn -> R) (points : gkind -> Zn -> kwargs -> res (list V3) brerr).
Variables (erfc : R -> R) (reigh : real_eigh) (ceigh : complex_eigh) (argsort : list R -> list nat) (chunk : nat).
Variable interpolate : grid -> list V3 -> kwargs -> (nat -> nat -> nat -> R) * (nat -> nat -> nat -> C).
Variables (coeffs : R -> list R) (kB k kM c cpus room phi u : R) (types : list nat) (qaxis : list V3 -> list R).
Variables (xt : xtal) (sl : nat -> R).
Notation make := (from_force_constants zone volume points erfc reigh ceigh argsort chunk).
Notation one := (one_grid zone volume points erfc reigh ceigh argsort chunk interpolate coeffs kB k kM c cpus u types qaxis xt sl).
Notation all := (all_grids zone volume points erfc reigh ceigh argsort chunk interpolate coeffs kB k kM c cpus u types qaxis xt sl).
Notation tool := (check_brille_settings zone volume points erfc reigh ceigh argsort chunk interpolate coeffs kB k kM c cpus room phi u types qaxis xt sl).
Notation fresh x y := (fresh_like erfc reigh argsort chunk x y).

Definition is_new (x : fcobj) : Prop := o_asr x = None /\ o_images x = None /\ o_dip x = None.
Lemma fresh_refl x : is_new x -> fresh x x.
Proof. intros (A & I & D). split; try reflexivity; [now left|now rewrite D|now rewrite A]. Qed.
Lemma new_is_new d mass born diel : is_new (new_fc d mass born diel).
Proof. repeat split. Qed.
Lemma call_fresh x y junk o : is_new x -> fresh x y -> fresh x (fst (call erfc reigh ceigh argsort chunk junk o y)).
Proof. intros (A & _) F. exact (next_fresh_like erfc reigh ceigh argsort chunk x y (junk, o) A F). Qed.
Lemma forced_twice d : forced (forced d) = forced d. Proof. reflexivity. Qed.

(** The same grid from a new object and the first dictionary as from the ones left by earlier calls *)
Lemma make_fresh junk junk' x y gt n dn kw d d' : is_new x -> fresh x y -> forced d' = forced d ->
  match make junk u types y gt n dn kw (Some d'), make junk' u types x gt n dn kw (Some d) with
  | Ok (g, e, y'), Ok (g', e', _) => g = g' /\ e = Some (forced d) /\ e' = Some (forced d) /\ fresh x y'
  | Err er, Err er' => er = er'
  | _, _ => False
  end.
Proof.
  intros N F E. unfold from_force_constants. rewrite (fl_d _ _ _ _ _ _ F).
  destruct (grid_kind gt) as [t|]; [|reflexivity].
  destruct (grid_args t n dn kw (volume (zone (spglib_cell u (f_cell (o_d x))) (f_atom_r (o_d x)) types))) as [args|]; [|reflexivity].
  destruct (points t (zone (spglib_cell u (f_cell (o_d x))) (f_atom_r (o_d x)) types) args) as [rlu|]; [|reflexivity].
  cbn [given]. rewrite E. set (o := with_kwargs rlu (forced d)).
  pose proof (call_fresh x y junk o N F) as Fy. destruct N as (A & I & D).
  pose proof (result_same erfc reigh ceigh argsort chunk x y junk junk' o A I D F) as R. unfold result in R. rewrite R.
  destruct (snd (snd (call erfc reigh ceigh argsort chunk junk' o x))) as [[[qs w] ms]|er]; [|reflexivity].
  destruct (p_grads o); [reflexivity|]. cbn [option_map]. split; [reflexivity|]. split; [reflexivity|]. split; [reflexivity|exact Fy].
Qed.
Lemma one_fresh a bkw n qpts e s bins avg sls junk junk' den p x y d d' : is_new x -> fresh x y -> forced d' = forced d ->
  match one a bkw n qpts e s bins avg sls junk den p d' y, one a bkw n qpts e s bins avg sls junk' den p d x with
  | Ok (cv, e', y'), Ok (cv', _, _) => cv = cv' /\ forced e' = forced d /\ fresh x y'
  | Err er, Err er' => er = er'
  | _, _ => False
  end.
Proof.
  intros N F E. unfold one_grid.
  pose proof (make_fresh junk junk' x y (bc_grid a) (if den then 1000 else p) (if den then Some p else None) None d d' N F E) as M.
  destruct (make junk u types y (bc_grid a) (if den then 1000 else p) (if den then Some p else None) None (Some d')) as [[[g ge] y']|er],
    (make junk' u types x (bc_grid a) (if den then 1000 else p) (if den then Some p else None) None (Some d)) as [[[g' ge'] x']|er']; try contradiction; [|congruence].
  destruct M as (<- & -> & -> & F'). rewrite (fl_d _ _ _ _ _ _ F).
  destruct (factors xt sl (brille_table kM n (interpolated interpolate kM cpus g qpts bkw)) qpts) as [bs|]; [|reflexivity].
  destruct (averaged coeffs kB k c a bins bs) as [bavg|]; [|reflexivity].
  destruct (div (INR (List.length (g_rlu g))) (volume (zone (spglib_cell u (f_cell (o_d x))) (f_atom_r (o_d x)) types))) as [dens|]; [|reflexivity].
  destruct (Nat.eqb (nq (et e)) (nq (et (brille_table kM n (interpolated interpolate kM cpus g qpts bkw))))); [|reflexivity].
  destruct (sliced coeffs kB k c qaxis a bins qpts bs) as [bsls|]; [|reflexivity].
  split; [reflexivity|]. split; [reflexivity|exact F'].
Qed.

(** All grids: one curve for each, as for the grid alone *)
Definition alone a bkw n qpts e s bins avg sls den x d (p : R) (cv : curve) : Prop :=
  forall junk, exists e' x', one a bkw n qpts e s bins avg sls junk den p d x = Ok (cv, e', x').
Lemma all_alone a bkw n qpts e s bins avg sls den x d junk : is_new x -> forall ps i y d', fresh x y -> forced d' = forced d ->
  match all a bkw n qpts e s bins avg sls junk den i ps d' y with
  | Ok cvs => Forall2 (alone a bkw n qpts e s bins avg sls den x d) ps cvs
  | Err er => exists p, In p ps /\ forall j, one a bkw n qpts e s bins avg sls j den p d x = Err er
  end.
Proof.
  intros N. induction ps as [|p ps IH]; intros i y d' F E; cbn [all_grids]; [constructor|].
  assert (M := fun j => one_fresh a bkw n qpts e s bins avg sls (junk (S i)) j den p x y d d' N F E).
  destruct (one a bkw n qpts e s bins avg sls (junk (S i)) den p d' y) as [[[cv e'] y']|er].
  - assert (H1 : alone a bkw n qpts e s bins avg sls den x d p cv).
    { intros j. specialize (M j). destruct (one a bkw n qpts e s bins avg sls j den p d x) as [[[cv' e''] x']|]; [|contradiction].
      destruct M as (<- & _ & _). eauto. }
    specialize (M (junk 0%nat)). destruct (one a bkw n qpts e s bins avg sls (junk 0%nat) den p d x) as [[[cv' e''] x']|]; [|contradiction].
    destruct M as (_ & E' & F'). specialize (IH (S i) y' e' F' E').
    destruct (all a bkw n qpts e s bins avg sls junk den (S i) ps e' y') as [cvs|er].
    + constructor; assumption.
    + destruct IH as (q & Hq & J). exists q. split; [right; exact Hq|exact J].
  - exists p. split; [left; reflexivity|]. intros j. specialize (M j).
    destruct (one a bkw n qpts e s bins avg sls j den p d x) as [[[cv' e''] x']|]; [contradiction|congruence].
Qed.

(** Inversion of the whole run *)
Lemma tool_inv junk l a r : tool junk l a = Ok r ->
  exists d mass born diel bkw qs w ms e s bins avg sls ps,
    l = LoadedForce d mass born diel /\ brille_kwargs (bc_threads a) = Ok bkw /\
    let x := new_fc d mass born diel in let qpts := sample_qpts phi (bc_npts a) in let o := with_kwargs qpts (bc_kwargs a) in
    let n := M_dynmat.n_atoms d in
    (forall j, result erfc reigh ceigh argsort chunk j o x = Ok (qs, w, ms)) /\ p_grads o = false /\
    direct coeffs kB k c room qaxis xt sl a n qs ms = Ok (e, s, bins, avg, sls) /\ settings a = Some ps /\
    exists cvs, r = mkReport qpts (flat_freq k e) (flat_sf c s) bins avg sls cvs /\
      Forall2 (alone a bkw n qpts e s bins avg sls (match bc_density a with Some _ => true | None => false end) x (bc_kwargs a)) ps cvs.
Proof.
  unfold check_brille_settings. destruct l as [d mass born diel|]; [|discriminate].
  destruct (brille_kwargs (bc_threads a)) as [bkw|]; [|discriminate].
  set (qpts := sample_qpts phi (bc_npts a)). set (o := with_kwargs qpts (bc_kwargs a)). set (x := new_fc d mass born diel).
  assert (N : is_new x) by apply new_is_new.
  pose proof (call_fresh x x (junk 0%nat) o N (fresh_refl x N)) as F.
  assert (R := fun j => result_same erfc reigh ceigh argsort chunk x x (junk 0%nat) j o (proj1 N) (proj1 (proj2 N)) (proj2 (proj2 N)) (fresh_refl x N)).
  unfold result in R.
  destruct (call erfc reigh ceigh argsort chunk (junk 0%nat) o x) as [x1 [wn [[[qs w] ms]|er]]]; [|discriminate]. cbn [fst snd] in F, R.
  destruct (p_grads o) eqn:G; [discriminate|].
  destruct (direct coeffs kB k c room qaxis xt sl a (M_dynmat.n_atoms d) qs ms) as [[[[[e s] bins] avg] sls]|er] eqn:D; [|discriminate].
  intros H. unfold grid_params in H.
  exists d, mass, born, diel, bkw, qs, w, ms, e, s, bins, avg, sls.
  assert (P : forall den ps, match all a bkw (M_dynmat.n_atoms d) qpts e s bins avg sls junk den 0 ps (bc_kwargs a) x1 with
              | Err er => Err er | Ok cvs => Ok (mkReport qpts (flat_freq k e) (flat_sf c s) bins avg sls cvs) end = Ok r ->
    exists cvs, r = mkReport qpts (flat_freq k e) (flat_sf c s) bins avg sls cvs /\
      Forall2 (alone a bkw (M_dynmat.n_atoms d) qpts e s bins avg sls den x (bc_kwargs a)) ps cvs).
  { intros den ps K. pose proof (all_alone a bkw (M_dynmat.n_atoms d) qpts e s bins avg sls den x (bc_kwargs a) junk N ps 0 x1 (bc_kwargs a) F eq_refl) as A.
    destruct (all a bkw (M_dynmat.n_atoms d) qpts e s bins avg sls junk den 0 ps (bc_kwargs a) x1) as [cvs|er]; [|discriminate].
    exists cvs. split; [congruence|exact A]. }
  destruct (bc_density a) as [[v|ps]|] eqn:Dn; [discriminate| |destruct (bc_bnpts a) as [v|ps] eqn:Bn; [discriminate|]];
    exists ps; (split; [reflexivity|]); (split; [reflexivity|]); (split; [intros j; symmetry; exact (R j)|]); (split; [reflexivity|]); (split; [exact D|]);
    (split; [unfold settings; rewrite Dn, ?Bn; reflexivity|]); apply P; exact H.
Qed.

(** ... and the way back *)
Lemma tool_ok junk d mass born diel a bkw qs w ms e s bins avg sls ps cvs :
  brille_kwargs (bc_threads a) = Ok bkw ->
  let x := new_fc d mass born diel in let qpts := sample_qpts phi (bc_npts a) in let o := with_kwargs qpts (bc_kwargs a) in let n := M_dynmat.n_atoms d in
  result erfc reigh ceigh argsort chunk (junk 0%nat) o x = Ok (qs, w, ms) -> p_grads o = false ->
  direct coeffs kB k c room qaxis xt sl a n qs ms = Ok (e, s, bins, avg, sls) -> settings a = Some ps ->
  Forall2 (alone a bkw n qpts e s bins avg sls (match bc_density a with Some _ => true | None => false end) x (bc_kwargs a)) ps cvs ->
  tool junk (LoadedForce d mass born diel) a = Ok (mkReport qpts (flat_freq k e) (flat_sf c s) bins avg sls cvs).
Proof.
  intros B x qpts o n R G D P A. unfold check_brille_settings. rewrite B. fold qpts. fold o. fold x.
  assert (N : is_new x) by apply new_is_new.
  pose proof (call_fresh x x (junk 0%nat) o N (fresh_refl x N)) as F. unfold result in R.
  destruct (call erfc reigh ceigh argsort chunk (junk 0%nat) o x) as [x1 [wn r]]. cbn [fst snd] in F, R. rewrite R, G. fold n. rewrite D.
  assert (K : forall den, Forall2 (alone a bkw n qpts e s bins avg sls den x (bc_kwargs a)) ps cvs ->
    all a bkw n qpts e s bins avg sls junk den 0 ps (bc_kwargs a) x1 = Ok cvs).
  { intros den A'. pose proof (all_alone a bkw n qpts e s bins avg sls den x (bc_kwargs a) junk N ps 0 x1 (bc_kwargs a) F eq_refl) as AA.
    destruct (all a bkw n qpts e s bins avg sls junk den 0 ps (bc_kwargs a) x1) as [cvs'|er].
    - f_equal. clear - A' AA. revert cvs A'. induction AA as [|p cv ps cvs' H1 H2 IH]; intros cvs A'; inversion A' as [|? cv2 ? cvs2 H3 H4]; subst; [reflexivity|].
      f_equal; [|exact (IH _ H4)]. destruct (H1 (fun _ _ _ => 0)) as (? & ? & X1), (H3 (fun _ _ _ => 0)) as (? & ? & X2). congruence.
    - exfalso. destruct AA as (p & Ip & J). destruct (In_nth_error _ _ Ip) as [i Hi].
      assert (Y : exists cv, alone a bkw n qpts e s bins avg sls den x (bc_kwargs a) p cv).
      { clear - A' Ip. induction A' as [|q cv ps' cvs' H1 H2 IH]; [contradiction|]. destruct Ip as [-> |Ip]; [eauto|exact (IH Ip)]. }
      destruct Y as [cv Y]. destruct (Y (junk 0%nat)) as (? & ? & X). rewrite J in X. discriminate. }
  unfold grid_params. unfold settings in P.
  destruct (bc_density a) as [[v|ps']|]; [discriminate| |destruct (bc_bnpts a) as [v|ps']; [discriminate|]]; assert (ps' = ps) as -> by congruence; rewrite (K _ A); reflexivity.
Qed.

Lemma settings_with a ps qs : settings a = Some qs -> settings (with_settings a ps) = Some ps.
Proof. unfold settings, with_settings. cbn [bc_density bc_bnpts]. destruct (bc_density a) as [[v|l]|]; reflexivity. Qed.

(** C93, independence *)
Lemma each_alone junk junk' l a r : tool junk l a = Ok r -> exists ps, settings a = Some ps /\ List.length (re_curves r) = List.length ps /\
  forall i p, nth_error ps i = Some p -> exists cv, nth_error (re_curves r) i = Some cv /\
    tool junk' l (with_settings a [p]) = Ok (mkReport (re_qpts r) (re_freq r) (re_sf r) (re_bins r) (re_avg r) (re_slices r) [cv]).
Proof.
  intros H. destruct (tool_inv junk l a r H) as (d & mass & born & diel & bkw & qs & w & ms & e & s & bins & avg & sls & ps & -> & B & R & G & D & P & cvs & -> & A).
  exists ps. split; [exact P|]. cbn [re_curves re_qpts re_freq re_sf re_bins re_avg re_slices]. split.
  { clear - A. induction A as [|p cv ps' cvs' H1 H2 IH]; [reflexivity|]. cbn [List.length]. now rewrite IH. }
  intros i p Hp.
  assert (Y : exists cv, nth_error cvs i = Some cv /\ alone a bkw (M_dynmat.n_atoms d) (sample_qpts phi (bc_npts a)) e s bins avg sls (match bc_density a with Some _ => true | None => false end) (new_fc d mass born diel) (bc_kwargs a) p cv).
  { clear - A Hp. revert i Hp. induction A as [|q cv ps' cvs' H1 H2 IH]; intros [|i] Hp; try discriminate.
    - injection Hp as ->. exists cv. split; [reflexivity|exact H1].
    - exact (IH i Hp). }
  destruct Y as (cv & Hcv & Y). exists cv. split; [exact Hcv|].
  apply (tool_ok junk' d mass born diel (with_settings a [p]) bkw qs w ms e s bins avg sls [p] [cv]); [exact B|exact (R _)|exact G|exact D|exact (settings_with a [p] ps P)|].
  constructor; [|constructor]. replace (match bc_density (with_settings a [p]) with Some _ => true | None => false end) with (match bc_density a with Some _ => true | None => false end) by (unfold with_settings; cbn [bc_density]; destruct (bc_density a); reflexivity).
  exact Y.
Qed.
Lemma all_together junk l a ps : settings a = Some ps -> ps <> [] ->
  (forall p, In p ps -> exists junk' r, tool junk' l (with_settings a [p]) = Ok r) -> exists r, tool junk l a = Ok r.
Proof.
  intros P NE H. destruct ps as [|p0 ps]; [contradiction|]. clear NE.
  destruct (H p0 (or_introl eq_refl)) as (j0 & r0 & H0).
  destruct (tool_inv j0 l _ r0 H0) as (d & mass & born & diel & bkw & qs & w & ms & e & s & bins & avg & sls & ps0 & -> & B & R & G & D & P0 & cvs0 & E0 & A0).
  assert (K : exists cvs, Forall2 (alone a bkw (M_dynmat.n_atoms d) (sample_qpts phi (bc_npts a)) e s bins avg sls (match bc_density a with Some _ => true | None => false end) (new_fc d mass born diel) (bc_kwargs a)) (p0 :: ps) cvs).
  { assert (Q : forall p, In p (p0 :: ps) -> exists cv, alone a bkw (M_dynmat.n_atoms d) (sample_qpts phi (bc_npts a)) e s bins avg sls (match bc_density a with Some _ => true | None => false end) (new_fc d mass born diel) (bc_kwargs a) p cv).
    { intros p Hp. destruct (H p Hp) as (j & r & Hr).
      destruct (tool_inv j _ _ r Hr) as (d' & mass' & born' & diel' & bkw' & qs' & w' & ms' & e' & s' & bins' & avg' & sls' & ps' & E & B' & R' & G' & D' & P' & cvs' & E' & A').
      assert (d' = d /\ mass' = mass /\ born' = born /\ diel' = diel) as (-> & -> & -> & ->) by (split; [|split; [|split]]; congruence).
      change (brille_kwargs (bc_threads a) = Ok bkw) in B. change (brille_kwargs (bc_threads a) = Ok bkw') in B'.
      assert (bkw' = bkw) as -> by congruence. cbv zeta in R, R'. unfold with_settings in R, R'. cbn [bc_npts bc_kwargs] in R, R'. pose proof (R (j 0%nat)) as R1. rewrite R' in R1. assert (qs' = qs /\ ms' = ms) as (-> & ->) by (split; congruence).
      cbv zeta in D, D'. unfold with_settings in D, D'. change (direct coeffs kB k c room qaxis xt sl a (M_dynmat.n_atoms d) qs ms = Ok (e, s, bins, avg, sls)) in D.
      change (direct coeffs kB k c room qaxis xt sl a (M_dynmat.n_atoms d) qs ms = Ok (e', s', bins', avg', sls')) in D'.
      rewrite D in D'. assert (e' = e /\ s' = s /\ bins' = bins /\ avg' = avg /\ sls' = sls) as (-> & -> & -> & -> & ->) by (repeat split; congruence).
      rewrite (settings_with a [p] _ P) in P'. assert (ps' = [p]) as -> by congruence. inversion A' as [|? cv ? ? A1 A2]; subst. exists cv.
      replace (match bc_density (with_settings a [p]) with Some _ => true | None => false end) with (match bc_density a with Some _ => true | None => false end) in A1 by (unfold with_settings; cbn [bc_density]; destruct (bc_density a); reflexivity).
      exact A1. }
    clear - Q. induction (p0 :: ps) as [|p l IH]; [exists []; constructor|]. destruct (Q p (or_introl eq_refl)) as [cv Hc].
    destruct IH as [cvs Hcs]; [intros q Hq; apply Q; right; exact Hq|]. exists (cv :: cvs). constructor; assumption. }
  destruct K as [cvs K]. eexists. apply (tool_ok junk d mass born diel a bkw qs w ms e s bins avg sls (p0 :: ps) cvs); [exact B|exact (R _)|exact G|exact D|exact P|exact K].
Qed.
End BC.
