(** The values kept on a ForceConstants object do not show in later results. *)
From Coq Require Import FunctionalExtensionality.
From Verif Require Import Base Cpx Vec3 M_grid M_cell M_qpts M_dynmat M_dipole M_struct M_asr M_calc.
Open Scope R_scope.

Lemma phases_last d s q : py_nth (sc_phases d s q) (-1) Czero = Czero.
Proof.
  unfold py_nth, sc_phases. change ((-1 <? 0)%Z) with true. cbv iota.
  rewrite app_length. cbn [length]. rewrite app_nth2 by lia.
  replace (_ - _)%nat with 0%nat by lia. reflexivity.
Qed.
Lemma Csum_zero_ext {A} (l : list A) f : (forall x, In x l -> f x = Czero) -> Csum l f = Czero.
Proof. intro H. apply C_eq; cbn [Csum re im]; unfold Csum; apply Sum_zero_ext; intros x Hx; now rewrite (H x Hx). Qed.
Lemma no_image d t nc i j : t nc i j = [] -> forall k, In k (sc_image_i d t nc i j) -> k = (-1)%Z.
Proof. intros H k Hk. unfold sc_image_i in Hk. rewrite H in Hk. cbn in Hk. now apply repeat_spec in Hk. Qed.
Lemma dyn_mat_junk d s t j j' fc q a b : dyn_mat d s t (fc_img_weighted t j fc) q a b = dyn_mat d s t (fc_img_weighted t j' fc) q a b.
Proof.
  unfold dyn_mat. apply Csum_ext. intros nc _. unfold fc_img_weighted.
  destruct (Nat.eqb_spec (length (t nc (a/3)%nat (b/3)%nat)) 0) as [E|E]; [|reflexivity].
  apply length_zero_iff_nil in E.
  assert (Z : sc_phase_sum d s t q nc (a/3) (b/3) = Czero).
  { apply Csum_zero_ext. intros k Hk. rewrite (no_image d t _ _ _ E k Hk). apply phases_last. }
  rewrite Z. apply C_eq; cbn; ring.
Qed.
Lemma dyn_mat_grad_junk d s t j j' fc q a b l :
  dyn_mat_grad d s t (fc_img_weighted t j fc) q a b l = dyn_mat_grad d s t (fc_img_weighted t j' fc) q a b l.
Proof.
  unfold dyn_mat_grad. apply Csum_ext. intros nc _. unfold fc_img_weighted.
  destruct (Nat.eqb_spec (length (t nc (a/3)%nat (b/3)%nat)) 0) as [E|E]; [|reflexivity].
  apply length_zero_iff_nil in E.
  rewrite Csum_zero_ext; [apply C_eq; cbn; ring|].
  intros k Hk. rewrite (no_image d t _ _ _ E k Hk), phases_last. apply C_eq; cbn; ring.
Qed.

Section H.
Variable erfc : R -> R.
Variable reigh : real_eigh.
Variable ceigh : complex_eigh.
Variable argsort : list R -> list nat.
Variable chunk : nat.
Notation call := (call erfc reigh ceigh argsort chunk).
Notation result := (result erfc reigh ceigh argsort chunk).
Notation warnings := (warnings erfc reigh ceigh argsort chunk).
Notation next := (next erfc reigh ceigh argsort chunk).
Notation after := (after erfc reigh ceigh argsort chunk).

(** Same data; each kept value is the one that would be computed. *)
Record fresh_like (x y : fcobj) : Prop := {
  fl_d : o_d y = o_d x; fl_m : o_mass y = o_mass x; fl_b : o_born y = o_born x; fl_e : o_diel y = o_diel x;
  fl_im : o_images y = None \/ o_images y = Some (sc_images (o_d x) 2);
  fl_dip : match o_dip y with
           | None => True
           | Some (p, dat) => exists bo, o_born x = Some bo /\ dat = dipole_init erfc (f_cell (o_d x)) (f_atom_r (o_d x)) bo (o_diel x) p
           end;
  fl_asr : match o_asr y with
           | None => True
           | Some fc => exists b, enforce_realspace_asr reigh argsort chunk (o_d x) = Ok (b, fc)
           end }.

Lemma images_of_same x y : fresh_like x y -> images_of y = sc_images (o_d x) 2.
Proof. intros [D _ _ _ I _ _]. unfold images_of. rewrite D. destruct I as [E|E]; now rewrite E. Qed.
Lemma dipole_of_same x y o : fresh_like x y -> p_dipole o = true -> forall bo, o_born x = Some bo ->
  dipole_of erfc y o = Some (p_param o, dipole_init erfc (f_cell (o_d x)) (f_atom_r (o_d x)) bo (o_diel x) (p_param o)).
Proof.
  intros [D M B E I P A] Hp bo Hb. unfold dipole_of. rewrite D, B, E, Hb, Hp.
  destruct (o_dip y) as [[p dat]|]; [|reflexivity].
  destruct (Reqb_spec (p_param o) p) as [->|]; [|reflexivity].
  destruct P as [bo' [Hb' ->]]. assert (bo' = bo) by congruence. now subst.
Qed.
Lemma dipole_of_inv x y o : fresh_like x y ->
  match dipole_of erfc y o with
  | None => True
  | Some (p, dat) => exists bo, o_born x = Some bo /\ dat = dipole_init erfc (f_cell (o_d x)) (f_atom_r (o_d x)) bo (o_diel x) p
  end.
Proof.
  intros F. destruct (o_born x) as [bo|] eqn:Hb.
  - destruct (p_dipole o) eqn:Hp.
    + rewrite (dipole_of_same x y o F Hp bo Hb). eauto.
    + unfold dipole_of. rewrite (fl_b _ _ F), Hb, Hp. pose proof (fl_dip _ _ F) as P. now rewrite Hb in P.
  - unfold dipole_of. rewrite (fl_b _ _ F), Hb. pose proof (fl_dip _ _ F) as P. now rewrite Hb in P.
Qed.
(** The force constants used do not depend on what is kept. *)
Lemma asr_of_inv x y o : fresh_like x y ->
  match asr_of reigh argsort chunk y o, asr_of reigh argsort chunk x o with
  | Ok (k, fc, _), Ok (_, fc', _) => fc = fc' /\ match k with None => True | Some f => exists b, enforce_realspace_asr reigh argsort chunk (o_d x) = Ok (b, f) end
  | Err e, Err e' => e = e'
  | _, _ => False
  end \/ o_asr x <> None.
Proof.
  intros F. destruct (o_asr x) eqn:Hx; [now right|left].
  pose proof (fl_asr _ _ F) as A. unfold asr_of. rewrite (fl_d _ _ F), Hx.
  destruct (p_asr o) as [[|]|]; [|now split|now split].
  destruct (o_asr y) as [fc|] eqn:Ey.
  - destruct A as [b Hb]. rewrite Hb. split; [reflexivity|]. now exists b.
  - destruct (enforce_realspace_asr reigh argsort chunk (o_d x)) as [[b fc]|e]; [|reflexivity].
    split; [reflexivity|]. now exists b.
Qed.

Lemma next_fresh_like x y c : o_asr x = None -> fresh_like x y -> fresh_like x (next y c).
Proof.
  intros N F. unfold M_calc.next, M_calc.call. destruct c as [junk o]. cbn [fst snd].
  destruct (weights_ok o); cbn [negb]; [|exact F].
  destruct (the_q_dirs y o); [|exact F].
  pose proof (dipole_of_inv x y o F) as Hd. pose proof (asr_of_inv x y o F) as [Ha|Ha]; [|congruence].
  assert (Hi := images_of_same x y F).
  destruct (asr_of reigh argsort chunk y o) as [[[k fc] w]|e]; cbn [fst].
  - destruct (asr_of reigh argsort chunk x o) as [[[k' fc'] w']|]; [|contradiction]. destruct Ha as [_ Ha].
    split; cbn; try (apply F); try assumption. right. now rewrite Hi.
  - split; cbn; try (apply F); try assumption. right. now rewrite Hi.
Qed.
Lemma after_fresh_like x cs : o_asr x = None -> forall y, fresh_like x y -> fresh_like x (after y cs).
Proof. intro N. induction cs as [|c cs IH]; intros y F; [exact F|]. cbn. apply IH. now apply next_fresh_like. Qed.

Lemma full_junk d t j j' fc dip rec born diel q dir :
  full_dyn_mat d t (fc_img_weighted t j fc) dip rec born diel q dir = full_dyn_mat d t (fc_img_weighted t j' fc) dip rec born diel q dir.
Proof. extensionality a. extensionality b. unfold full_dyn_mat. now rewrite (dyn_mat_junk d 2 t j j'). Qed.
Lemma grad_junk d t j j' fc q : dyn_mat_grad d 2 t (fc_img_weighted t j fc) q = dyn_mat_grad d 2 t (fc_img_weighted t j' fc) q.
Proof. extensionality a. extensionality b. extensionality l. apply dyn_mat_grad_junk. Qed.

Lemma result_same x y j j' o : o_asr x = None -> o_images x = None -> o_dip x = None -> fresh_like x y -> result j o y = result j' o x.
Proof.
  intros Na Ni Nd F. unfold M_calc.result, M_calc.call.
  destruct (weights_ok o); cbn [negb snd]; [|reflexivity].
  pose proof (asr_of_inv x y o F) as [Ha|Ha]; [|congruence].
  assert (Fx : fresh_like x x).
  { split; try reflexivity; [now left|rewrite Nd; exact I|rewrite Na; exact I]. }
  assert (Hq : the_q_dirs y o = the_q_dirs x o).
  { unfold the_q_dirs, the_qpts, use_splitting, use_dipole. now rewrite (fl_b _ _ F). }
  rewrite Hq. destruct (the_q_dirs x o); [|reflexivity].
  rewrite (images_of_same x y F), (images_of_same x x Fx).
  assert (Hdip : match o_born y, dipole_of erfc y o with
                     | Some bo, Some (_, dat) => if p_dipole o then Some (bo, o_diel y, dat) else None
                     | _, _ => None
                     end = match o_born x, dipole_of erfc x o with
                     | Some bo, Some (_, dat) => if p_dipole o then Some (bo, o_diel x, dat) else None
                     | _, _ => None
                     end).
  { rewrite (fl_b _ _ F), (fl_e _ _ F). destruct (o_born x) as [bo|] eqn:Hb; [|reflexivity].
    destruct (p_dipole o) eqn:Hp.
    - now rewrite (dipole_of_same x y o F Hp bo Hb), (dipole_of_same x x o Fx Hp bo Hb).
    - destruct (dipole_of erfc y o) as [[? ?]|], (dipole_of erfc x o) as [[? ?]|]; reflexivity. }
  destruct (asr_of reigh argsort chunk y o) as [[[k fc] w]|e], (asr_of reigh argsort chunk x o) as [[[k' fc'] w']|e'];
    try contradiction; [|cbn; congruence].
  destruct Ha as [-> _]. cbn [snd]. rewrite Hdip.
  assert (Hw : the_weights y o = the_weights x o) by (unfold the_weights, use_splitting, use_dipole; now rewrite (fl_b _ _ F)).
  assert (Hqp : the_qpts y o = the_qpts x o) by (unfold the_qpts, use_splitting, use_dipole; now rewrite (fl_b _ _ F)).
  assert (Hs : use_splitting y o = use_splitting x o) by (unfold use_splitting, use_dipole; now rewrite (fl_b _ _ F)).
  rewrite Hw, Hqp, Hs, (fl_d _ _ F), (fl_b _ _ F), (fl_e _ _ F), (fl_m _ _ F).
  set (t := sc_images (o_d x) 2). set (dip := match o_born x with Some _ => _ | None => None end).
  rewrite (full_junk (o_d x) t j j' fc' dip None None (o_diel x) vzero None).
  set (rec := match p_asr o with Some Reciprocal => _ | _ => None end).
  match goal with |- match calculate ?f _ _ _ _ with _ => _ end = match calculate ?g _ _ _ _ with _ => _ end =>
    assert (Hc : f = g) end.
  { extensionality q. extensionality dir. now rewrite (full_junk (o_d x) t j j'), (grad_junk (o_d x) t j j'). }
  now rewrite Hc.
Qed.

(** Any list of earlier calls. *)
Lemma history d mass born diel cs j j' o :
  result j o (after (new_fc d mass born diel) cs) = result j' o (new_fc d mass born diel).
Proof.
  apply result_same; try reflexivity. apply after_fresh_like; [reflexivity|].
  split; try reflexivity; cbn; auto.
Qed.
End H.
