(** Worked corrections (C15). *)
From Verif Require Import Base Cpx Vec3 M_grid M_cell M_qpts M_dynmat S_dynmat M_struct S_struct L_scidx L_conv L_util M_asr S_asr L_asr L_asr2 L_asr3 L_asr4.
Open Scope R_scope.

Definition stiff_ev (m : nat) : R := if Nat.ltb m 3 then 1 else 26.
Lemma stiff_system : eigen_system 6 stiff stiff_ev mixv.
Proof. split; [|exact mix_orthonormal]. intros m M i I. upto6 M; upto6 I; six; cbn; field. Qed.
Definition diagonal (k : R) (i j : nat) : R := if Nat.eqb i j then k else 0.
Lemma diagonal_system k : eigen_system 6 (diagonal k) (fun _ => k) mixv.
Proof. split; [|exact mix_orthonormal]. intros m M i I. upto6 M; upto6 I; six; cbn; field. Qed.

Lemma min_abs_is n ev x : (exists m, (m < n)%nat /\ Rabs (ev m) = x) -> (forall m, (m < n)%nat -> x <= Rabs (ev m)) -> min_abs n ev = x.
Proof.
  intros (m & M & E) H. destruct (min_abs_spec n ev ltac:(lia)) as (A & m' & B & D). pose proof (A m M). pose proof (H m' B). lra.
Qed.
Lemma enforce_run d chunk t eigh argsort ev v ac A0 :
  supercell_relative_idx chunk (f_origins d) (f_sc d) = Ok t ->
  (forall A, (forall i j, (i < 3 * n_atoms d * n_cells d)%nat -> (j < 3 * n_atoms d * n_cells d)%nat -> A i j = A0 i j) -> eigh (3 * n_atoms d * n_cells d)%nat A = Some (ev, v)) ->
  (forall i j, (i < 3 * n_atoms d * n_cells d)%nat -> (j < 3 * n_atoms d * n_cells d)%nat -> A0 i j = A0 j i) ->
  (forall i j, (i < 3 * n_atoms d * n_cells d)%nat -> (j < 3 * n_atoms d * n_cells d)%nat -> sq_fc (3 * n_atoms d) (relf t) (f_fc d) i j = A0 i j) ->
  find_acoustic_modes argsort (3 * n_atoms d * n_cells d) (fun i m => RtoC (v i m)) = Some ac ->
  exists fc', enforce_realspace_asr eigh argsort chunk d = Ok (true, fc') /\ forall c a b, fc' c a b = fixed d t ev v ac c a b.
Proof.
  intros T E S Q F. unfold enforce_realspace_asr. rewrite T. cbv zeta. change (fun nc c => nth c (nth nc t []) 0%nat) with (relf t).
  rewrite (E (sym_upper (sq_fc (3 * n_atoms d) (relf t) (f_fc d)))).
  - rewrite F. eexists. split; [reflexivity|]. intros c a b. reflexivity.
  - intros i j I J. rewrite <- (Q i j I J). apply (sym_upper_id (3 * n_atoms d * n_cells d)); [|exact I|exact J]. intros i' j' I' J'. rewrite !Q by assumption. apply S; assumption.
Qed.

Lemma translation_force eigh argsort chunk : (0 < chunk)%nat -> sorts argsort ->
  (forall A, (forall i j, (i < 6)%nat -> (j < 6)%nat -> A i j = stiff i j) -> eigh 6%nat A = Some (stiff_ev, mixv)) ->
  exists fc', enforce_realspace_asr eigh argsort chunk one_cell = Ok (true, fc') /\ sumn 1 (fun c => sumn 2 (fun k => fc' c 0%nat (3 * k + 0)%nat)) = - (78 / 25 + 28 / 25 * (1 / 10 ^ 8)).
Proof.
  intros Hc Hs He. assert (D : zdet3 (f_sc one_cell) = 1%Z) by reflexivity.
  assert (D1 : zdet3 (f_sc one_cell) <> 0%Z) by (rewrite D; lia). assert (D2 : (Z.abs (zdet3 (f_sc one_cell)) < 2 ^ 48)%Z) by (rewrite D; reflexivity).
  destruct (rel_exists chunk one_cell Hc D1 D2) as (t & T).
  { intros nc j A B. change (n_cells one_cell) with 1%nat in *. assert (nc = 0)%nat as -> by lia. assert (j = 0)%nat as -> by lia. exists 0%nat. split; [lia|]. apply same_refl. }
  destruct (mix_found argsort Hs) as (ac & F & P).
  pose proof (sq_supercell one_cell chunk t Hc D1 D2 one_cell_distinct T) as SM. unfold supercell_matrix in SM. cbv zeta in SM. change (n_cells one_cell) with 1%nat in SM. change (n_atoms one_cell) with 2%nat in SM.
  assert (Q : forall i j, (i < 6)%nat -> (j < 6)%nat -> sq_fc 6 (relf t) (f_fc one_cell) i j = stiff i j).
  { intros i j I J. specialize (SM 0%nat 0%nat 0%nat i j ltac:(lia) ltac:(lia) ltac:(lia) I J (same_refl _ _)). cbn [Nat.mul Nat.add] in SM. rewrite stiff_sym by assumption. exact SM. }
  destruct (enforce_run one_cell chunk t eigh argsort stiff_ev mixv ac stiff T He stiff_sym Q F) as (fc' & E & X). exists fc'. split; [exact E|].
  destruct one_cell_sym as (p & Hp & Hfc). six. rewrite !X.
  assert (M : min_abs (3 * n_atoms one_cell * n_cells one_cell) stiff_ev = 1).
  { change (3 * n_atoms one_cell * n_cells one_cell)%nat with 6%nat. apply min_abs_is; [exists 0%nat; split; [lia|unfold stiff_ev; cbn; rewrite Rabs_pos_eq; lra]|]. intros m Hm. unfold stiff_ev. destruct (Nat.ltb m 3); rewrite Rabs_pos_eq; lra. }
  rewrite !(fixed_spec one_cell chunk t Hc D1 D2 one_cell_home one_cell_distinct T p Hp Hfc) by (change (n_cells one_cell) with 1%nat; change (n_atoms one_cell) with 2%nat; lia).
  rewrite M, !(mix_sum ac _ P). change (3 * n_atoms one_cell)%nat with 6%nat. unfold one_cell, stiff_ev, stiff, mixv, mix. cbn [f_fc]. cbn. field.
Qed.

Lemma gamma_left eigh argsort chunk k : (0 < chunk)%nat -> 0 < k -> sorts argsort ->
  (forall A, (forall i j, (i < 6)%nat -> (j < 6)%nat -> A i j = diagonal k i j) -> eigh 6%nat A = Some ((fun _ => k), mixv)) ->
  exists fc', enforce_realspace_asr eigh argsort chunk (einstein k) = Ok (true, fc') /\
    forall x, (x < 3)%nat -> eigenvector 3 (gamma_matrix 2 fc') (- ((3 / 25 + 28 / 25 * (1 / 10 ^ 8)) * k)) (fun a => if Nat.eqb a x then 1 else 0).
Proof.
  intros Hc Hk Hs He. set (d := einstein k). assert (D : zdet3 (f_sc d) = 2%Z) by reflexivity.
  assert (D1 : zdet3 (f_sc d) <> 0%Z) by (rewrite D; lia). assert (D2 : (Z.abs (zdet3 (f_sc d)) < 2 ^ 48)%Z) by (rewrite D; reflexivity).
  assert (O : forall c c', (c < 2)%nat -> (c' < 2)%nat -> same_mod_supercell (f_sc d) (nth (if Nat.eqb c c' then 0 else 1) (f_origins d) (0,0,0)%Z) (zsub3 (nth c' (f_origins d) (0,0,0)%Z) (nth c (f_origins d) (0,0,0)%Z))).
  { intros c c' A B. destruct c as [|[|]]; [| |lia]; (destruct c' as [|[|]]; [| |lia]); cbn [Nat.eqb]; unfold d, einstein; cbn [f_origins pair_org nth f_sc];
      match goal with |- context [zsub3 ?a ?b] => let v := eval vm_compute in (zsub3 a b) in change (zsub3 a b) with v end; apply same_half; reflexivity. }
  destruct (rel_exists chunk d Hc D1 D2) as (t & T).
  { intros nc j A B. change (n_cells d) with 2%nat in *. exists (if Nat.eqb nc j then 0 else 1)%nat. split; [destruct (Nat.eqb nc j); lia|]. exact (O nc j A B). }
  destruct (mix_found argsort Hs) as (ac & F & P).
  pose proof (sq_supercell d chunk t Hc D1 D2 (einstein_distinct k) T) as SM. unfold supercell_matrix in SM. cbv zeta in SM. change (n_cells d) with 2%nat in SM. change (n_atoms d) with 1%nat in SM.
  assert (Q : forall i j, (i < 6)%nat -> (j < 6)%nat -> sq_fc 3 (relf t) (f_fc d) i j = diagonal k i j).
  { intros i j I J. pose proof (Nat.div_mod i 3 ltac:(lia)) as I1. pose proof (Nat.div_mod j 3 ltac:(lia)) as J1. pose proof (Nat.mod_upper_bound i 3 ltac:(lia)) as I2. pose proof (Nat.mod_upper_bound j 3 ltac:(lia)) as J2.
    assert (I3 : (i / 3 < 2)%nat) by (apply Nat.div_lt_upper_bound; lia). assert (J3 : (j / 3 < 2)%nat) by (apply Nat.div_lt_upper_bound; lia).
    specialize (SM (i / 3) (j / 3) (if Nat.eqb (i / 3) (j / 3) then 0 else 1) (i mod 3) (j mod 3))%nat. change (3 * 1)%nat with 3%nat in SM. transitivity (sq_fc 3 (relf t) (f_fc d) (i / 3 * 3 + i mod 3)%nat (j / 3 * 3 + j mod 3)%nat); [f_equal; lia|]. rewrite SM; [|exact I3|exact J3|destruct (Nat.eqb _ _); lia|lia|lia|exact (O _ _ I3 J3)].
    clear -I J. unfold d, einstein, diagonal. cbn [f_fc]. upto6 I; upto6 J; reflexivity. }
  assert (S0 : forall i j, (i < 6)%nat -> (j < 6)%nat -> diagonal k i j = diagonal k j i) by (intros; unfold diagonal; rewrite Nat.eqb_sym; reflexivity).
  destruct (enforce_run d chunk t eigh argsort (fun _ => k) mixv ac (diagonal k) T He S0 Q F) as (fc' & E & X). exists fc'. split; [exact E|].
  destruct (einstein_sym k) as (p & Hp & Hfc).
  assert (M : min_abs (3 * n_atoms d * n_cells d) (fun _ => k) = k).
  { apply min_abs_is; [exists 0%nat; split; [change (0 < 6)%nat; lia|rewrite Rabs_pos_eq; lra]|]. intros m _. rewrite Rabs_pos_eq; lra. }
  assert (FX : forall c a b, (c < 2)%nat -> (a < 3)%nat -> (b < 3)%nat -> fc' c a b = f_fc d c a b - Sum ac (fun m => (1 / 10 ^ 8 * k + k) * (mixv (c * 3 + a)%nat m * mixv b m))).
  { intros c a b A B B'. rewrite X. rewrite (fixed_spec d chunk t Hc D1 D2 eq_refl (einstein_distinct k) T p Hp Hfc) by assumption. rewrite M. reflexivity. }
  intros x Hx a Ha. unfold gamma_matrix. six. rewrite !FX by lia. rewrite !(mix_sum ac _ P). unfold d, einstein, mixv, mix. cbn [f_fc].
  destruct x as [|[|[|]]]; [| | |lia]; (destruct a as [|[|[|]]]; [| | |lia]); cbn; field.
Qed.

(** A complex phase on the eigenvectors *)
Definition phase_v (i m : nat) : C := if Nat.eqb i m then Ci else Czero.
Definition cdiag (k : R) (i j : nat) : C := if Nat.eqb i j then RtoC k else Czero.
Lemma cdiag_system k : ceigen_system 3 (cdiag k) (fun _ => k) phase_v.
Proof.
  split; [intros m M i I|intros m n M N]; unfold cdiag, phase_v.
  - destruct m as [|[|[|]]]; [| | |lia]; (destruct i as [|[|[|]]]; [| | |lia]); cbn [seq Nat.eqb]; rewrite !Csum_cons, Csum_nil; apply C_eq; cbn; ring.
  - destruct m as [|[|[|]]]; [| | |lia]; (destruct n as [|[|[|]]]; [| | |lia]); cbn [seq Nat.eqb]; rewrite !Csum_cons, Csum_nil; apply C_eq; cbn; ring.
Qed.
Lemma phase_doubles eigh argsort k : sorts argsort -> eigh 3%nat (herm_upper (cdiag k)) = Some ((fun _ => k), phase_v) ->
  exists corr, enforce_reciprocal_asr eigh argsort 3 (cdiag k) = Some corr /\
    forall x, (x < 3)%nat -> exists m, (m < 3)%nat /\ ceigenvector 3 (fun a b => Cadd (cdiag k a b) (corr a b)) (2 * k + 5 / 10 ^ 15 * INR m) (fun a => if Nat.eqb a x then Cone else Czero).
Proof.
  intros Hs He. assert (W : forall m, (m < 3)%nat -> com_disp_sq 1 (fun i => phase_v i m) = 1).
  { intros m M. unfold com_disp_sq, phase_v. destruct m as [|[|[|]]]; [| | |lia]; six; cbn [seq Nat.mul Nat.add Nat.eqb]; rewrite !Csum_cons, !Csum_nil; unfold Cnorm2; cbn; ring. }
  assert (F : exists ac, find_acoustic_modes argsort 3 phase_v = Some ac).
  { unfold find_acoustic_modes. cbv zeta. change (3 / 3)%nat with 1%nat. destruct (Nat.ltb _ 3) eqn:Q; [exfalso|eexists; reflexivity]. apply Nat.ltb_lt in Q. cbn [seq map] in Q. rewrite !W in Q by lia. cbn [filter INR] in Q.
    assert (T : Rltb (1 / 2 * (1 * 1)) 1 = true) by (apply Rltb_iff; lra). rewrite !T in Q. cbn [length] in Q. lia. }
  destruct F as (ac & F). assert (EX : exists corr, enforce_reciprocal_asr eigh argsort 3 (cdiag k) = Some corr) by (unfold enforce_reciprocal_asr; rewrite He, F; eexists; reflexivity).
  destruct EX as (corr & E). exists corr. split; [exact E|]. destruct (recip_inv eigh argsort 3 (cdiag k) _ _ corr He E) as (ac' & F' & X). assert (ac' = ac) as -> by congruence.
  destruct (found_large _ _ _ _ Hs F) as (L & D & B & _). intros x Hx.
  assert (IN : In x ac). { assert (PP : Permutation ac [0;1;2]%nat) by (apply NoDup_Permutation_bis; [exact D|rewrite L; reflexivity|intros j J; destruct (B j J) as (J1 & _); cbn [In]; lia]). apply (Permutation_in x (Permutation_sym PP)). cbn [In]. lia. }
  destruct (In_nth ac x 0%nat IN) as (m & M & NM). exists m. split; [lia|]. intros a Ha. rewrite (recip_apply 3 (cdiag k) (fun _ => k) phase_v corr ac _ a X).
  assert (V : forall j, In j ac -> Csum (seq 0 3) (fun b => Cmul (phase_v b j) (if Nat.eqb b x then Cone else Czero)) = if Nat.eqb j x then Ci else Czero).
  { intros j J. destruct (B j J) as (J1 & _). unfold phase_v. destruct x as [|[|[|]]]; [| | |lia]; (destruct j as [|[|[|]]]; [| | |lia]); cbn [seq Nat.eqb]; rewrite !Csum_cons, Csum_nil; cbn [Nat.eqb]; ring. }
  rewrite (Csum_single _ (m, x)).
  - cbn [fst snd]. rewrite (V x IN), Nat.eqb_refl. unfold phase_v, cdiag. destruct x as [|[|[|]]]; [| | |lia]; (destruct a as [|[|[|]]]; [| | |lia]); cbn [seq Nat.eqb]; rewrite !Csum_cons, Csum_nil; cbn [Nat.eqb]; apply C_eq; cbn [re im Cadd Copp Cmul Cscal Ci Cone Czero RtoC]; ring.
  - apply combine_nodup.
  - apply combine_in. rewrite Nat.sub_0_r. split; [lia|exact NM].
  - intros [i j] P NE. cbn [fst snd]. pose proof (in_combine_r _ _ _ _ P) as J. rewrite (V j J). assert (Q : j <> x). { intros ->. apply NE. apply combine_in in P. rewrite Nat.sub_0_r in P. destruct P as (P1 & P2). f_equal. apply (proj1 (NoDup_nth ac 0%nat) D); [lia|lia|congruence]. }
    rewrite (proj2 (Nat.eqb_neq j x) Q). ring.
Qed.
