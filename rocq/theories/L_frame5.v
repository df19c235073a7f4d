(** A crystal of two atoms and another description of it. *)
From Coq Require Import FunctionalExtensionality.
From Verif Require Import Base Cpx Vec3 M_grid M_cell M_qpts M_dos M_sf M_dynmat M_dipole M_asr M_calc S_dynmat S_dipole S_asr S_calc S_unique S_frame
  L_dynmat2 L_near L_nac L_calc L_calc2 L_calc4 L_calc5 L_calc7 S_acoustic L_acoustic L_acoustic2 L_acoustic3 L_frame L_frame3.
From Verif Require L_phmodes.
Open Scope R_scope.

Definition sq1 : Z3 * Z3 * Z3 := ((1,0,0),(0,1,0),(0,0,1))%Z.
(** Two atoms tied to their places by springs of their own, for each atom and direction. *)
Definition springs (k : nat -> R) (cell : M3) (r : list V3) : fcdata := mkFC cell r sq1 [(0,0,0)%Z] (fun _ a b => if Nat.eqb a b then k a else 0).
Definition quarter_turn : M3 := ((0, 1, 0), (-1, 0, 0), (0, 0, 1)).
Definition k1 (a : nat) : R := INR (a + 1).
Definition k2 (a : nat) : R := nth a [5; 4; 6; 2; 1; 3] 0.
Definition pair1 : fcdata := springs k1 unit_cell3 [vzero; (1/4, 0, 0)].
(** The other atom first, moved by -1/4; the first atom moved by -1/4 and by a lattice vector; axes turned. *)
Definition pair2 : fcdata := springs k2 quarter_turn [vzero; (3/4, 0, 0)].
Definition other : frame := mkFrame (fun i => (1 - i)%nat) (fun i => (1 - i)%nat) (- (1/4), 0, 0) (fun i => if Nat.eqb i 1 then (1,0,0)%Z else (0,0,0)%Z) quarter_turn (fun _ _ nc => nc).
Definition mass1 (i : nat) : R := INR (i + 1).
Definition mass2 (i : nat) : R := INR (2 - i).

Lemma turn_orth : orthogonal quarter_turn.
Proof. intros a b A B. rewrite !three. destruct a as [|[|[|]]]; [| | |lia]; (destruct b as [|[|[|]]]; [| | |lia]); cbn; split; ring. Qed.
Lemma unit_orth : orthogonal unit_cell3.
Proof. intros a b A B. rewrite !three. destruct a as [|[|[|]]]; [| | |lia]; (destruct b as [|[|[|]]]; [| | |lia]); cbn; split; ring. Qed.
Lemma other_redescribes : redescribes other pair1 pair2 mass1 mass2.
Proof.
  change (redescribes other pair1 pair2 mass1 mass2). unfold redescribes. change (M_dynmat.n_atoms pair1) with 2%nat. change (n_cells pair1) with 1%nat. cbv zeta.
  split. { intros i Hi. cbn [other fr_p fr_p']. lia. }
  split. { exact turn_orth. }
  split; [reflexivity|]. split; [reflexivity|]. split; [reflexivity|].
  split. { unfold pair1, pair2, springs, other, quarter_turn, unit_cell3. cbn. f_equal; [f_equal|]; apply V3_eq; ring. }
  split.
  - intros i Hi. destruct i as [|[|]]; [| |lia]; (split; [unfold mass1, mass2; cbn; ring|]); unfold pair1, pair2, springs; cbn; apply V3_eq; field.
  - intros i j Hi Hj. split; [intros; assumption|]. intros nc Hnc. cbn [other fr_c]. assert (nc = 0)%nat as -> by lia. split; [lia|]. split.
    + unfold same_mod_supercell. exists (zadd3 (fr_T other j) (zopp3 (fr_T other i))). unfold pair1, pair2, springs. cbn [f_sc f_origins nth].
      destruct i as [|[|]]; [| |lia]; (destruct j as [|[|]]; [| |lia]); reflexivity.
    + intros a b A B. unfold turned_entry. rewrite !three. rewrite ?three.
      destruct i as [|[|]]; [| |lia]; (destruct j as [|[|]]; [| |lia]); (destruct a as [|[|[|]]]; [| | |lia]); (destruct b as [|[|[|]]]; [| | |lia]); cbn; ring.
Qed.

Section Springs.
Variables (k : nat -> R) (cell : M3) (y x : R).
Hypothesis Hy : 0 <= y < 1.
Hypothesis Hx : 0 <= x < 1.
Hypothesis Ho : orthogonal cell.
Notation d := (springs k cell [(y, 0, 0); (x, 0, 0)]).
Lemma springs_home : home_first d. Proof. reflexivity. Qed.
Lemma springs_sc : sc_vecs d = cell.
Proof. unfold sc_vecs, springs, sq1. destruct cell as [[[[c1 c2] c3] [[c4 c5] c6]] [[c7 c8] c9]]. cbn. f_equal; [f_equal|]; apply V3_eq; ring. Qed.
Lemma springs_complete : search_complete d.
Proof.
  apply orth_complete; [exact springs_home| |].
  - unfold orthogonal_supercell. rewrite springs_sc.
    assert (E : forall a b, (a < 3)%nat -> (b < 3)%nat -> sumn 3 (fun y => entry cell a y * entry cell b y) = if Nat.eqb a b then 1 else 0) by (intros a b A B; apply (Ho a b A B)).
    assert (E00 := E 0%nat 0%nat ltac:(lia) ltac:(lia)). assert (E01 := E 0%nat 1%nat ltac:(lia) ltac:(lia)). assert (E02 := E 0%nat 2%nat ltac:(lia) ltac:(lia)).
    assert (E11 := E 1%nat 1%nat ltac:(lia) ltac:(lia)). assert (E12 := E 1%nat 2%nat ltac:(lia) ltac:(lia)). assert (E22 := E 2%nat 2%nat ltac:(lia) ltac:(lia)). clear E.
    rewrite three in *. destruct cell as [[[[c1 c2] c3] [[c4 c5] c6]] [[c7 c8] c9]]. cbn in *. repeat split; lra.
  - intros nc j Hn Hj. change (n_cells d) with 1%nat in Hn. change (M_dynmat.n_atoms d) with 2%nat in Hj. assert (nc = 0)%nat as -> by lia. rewrite springs_sc.
    destruct j as [|[|]]; [| |lia].
    + exists (y, 0, 0). split; [unfold atom_pos, springs; destruct cell as [[[[c1 c2] c3] [[c4 c5] c6]] [[c7 c8] c9]]; cbn; apply V3_eq; ring|lra].
    + exists (x, 0, 0). split; [unfold atom_pos, springs; destruct cell as [[[[c1 c2] c3] [[c4 c5] c6]] [[c7 c8] c9]]; cbn; apply V3_eq; ring|lra].
Qed.
Lemma springs_det : det3 (zrows (f_sc d)) <> 0.
Proof. unfold springs, sq1. cbn. lra. Qed.
Lemma springs_sym : fc_symmetric d.
Proof.
  exists (fun nc => nc). split.
  - intros nc Hn. change (n_cells d) with 1%nat in Hn. assert (nc = 0)%nat as -> by lia. split; [exact Hn|]. split; [reflexivity|]. exists (0,0,0)%Z. reflexivity.
  - intros nc a b _ _ _. unfold springs. cbn [f_fc]. destruct (Nat.eqb_spec a b) as [->|N]; [rewrite Nat.eqb_refl; reflexivity|]. destruct (Nat.eqb_spec b a); [congruence|reflexivity].
Qed.
Lemma springs_off junk q a b : (a < 6)%nat -> (b < 6)%nat -> a <> b -> interp_dyn_mat d junk q a b = Czero.
Proof.
  intros A B N. destruct (fourier_shared d junk springs_home springs_complete springs_det) as (L & _ & HF). rewrite HF by assumption.
  unfold fourier_sum. change (n_cells d) with 1%nat. cbn [seq]. rewrite Csum_cons, Csum_nil.
  rewrite (Csum_ext (L 0%nat (a / 3)%nat (b / 3)%nat) _ (fun _ => Czero)); [rewrite Csum_zero by reflexivity; apply C_eq; cbn; ring|]. intros r _. unfold springs. cbn [f_fc].
  destruct (Nat.eqb_spec a b); [contradiction|]. unfold Rdiv. rewrite Rmult_0_l. apply C_eq; cbn; ring.
Qed.
(** [born]: no charges, or only one atom has one, the same in all directions. *)
Definition one_charge (born : option (nat -> M3)) : Prop := match born with None => True | Some bo => exists z, (bo 0%nat = iso z /\ bo 1%nat = iso 0) \/ (bo 0%nat = iso 0 /\ bo 1%nat = iso z) end.
Lemma charge_off erfc bo i j a b : one_charge (Some bo) -> (i < 2)%nat -> (j < 2)%nat -> (a < 3)%nat -> (b < 3)%nat ->
  dipole_correction (f_cell d) (f_atom_r d) bo unit_cell3 (dipole_init erfc (f_cell d) (f_atom_r d) bo unit_cell3 1) vzero (3 * i + a) (3 * j + b) = Czero.
Proof.
  intros C1 Hi Hj Ha Hb. set (D := dipole_correction _ _ _ _ _ _).
  assert (Z0 : forall m i j a b, (bo i = iso 0 \/ bo j = iso 0) -> born_contract bo m i j a b = Czero).
  { intros m i0 j0 a0 b0 Z. unfold born_contract, idx3. rewrite !Csum_cons, !Csum_nil.
    destruct Z as [-> | ->]; unfold iso; [destruct a0 as [|[|a0]]|destruct b0 as [|[|b0]]]; cbn [mget row comp]; apply C_eq; cbn [re im Cadd Cscal Czero]; ring. }
  assert (Off : forall i j a b, (a < 3)%nat -> (b < 3)%nat -> (i < 2)%nat -> (j < 2)%nat -> i <> j -> D (3 * i + a)%nat (3 * j + b)%nat = Czero).
  { intros i0 j0 a0 b0 A0 B0 I J N. unfold D, dipole_correction. cbv zeta. destruct (L_phmodes.div3 i0 a0 A0) as [-> ->]. destruct (L_phmodes.div3 j0 b0 B0) as [-> ->].
    destruct (Nat.eqb_spec i0 j0); [contradiction|]. apply Z0. destruct C1 as [z [[C0 C1]|[C0 C1]]]; destruct i0 as [|[|]], j0 as [|[|]]; try lia; tauto. }
  destruct (Nat.eq_dec i j) as [<-|N]; [|apply Off; assumption].
  assert (B : balanced 2 D).
  { destruct C1 as [z [[C0 C1]|[C0 C1]]].
    - apply (isotropic_balanced erfc (f_cell d) (f_atom_r d) bo unit_cell3 1 eq_refl (fun i => if Nat.eqb i 0 then z else 0)). intros i0 I. change (length (f_atom_r d)) with 2%nat in I. destruct i0 as [|[|]]; [exact C0|exact C1|lia].
    - apply (isotropic_balanced erfc (f_cell d) (f_atom_r d) bo unit_cell3 1 eq_refl (fun i => if Nat.eqb i 0 then 0 else z)). intros i0 I. change (length (f_atom_r d)) with 2%nat in I. destruct i0 as [|[|]]; [exact C0|exact C1|lia]. }
  pose proof (dip_no_force erfc (f_cell d) (f_atom_r d) bo unit_cell3 1 B) as G. specialize (G (3 * i + a)%nat b). change (length (f_atom_r d)) with 2%nat in G. fold D in G. specialize (G ltac:(lia) Hb).
  cbn [seq] in G. rewrite !Csum_cons, Csum_nil in G. destruct i as [|[|]]; [| |lia].
  - rewrite (Off 0%nat 1%nat a b) in G by (assumption || lia). rewrite <- G. apply C_eq; cbn [re im Cadd Czero]; ring.
  - rewrite (Off 1%nat 0%nat a b) in G by (assumption || lia). rewrite <- G. apply C_eq; cbn [re im Cadd Czero]; ring.
Qed.
Lemma springs_run erfc reigh argsort chunk junk mass born : one_charge born -> exists r,
  result erfc reigh cdiag argsort chunk junk (at_gamma None true) (new_fc d mass born unit_cell3) = Ok r.
Proof.
  intros C1. rewrite (one_point erfc reigh cdiag argsort chunk junk None true _ None (f_fc d) []) by (discriminate || reflexivity).
  cbn [o_d o_mass o_born o_diel new_fc].
  match goal with |- context [solve cdiag _ _ ?D _] => set (D0 := D) end.
  assert (K : forall a b, (a < 6)%nat -> (b < 6)%nat -> a <> b -> D0 a b = Czero).
  { intros a b A B N. unfold D0, full_dyn_mat. change (dyn_mat _ 2 _ _ vzero a b) with (interp_dyn_mat d junk vzero a b). rewrite springs_off by assumption. destruct born as [bo|]; [|reflexivity].
    unfold dipole_of. cbn [o_born new_fc o_dip o_d o_diel at_gamma p_dipole p_param]. rewrite (Nat.div_mod a 3), (Nat.div_mod b 3) by lia.
    match goal with |- context [dipole_correction _ _ _ _ ?dd _ _ _] => change dd with (dipole_init erfc (f_cell d) (f_atom_r d) bo unit_cell3 1) end.
    rewrite (charge_off erfc bo (a / 3) (b / 3) (a mod 3) (b mod 3) C1) by (apply Nat.div_lt_upper_bound || apply Nat.mod_upper_bound; lia). apply C_eq; cbn; ring. }
  change (3 * M_dynmat.n_atoms d)%nat with 6%nat. unfold solve, cdiag.
  assert (O : offdiag czero 6 (herm_upper (mass_weight mass D0)) = true).
  { apply offdiag_spec. intros i j Hi Hj N. apply czero_spec. unfold herm_upper, mass_weight. destruct (Nat.ltb_spec i j); [rewrite K by assumption; apply C_eq; cbn; ring|].
    destruct (Nat.ltb_spec j i); [|lia]. rewrite K by (assumption || lia). apply C_eq; cbn; ring. }
  rewrite O. eexists. reflexivity.
Qed.
End Springs.

Lemma other_xtal : redescribes_xtal other 2
  (M_sf.mkX mass1 (fun i => nth i (f_atom_r pair1) vzero) (reciprocal_cell (f_cell pair1)))
  (M_sf.mkX mass2 (fun i => nth i (f_atom_r pair2) vzero) (reciprocal_cell (f_cell pair2)))
  (fun i => nth i [3; 5] 0) (fun i => nth i [5; 3] 0).
Proof.
  split.
  - cbn [recip]. change (fr_G other) with quarter_turn. rewrite <- (recip_turn (f_cell pair1) quarter_turn turn_orth).
    + pose proof other_redescribes as (_ & _ & _ & _ & _ & E & _). change (fr_G other) with quarter_turn in E. rewrite E. reflexivity.
    + unfold pair1, springs, unit_cell3, cell_volume, cell_vectors_to_volume. cbn. unfold Rabs; lra.
  - intros i Hi. pose proof other_redescribes as (_ & _ & _ & _ & _ & _ & E & _). destruct (E i Hi) as [E1 E2]. cbn [M_sf.mass pos].
    split; [exact E1|]. split; [|exact E2]. destruct i as [|[|]]; [reflexivity|reflexivity|lia].
Qed.

(** The first pair with a charge on one atom; the atoms exchanged and moved by 1/2. *)
Definition pair3 : fcdata := springs (fun a => nth a [4; 5; 6; 1; 2; 3] 0) unit_cell3 [(3/4, 0, 0); (1/2, 0, 0)].
Definition exchanged : frame := mkFrame (fun i => (1 - i)%nat) (fun i => (1 - i)%nat) (1/2, 0, 0) (fun _ => (0,0,0)%Z) no_turn (fun _ _ nc => nc).
Definition charge1 (i : nat) : M3 := if Nat.eqb i 0 then iso 2 else iso 0.
Definition charge3 (i : nat) : M3 := if Nat.eqb i 0 then iso 0 else iso 2.
Lemma exchanged_redescribes : redescribes exchanged pair1 pair3 mass1 mass2.
Proof.
  unfold redescribes. change (M_dynmat.n_atoms pair1) with 2%nat. change (n_cells pair1) with 1%nat. cbv zeta.
  split. { intros i Hi. cbn [exchanged fr_p fr_p']. lia. }
  split. { exact unit_orth. }
  split; [reflexivity|]. split; [reflexivity|]. split; [reflexivity|].
  split. { unfold pair1, pair3, springs, exchanged, unit_cell3, no_turn. cbn. f_equal; [f_equal|]; apply V3_eq; ring. }
  split.
  - intros i Hi. destruct i as [|[|]]; [| |lia]; (split; [unfold mass1, mass2; cbn; ring|]); unfold pair1, pair3, springs; cbn; apply V3_eq; field.
  - intros i j Hi Hj. split; [intros nc nc' _ _ E; exact E|]. intros nc Hn. assert (nc = 0)%nat as -> by lia. split; [exact Hn|]. split.
    + exists (0,0,0)%Z. reflexivity.
    + intros a b Ha Hb. unfold turned_entry. rewrite !three. rewrite ?three.
      destruct i as [|[|]]; [| |lia]; (destruct j as [|[|]]; [| |lia]); (destruct a as [|[|[|]]]; [| | |lia]); (destruct b as [|[|[|]]]; [| | |lia]);
        unfold pair1, pair3, springs, k1, entry, exchanged, no_turn; cbn; ring.
Qed.
Lemma exchanged_charges : same_charges exchanged 2 (Some charge1) (Some charge3) unit_cell3 unit_cell3.
Proof. split; [reflexivity|]. split; [reflexivity|]. split; [reflexivity|]. intros i Hi. destruct i as [|[|]]; [reflexivity|reflexivity|lia]. Qed.
