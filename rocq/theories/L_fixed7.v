(** Examples for C76 and C77. *)
From Coq Require Import String.
From Verif Require Import Base L_util M_cell L_cell M_qpts L_qpts L_path M_path M_broad S_broad L_broad L_broad2 L_broad3 M_dos L_dos L_dos2 M_bins S_bins L_bins M_reorder S_reorder L_reorder L_reorder2 M_sf L_tight M_fixed S_fixed L_fixed L_fixed2 L_fixed3 L_fixed4 L_fixed5 L_fixed6.
Open Scope R_scope.

Lemma even_01 : even_axis 1 2 [0; 1].
Proof. exists 0. split; [left; reflexivity|]. intros [|[|i]] Hi; cbn in Hi |- *; try lra; lia. Qed.
Lemma even_edges_012 : even_axis 1 2 [0; 1; 2].
Proof. exists 0. split; [right; reflexivity|]. intros [|[|[|i]]] Hi; cbn in Hi |- *; try lra; lia. Qed.

Lemma lorentz_wide coeffs m lower conv error fit : method_ok m = true ->
  exists out, broaden1d coeffs [0; 1] [1; 0] (Fixed 2) "lorentz" m lower conv error fit = Ok (false, Some out) /\
  0 < nth 0 out 0 /\ nth 1 out 0 = 4 / 5 * nth 0 out 0.
Proof.
  intros Hm. destruct (lorentz_1d coeffs [0; 1] [1; 0] 2 1 m lower conv error fit ltac:(lra) even_01 ltac:(cbn; lia) ltac:(lra) Hm)
    as (K & out & E & L & Sh & Law & N). exists out. split; [exact E|].
  rewrite (N 0%nat), (N 1%nat) by (cbn; lia). unfold spread, sumn. cbn [length seq]. rewrite !Sum_cons, !Sum_nil. cbn [nth Z.of_nat Z.sub Z.add Z.opp Z.pos_sub Pos.of_succ_nat].
  cbn [length] in Law. assert (L1 := Law 1%Z ltac:(lia)). assert (K1 : K 1%Z = 4 / 5 * K 0%Z) by (rewrite L1; cbn [INR]; field).
  assert (L2 := Law 2%Z ltac:(lia)). assert (K2 : K 2%Z = / 2 * K 0%Z) by (rewrite L2; cbn [INR]; field).
  change (1 - 0)%Z with 1%Z. change (0 - 1)%Z with (-1)%Z. change (1 - 1)%Z with 0%Z. destruct Sh as (P & Sy & _ & One).
  assert (Km1 : K (-1)%Z = K 1%Z) by apply (Sy 1%Z). assert (Km2 : K (-2)%Z = K 2%Z) by apply (Sy 2%Z).
  unfold sumn in One. cbn [length Nat.mul Nat.add seq] in One. rewrite !Sum_cons, Sum_nil in One. cbn in One.
  change (Z.neg 2) with (-2)%Z in One. change (Z.neg 1) with (-1)%Z in One. rewrite Km1, Km2, K1, K2 in One.
  cbn. rewrite K1. assert (0 < K 0%Z) by lra. lra.
Qed.

Lemma tiny_uneven : exists x c y, get_bin_centres (length y) x = Ok c /\ nth 1 c 0 - nth 0 c 0 = 1 / 10 ^ 9 /\ nth 2 c 0 - nth 1 c 0 = 9 * (1 / 10 ^ 9) /\
  forall coeffs w lower conv error fit, exists d, broaden1d coeffs x y (Fixed w) "gauss" None lower conv error fit = Ok (false, d).
Proof.
  set (u := 1 / 10 ^ 9). assert (U : 0 < u) by (unfold u; apply Rdiv_lt_0_compat; [lra|apply pow_lt; lra]).
  exists [0; u; 10 * u], [0; u; 10 * u], [1; 1; 1]. split; [reflexivity|]. cbn [nth]. split; [lra|]. split; [lra|].
  intros. apply (even_silent coeffs [0; u; 10 * u] [1; 1; 1] [0; u; 10 * u] w lower conv error fit eq_refl "gauss" None (or_introl eq_refl) eq_refl ltac:(cbn; lia)).
  - assert (T : 1 / 10 ^ 8 = 10 * u) by (unfold u; field). intros (i & Hi & H). rewrite T in H. unfold step in H.
    assert (F : 0 <= 1 / 10 ^ 5 * Rabs (nth 1 [0; u; 10 * u] 0 - nth 0 [0; u; 10 * u] 0)).
    { apply Rmult_le_pos; [|apply Rabs_pos]. apply Rlt_le, Rdiv_lt_0_compat; [lra|apply pow_lt; lra]. }
    destruct i as [|[|i]]; [| |cbn in Hi; lia].
    + cbn [nth] in F, H. replace (u - 0 - (u - 0)) with 0 in H by ring. rewrite Rabs_R0 in H. lra.
    + cbn [nth] in F, H. rewrite (Rabs_pos_eq (10 * u - u - (u - 0))) in H by lra. lra.
  - unfold mean_diff. cbn. intros E. assert (0 < (u - 0 + (10 * u - u + 0)) / (1 + 1)) by lra. lra.
Qed.

Lemma alias : exists (st : store) r z, sz (get st r) = Some z /\ (r < length st)%nat /\
  forall coeffs shape m lowx lowy conv error fit, In shape ["gauss"; "lorentz"]%string ->
  exists st' r', broaden2d coeffs st r (Fixed 0) NoWidth shape m lowx lowy conv error fit = Ok (st', r') /\
  sz (get (imul st' r' 2) r) <> sz (get st r).
Proof.
  exists [mk2 [0; 1] [0; 1] (Some [[1; 2]; [3; 4]])], 0%nat, [[1; 2]; [3; 4]]. split; [reflexivity|]. split; [cbn; lia|].
  intros. eexists _, _. split; [apply nothing_to_do; cbn; [intros N; apply N; reflexivity|intros F; exact F]|].
  cbn. intros E. injection E as E _ _ _. lra.
Qed.
