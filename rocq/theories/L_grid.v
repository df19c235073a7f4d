(** Proofs about grids. *)
From Verif Require Import Base M_grid.

(** The product list in C order (last index fastest). *)
Definition prod3 {A} (X Y Z : list A) : list (A * A * A) :=
  flat_map (fun x => flat_map (fun y => map (fun z => (x, y, z)) Z) Y) X.

Lemma np_repeat_length {A} (l : list A) k : length (np_repeat l k) = (length l * k)%nat.
Proof. unfold np_repeat. apply length_flat_map_const. intros; apply repeat_length. Qed.

Lemma np_tile_S {A} (l : list A) k : np_tile l (S k) = l ++ np_tile l k.
Proof. reflexivity. Qed.

Lemma np_tile_length {A} (l : list A) k : length (np_tile l k) = (k * length l)%nat.
Proof.
  induction k as [|k IH]; [reflexivity|]. rewrite np_tile_S, app_length, IH. lia.
Qed.

Lemma np_tile_add {A} (l : list A) j k : np_tile l (j + k) = np_tile l j ++ np_tile l k.
Proof.
  induction j as [|j IH]; [reflexivity|].
  cbn [Nat.add]. rewrite !np_tile_S, IH, app_assoc. reflexivity.
Qed.

Lemma np_repeat_app {A} (l1 l2 : list A) k :
  np_repeat (l1 ++ l2) k = np_repeat l1 k ++ np_repeat l2 k.
Proof. unfold np_repeat. apply flat_map_app. Qed.

Lemma np_repeat_tile {A} (l : list A) k m :
  np_repeat (np_tile l k) m = np_tile (np_repeat l m) k.
Proof.
  induction k as [|k IH]; [reflexivity|].
  rewrite !np_tile_S, np_repeat_app, IH. reflexivity.
Qed.

Lemma zip3_app {A B D} (a1 a2 : list A) (b1 b2 : list B) (c1 c2 : list D) :
  length a1 = length b1 -> length b1 = length c1 ->
  zip3 (a1 ++ a2) (b1 ++ b2) (c1 ++ c2) = zip3 a1 b1 c1 ++ zip3 a2 b2 c2.
Proof.
  revert b1 c1. induction a1 as [|x a1 IH]; intros [|y b1] [|z c1] H1 H2;
    simpl in *; try discriminate; [reflexivity|].
  rewrite IH by lia. reflexivity.
Qed.

Lemma repeat_add {A} (x : A) j k : repeat x (j + k) = repeat x j ++ repeat x k.
Proof. induction j as [|j IH]; [reflexivity|]. simpl. rewrite IH. reflexivity. Qed.

Lemma zip3_repeat2 {A B D} (x : A) (y : B) (Z : list D) :
  zip3 (repeat x (length Z)) (repeat y (length Z)) Z = map (fun z => (x, y, z)) Z.
Proof. induction Z as [|z Z IH]; [reflexivity|]. simpl. rewrite IH. reflexivity. Qed.

Lemma zip3_inner {A} (x : A) (Y Z : list A) :
  zip3 (repeat x (length Y * length Z)) (np_repeat Y (length Z)) (np_tile Z (length Y))
  = flat_map (fun y => map (fun z => (x, y, z)) Z) Y.
Proof.
  induction Y as [|y Y IH]; [reflexivity|].
  cbn [length Nat.mul]. rewrite repeat_add, np_tile_S.
  change (np_repeat (y :: Y) (length Z)) with (repeat y (length Z) ++ np_repeat Y (length Z)).
  rewrite zip3_app by (rewrite !repeat_length; reflexivity).
  rewrite zip3_repeat2, IH. reflexivity.
Qed.

Lemma zip3_prod {A} (X Y Z : list A) :
  zip3 (np_repeat X (length Y * length Z))
       (np_tile (np_repeat Y (length Z)) (length X))
       (np_tile Z (length X * length Y)) = prod3 X Y Z.
Proof.
  induction X as [|x X IH]; [reflexivity|].
  cbn [length Nat.mul]. rewrite np_tile_S, np_tile_add.
  change (np_repeat (x :: X) (length Y * length Z))
    with (repeat x (length Y * length Z) ++ np_repeat X (length Y * length Z)).
  rewrite zip3_app.
  - rewrite zip3_inner, IH. reflexivity.
  - rewrite repeat_length, np_repeat_length. reflexivity.
  - rewrite np_repeat_length, np_tile_length. reflexivity.
Qed.

Lemma column_stack3_prod {A} (X Y Z : list A) :
  column_stack3 (np_repeat X (length Y * length Z))
       (np_tile (np_repeat Y (length Z)) (length X))
       (np_tile Z (length X * length Y)) = Ok (prod3 X Y Z).
Proof.
  unfold column_stack3. rewrite np_repeat_length, !np_tile_length, np_repeat_length.
  rewrite zip3_prod.
  replace (Nat.eqb _ _ && Nat.eqb _ _)%bool with true; [reflexivity|].
  symmetry. apply andb_true_iff. split; apply Nat.eqb_eq; lia.
Qed.

Lemma prod3_length {A} (X Y Z : list A) :
  length (prod3 X Y Z) = (length X * (length Y * length Z))%nat.
Proof.
  unfold prod3. apply length_flat_map_const. intros x _.
  apply length_flat_map_const. intros y _. apply map_length.
Qed.

Lemma in_prod3 {A} (X Y Z : list A) x y z :
  In (x, y, z) (prod3 X Y Z) <-> In x X /\ In y Y /\ In z Z.
Proof.
  unfold prod3. rewrite in_flat_map. split.
  - intros [x' [Hx H]]. apply in_flat_map in H. destruct H as [y' [Hy H]].
    apply in_map_iff in H. destruct H as [z' [Heq Hz]].
    injection Heq as -> -> ->. auto.
  - intros [Hx [Hy Hz]]. exists x. split; [exact Hx|].
    apply in_flat_map. exists y. split; [exact Hy|].
    apply in_map_iff. exists z. auto.
Qed.

Lemma NoDup_prod3 {A} (X Y Z : list A) :
  NoDup X -> NoDup Y -> NoDup Z -> NoDup (prod3 X Y Z).
Proof.
  intros HX HY HZ. unfold prod3. apply NoDup_flat_map; [exact HX| |].
  - intros x _. apply NoDup_flat_map; [exact HY| |].
    + intros y _. apply NoDup_map_inj; [|exact HZ]. intros; congruence.
    + intros y y' p _ _ H1 H2. apply in_map_iff in H1, H2.
      destruct H1 as [? [H1 _]], H2 as [? [H2 _]]. congruence.
  - intros x x' p _ _ H1 H2. apply in_flat_map in H1, H2.
    destruct H1 as [? [_ H1]], H2 as [? [_ H2]].
    apply in_map_iff in H1, H2.
    destruct H1 as [? [H1 _]], H2 as [? [H2 _]]. congruence.
Qed.

Lemma nth_app_off {A} (l1 l2 : list A) i d : nth (length l1 + i) (l1 ++ l2) d = nth i l2 d.
Proof. rewrite app_nth2 by lia. f_equal. lia. Qed.

Lemma nth_flat_map_const {A B} (f : A -> list B) l k i j da db :
  (forall x, length (f x) = k) -> (i < length l)%nat -> (j < k)%nat ->
  nth (i * k + j) (flat_map f l) db = nth j (f (nth i l da)) db.
Proof.
  intros Hf. revert i. induction l as [|a l IH]; intros i Hi Hj; simpl in Hi; [lia|].
  cbn [flat_map]. destruct i as [|i].
  - cbn [nth Nat.mul Nat.add]. rewrite app_nth1 by (rewrite Hf; exact Hj). reflexivity.
  - cbn [nth]. replace (S i * k + j)%nat with (length (f a) + (i * k + j))%nat
      by (rewrite Hf; lia).
    rewrite nth_app_off. apply IH; [lia|exact Hj].
Qed.

Lemma nth_prod3 {A} (X Y Z : list A) i j k dx dy dz d :
  (i < length X)%nat -> (j < length Y)%nat -> (k < length Z)%nat ->
  nth ((i * length Y + j) * length Z + k) (prod3 X Y Z) d
  = (nth i X dx, nth j Y dy, nth k Z dz).
Proof.
  intros Hi Hj Hk. unfold prod3.
  replace ((i * length Y + j) * length Z + k)%nat
    with (i * (length Y * length Z) + (j * length Z + k))%nat by lia.
  rewrite (nth_flat_map_const _ X (length Y * length Z) i _ dx).
  - rewrite (nth_flat_map_const _ Y (length Z) j k dy).
    + rewrite (map_nth_indep _ Z k dz) by exact Hk. reflexivity.
    + intros; apply map_length.
    + exact Hj.
    + exact Hk.
  - intros x. apply length_flat_map_const. intros; apply map_length.
  - exact Hi.
  - nia.
Qed.

(** ** mp_grid *)
Lemma mp_axis_length g : length (mp_axis g) = g.
Proof. unfold mp_axis. rewrite map_length, seq_length. reflexivity. Qed.

Lemma mp_grid_prod g0 g1 g2 :
  mp_grid g0 g1 g2 = Ok (prod3 (mp_axis g0) (mp_axis g1) (mp_axis g2)).
Proof.
  unfold mp_grid. rewrite <- (column_stack3_prod (mp_axis g0) (mp_axis g1) (mp_axis g2)).
  rewrite !mp_axis_length. reflexivity.
Qed.

Definition mp_val (g i : nat) : R := (2 * (INR i + 1) - INR g - 1) / (2 * INR g).

Lemma in_mp_axis g u : In u (mp_axis g) <-> exists i, (i < g)%nat /\ u = mp_val g i.
Proof.
  unfold mp_axis. rewrite in_map_iff. split.
  - intros [i [Hu Hi]]. apply in_seq in Hi. exists i. split; [lia|]. symmetry. exact Hu.
  - intros [i [Hi ->]]. exists i. split; [reflexivity|]. apply in_seq. lia.
Qed.

Lemma mp_val_inj g i j : (0 < g)%nat -> mp_val g i = mp_val g j -> i = j.
Proof.
  intros Hg H. unfold mp_val in H. apply lt_INR in Hg. simpl in Hg.
  apply INR_eq.
  apply (Rmult_eq_compat_r (2 * INR g)) in H.
  unfold Rdiv in H. rewrite !Rmult_assoc, !Rinv_l, !Rmult_1_r in H by lra. lra.
Qed.

Lemma NoDup_mp_axis g : NoDup (mp_axis g).
Proof.
  destruct g as [|g]; [constructor|].
  unfold mp_axis. apply NoDup_map_inj; [|apply seq_NoDup].
  intros x y _ _ H. apply (mp_val_inj (S g)); [lia|exact H].
Qed.

Lemma mp_val_range g i : (i < g)%nat -> -1/2 < mp_val g i < 1/2.
Proof.
  intros Hi. unfold mp_val.
  assert (Hg : 0 < INR g) by (apply lt_0_INR; lia).
  assert (Hi2 : INR i + 1 <= INR g) by (rewrite <- S_INR; apply le_INR; lia).
  pose proof (pos_INR i).
  split.
  - apply Rmult_lt_reg_r with (2 * INR g); [lra|].
    unfold Rdiv at 2. rewrite Rmult_assoc, Rinv_l by lra. lra.
  - apply Rmult_lt_reg_r with (2 * INR g); [lra|].
    unfold Rdiv at 1. rewrite Rmult_assoc, Rinv_l by lra. lra.
Qed.

Lemma mp_val_neg g i : (i < g)%nat -> - mp_val g i = mp_val g (g - 1 - i).
Proof.
  intros Hi. unfold mp_val.
  assert (Hg : 0 < INR g) by (apply lt_0_INR; lia).
  replace (INR (g - 1 - i)) with (INR g - 1 - INR i).
  - field. lra.
  - rewrite minus_INR by lia. rewrite minus_INR by lia. simpl. lra.
Qed.

Lemma mp_val_step g i : (0 < g)%nat -> mp_val g (S i) - mp_val g i = 1 / INR g.
Proof.
  intros Hg. unfold mp_val. rewrite S_INR. field. apply not_0_INR. lia.
Qed.

(** ** get_all_origins *)
Lemma py_range_1 a b : py_range a b 1 = map (fun i => (a + Z.of_nat i)%Z) (seq 0 (Z.to_nat (b - a))).
Proof.
  unfold py_range. rewrite Z.div_1_r. replace (b - a + 1 - 1)%Z with (b - a)%Z by lia.
  apply map_ext. intros i. lia.
Qed.

Lemma py_range_1_length a b : length (py_range a b 1) = Z.to_nat (b - a).
Proof. rewrite py_range_1, map_length, seq_length. reflexivity. Qed.

Lemma in_py_range_1 a b x : In x (py_range a b 1) <-> (a <= x < b)%Z.
Proof.
  rewrite py_range_1, in_map_iff. split.
  - intros [i [Hx Hi]]. apply in_seq in Hi. lia.
  - intros H. exists (Z.to_nat (x - a)). split; [lia|]. apply in_seq. lia.
Qed.

Lemma NoDup_py_range_1 a b : NoDup (py_range a b 1).
Proof.
  rewrite py_range_1. apply NoDup_map_inj; [|apply seq_NoDup]. intros; lia.
Qed.

Lemma nth_py_range_1 a b i d :
  (i < Z.to_nat (b - a))%nat -> nth i (py_range a b 1) d = (a + Z.of_nat i)%Z.
Proof.
  intros H. rewrite py_range_1. rewrite (map_nth_indep _ _ _ 0%nat) by (rewrite seq_length; exact H).
  rewrite nth_seq_id by exact H. reflexivity.
Qed.

Lemma get_all_origins_1 x1 y1 z1 x0 y0 z0 :
  (x0 <= x1)%Z -> (y0 <= y1)%Z -> (z0 <= z1)%Z ->
  get_all_origins (x1, y1, z1) (x0, y0, z0) 1
  = Ok (prod3 (py_range x0 x1 1) (py_range y0 y1 1) (py_range z0 z1 1)).
Proof.
  intros Hx Hy Hz. unfold get_all_origins. cbn [Z.eqb].
  rewrite np_repeat_tile.
  rewrite <- column_stack3_prod, !py_range_1_length.
  rewrite !Z.abs_eq by lia. reflexivity.
Qed.

(** ** shells *)
Lemma write_at_block {A} (p v b s : list A) :
  length v = length b -> write_at (length p) v (p ++ b ++ s) = p ++ v ++ s.
Proof.
  intros H. unfold write_at. rewrite H.
  rewrite firstn_app, firstn_all, Nat.sub_diag, firstn_O, app_nil_r.
  f_equal. f_equal.
  rewrite skipn_app.
  rewrite (skipn_all2 (n := length p + length b) p) by lia. cbn [app].
  replace (length p + length b - length p)%nat with (length b) by lia.
  rewrite skipn_app, skipn_all, Nat.sub_diag. reflexivity.
Qed.

Lemma shell_writes (xy xz yz : list Z3) n (buf : list Z3) :
  length buf = (2 * (length xy + length xz + length yz))%nat ->
  shell_pass xy xz yz 1 n (shell_pass xy xz yz 0 (- n) buf)
  = (map (set_z (- n)) xy ++ map (set_z n) xy)
    ++ (map (set_y (- n)) xz ++ map (set_y n) xz)
    ++ (map (set_x (- n)) yz ++ map (set_x n) yz).
Proof.
  intros Hl.
  set (a := length xy) in *. set (b := length xz) in *. set (c := length yz) in *.
  assert (Hdec : exists A0 A1 B0 B1 C0 C1, buf = A0 ++ A1 ++ B0 ++ B1 ++ C0 ++ C1 /\
    length A0 = a /\ length A1 = a /\ length B0 = b /\ length B1 = b /\
    length C0 = c /\ length C1 = c).
  { exists (firstn a buf), (firstn a (skipn a buf)),
      (firstn b (skipn (a+a) buf)), (firstn b (skipn (a+a+b) buf)),
      (firstn c (skipn (a+a+b+b) buf)), (skipn (a+a+b+b+c) buf).
    split.
    - assert (Hs : forall m k, skipn m buf = firstn k (skipn m buf) ++ skipn (m + k) buf).
      { intros m k. rewrite <- (firstn_skipn k (skipn m buf)) at 1. f_equal.
        rewrite skipn_skipn'. reflexivity. }
      rewrite <- Hs, <- Hs, <- Hs, <- Hs.
      symmetry. apply firstn_skipn.
    - rewrite !firstn_length, !skipn_length. lia. }
  destruct Hdec as (A0 & A1 & B0 & B1 & C0 & C1 & -> & HA0 & HA1 & HB0 & HB1 & HC0 & HC1).
  unfold shell_pass. fold a b c.
  pose (vz := map_length (set_z (- n)) xy). pose (vy := map_length (set_y (- n)) xz).
  pose (vx := map_length (set_x (- n)) yz).
  pose (vz' := map_length (set_z n) xy). pose (vy' := map_length (set_y n) xz).
  pose (vx' := map_length (set_x n) yz).
  fold a in vz, vz'. fold b in vy, vy'. fold c in vx, vx'.
  set (Z0 := map (set_z (- n)) xy) in *. set (Z1 := map (set_z n) xy) in *.
  set (Y0 := map (set_y (- n)) xz) in *. set (Y1 := map (set_y n) xz) in *.
  set (X0 := map (set_x (- n)) yz) in *. set (X1 := map (set_x n) yz) in *.
  (* pass 0 *)
  replace (0 * a)%nat with (length (@nil Z3)) by reflexivity.
  change (A0 ++ A1 ++ B0 ++ B1 ++ C0 ++ C1)
    with (@nil Z3 ++ A0 ++ (A1 ++ B0 ++ B1 ++ C0 ++ C1)).
  rewrite write_at_block by lia. cbn [app].
  replace (2 * a + 0 * b)%nat with (length (Z0 ++ A1)) by (rewrite app_length; lia).
  replace (Z0 ++ A1 ++ B0 ++ B1 ++ C0 ++ C1)
    with ((Z0 ++ A1) ++ B0 ++ (B1 ++ C0 ++ C1)) by (rewrite <- !app_assoc; reflexivity).
  rewrite write_at_block by lia.
  replace (2 * (a + b) + 0 * c)%nat with (length ((Z0 ++ A1) ++ Y0 ++ B1))
    by (rewrite !app_length; lia).
  replace ((Z0 ++ A1) ++ Y0 ++ B1 ++ C0 ++ C1)
    with (((Z0 ++ A1) ++ Y0 ++ B1) ++ C0 ++ C1) by (rewrite <- !app_assoc; reflexivity).
  rewrite write_at_block by lia.
  (* pass 1 *)
  replace (1 * a)%nat with (length Z0) by lia.
  replace (((Z0 ++ A1) ++ Y0 ++ B1) ++ X0 ++ C1)
    with (Z0 ++ A1 ++ (Y0 ++ B1 ++ X0 ++ C1)) by (rewrite <- !app_assoc; reflexivity).
  rewrite write_at_block by lia.
  replace (2 * a + 1 * b)%nat with (length (Z0 ++ Z1 ++ Y0)) by (rewrite !app_length; lia).
  replace (Z0 ++ Z1 ++ Y0 ++ B1 ++ X0 ++ C1)
    with ((Z0 ++ Z1 ++ Y0) ++ B1 ++ (X0 ++ C1)) by (rewrite <- !app_assoc; reflexivity).
  rewrite write_at_block by lia.
  replace (2 * (a + b) + 1 * c)%nat with (length ((Z0 ++ Z1 ++ Y0) ++ Y1 ++ X0))
    by (rewrite !app_length; lia).
  replace ((Z0 ++ Z1 ++ Y0) ++ Y1 ++ X0 ++ C1)
    with (((Z0 ++ Z1 ++ Y0) ++ Y1 ++ X0) ++ C1 ++ []) by (rewrite app_nil_r, <- !app_assoc; reflexivity).
  rewrite write_at_block by lia.
  rewrite app_nil_r, <- !app_assoc. reflexivity.
Qed.

Definition shell_list (n : Z) : list Z3 :=
  let xy := prod3 (py_range (-n) (n+1) 1) (py_range (-n) (n+1) 1) (py_range 0 1 1) in
  let xz := prod3 (py_range (-n) (n+1) 1) (py_range 0 1 1) (py_range (-n+1) n 1) in
  let yz := prod3 (py_range 0 1 1) (py_range (-n+1) n 1) (py_range (-n+1) n 1) in
  (map (set_z (- n)) xy ++ map (set_z n) xy)
    ++ (map (set_y (- n)) xz ++ map (set_y n) xz)
    ++ (map (set_x (- n)) yz ++ map (set_x n) yz).

Lemma get_shell_origins_list n : (0 < n)%Z -> get_shell_origins n = Ok (shell_list n).
Proof.
  intros Hn. unfold get_shell_origins.
  destruct (Z.eqb_spec n 0) as [H0|_]; [lia|].
  rewrite !get_all_origins_1 by lia.
  rewrite shell_writes; [reflexivity|].
  rewrite repeat_length, !prod3_length, !py_range_1_length.
  replace (n + 1 - - n)%Z with (2 * n + 1)%Z by lia.
  replace (n - (- n + 1))%Z with (2 * n - 1)%Z by lia.
  replace (1 - 0)%Z with 1%Z by lia.
  assert (forall u v, (0 <= u)%Z -> (0 <= v)%Z -> (Z.to_nat u * Z.to_nat v)%nat = Z.to_nat (u * v)) as Hm.
  { intros; rewrite Z2Nat.inj_mul by lia; reflexivity. }
  rewrite !Hm by nia.
  rewrite <- !Z2Nat.inj_add by nia.
  change 2%nat with (Z.to_nat 2). rewrite Hm by nia. f_equal. ring.
Qed.

Lemma in_map_set_z ni (xy : list Z3) x y z :
  In (x, y, z) (map (set_z ni) xy) <-> z = ni /\ exists z', In (x, y, z') xy.
Proof.
  rewrite in_map_iff. split.
  - intros [[[a b] c] [Heq Hin]]. unfold set_z in Heq. injection Heq as <- <- <-.
    split; [reflexivity|]. exists c. exact Hin.
  - intros [-> [z' Hin]]. exists (x, y, z'). split; [reflexivity|exact Hin].
Qed.
Lemma in_map_set_y ni (xy : list Z3) x y z :
  In (x, y, z) (map (set_y ni) xy) <-> y = ni /\ exists y', In (x, y', z) xy.
Proof.
  rewrite in_map_iff. split.
  - intros [[[a b] c] [Heq Hin]]. unfold set_y in Heq. injection Heq as <- <- <-.
    split; [reflexivity|]. exists b. exact Hin.
  - intros [-> [z' Hin]]. exists (x, z', z). split; [reflexivity|exact Hin].
Qed.
Lemma in_map_set_x ni (xy : list Z3) x y z :
  In (x, y, z) (map (set_x ni) xy) <-> x = ni /\ exists x', In (x', y, z) xy.
Proof.
  rewrite in_map_iff. split.
  - intros [[[a b] c] [Heq Hin]]. unfold set_x in Heq. injection Heq as <- <- <-.
    split; [reflexivity|]. exists a. exact Hin.
  - intros [-> [z' Hin]]. exists (z', y, z). split; [reflexivity|exact Hin].
Qed.

Lemma in_shell_list n x y z : (0 < n)%Z ->
  In (x, y, z) (shell_list n) <-> Z.max (Z.abs x) (Z.max (Z.abs y) (Z.abs z)) = n.
Proof.
  intros Hn. unfold shell_list. rewrite !in_app_iff.
  rewrite !in_map_set_z, !in_map_set_y, !in_map_set_x.
  setoid_rewrite in_prod3. setoid_rewrite in_py_range_1.
  split.
  - intros [[H|H]|[[H|H]|[H|H]]]; destruct H as [-> [w H]]; lia.
  - intros H.
    assert (Hc : (z = -n \/ z = n \/ (-n < z < n /\ (y = -n \/ y = n)) \/
      (-n < z < n /\ -n < y < n /\ (x = -n \/ x = n)))%Z) by lia.
    destruct Hc as [Hz|[Hz|[[Hz [Hy|Hy]]|[Hz [Hy [Hx|Hx]]]]]].
    + left; left. split; [lia|]. exists 0%Z. lia.
    + left; right. split; [lia|]. exists 0%Z. lia.
    + right; left; left. split; [lia|]. exists 0%Z. lia.
    + right; left; right. split; [lia|]. exists 0%Z. lia.
    + right; right; left. split; [lia|]. exists 0%Z. lia.
    + right; right; right. split; [lia|]. exists 0%Z. lia.
Qed.

Lemma NoDup_shell_list n : (0 < n)%Z -> NoDup (shell_list n).
Proof.
  intros Hn. unfold shell_list.
  assert (Hnd : forall X Y Z : list Z, NoDup X -> NoDup Y -> NoDup Z -> NoDup (prod3 X Y Z)) by
    (intros; apply NoDup_prod3; assumption).
  pose proof NoDup_py_range_1 as Hr.
  assert (Hz : forall p q, In p (prod3 (py_range (-n) (n+1) 1) (py_range (-n) (n+1) 1) (py_range 0 1 1))
     -> In q (prod3 (py_range (-n) (n+1) 1) (py_range (-n) (n+1) 1) (py_range 0 1 1))
     -> forall m, set_z m p = set_z m q -> p = q).
  { intros [[a b] c] [[a' b'] c'] H1 H2 m. apply in_prod3 in H1, H2.
    rewrite !in_py_range_1 in H1, H2. unfold set_z. intros Heq. injection Heq as -> ->.
    f_equal. lia. }
  assert (Hy : forall p q, In p (prod3 (py_range (-n) (n+1) 1) (py_range 0 1 1) (py_range (-n+1) n 1))
     -> In q (prod3 (py_range (-n) (n+1) 1) (py_range 0 1 1) (py_range (-n+1) n 1))
     -> forall m, set_y m p = set_y m q -> p = q).
  { intros [[a b] c] [[a' b'] c'] H1 H2 m. apply in_prod3 in H1, H2.
    rewrite !in_py_range_1 in H1, H2. unfold set_y. intros Heq. injection Heq as -> ->.
    f_equal. f_equal. lia. }
  assert (Hx : forall p q, In p (prod3 (py_range 0 1 1) (py_range (-n+1) n 1) (py_range (-n+1) n 1))
     -> In q (prod3 (py_range 0 1 1) (py_range (-n+1) n 1) (py_range (-n+1) n 1))
     -> forall m, set_x m p = set_x m q -> p = q).
  { intros [[a b] c] [[a' b'] c'] H1 H2 m. apply in_prod3 in H1, H2.
    rewrite !in_py_range_1 in H1, H2. unfold set_x. intros Heq. injection Heq as -> ->.
    f_equal. f_equal. lia. }
  repeat apply NoDup_app_intro;
  try (apply NoDup_map_inj; [intros p q Hp Hq; eauto | apply Hnd; apply Hr]).
  all: intros [[x y] z]; rewrite ?in_app_iff, ?in_map_set_z, ?in_map_set_y, ?in_map_set_x;
    setoid_rewrite in_prod3; setoid_rewrite in_py_range_1.
  - intros [-> _] [H _]. lia.
  - intros [-> _] [H _]. lia.
  - intros [-> _] [H _]. lia.
  - intros [[-> [w Hw]]|[-> [w Hw]]] [[H [v Hv]]|[H [v Hv]]]; lia.
  - intros [[-> [w Hw]]|[-> [w Hw]]] [[[H [v Hv]]|[H [v Hv]]]|[[H [v Hv]]|[H [v Hv]]]]; lia.
Qed.

Lemma shell_list_length n : (0 < n)%Z ->
  Z.of_nat (length (shell_list n)) = ((2*n+1)^3 - (2*n-1)^3)%Z.
Proof.
  intros Hn. unfold shell_list.
  rewrite !app_length, !map_length, !prod3_length, !py_range_1_length.
  rewrite !Nat2Z.inj_add, !Nat2Z.inj_mul, !Z2Nat.id by lia. ring.
Qed.

(** ** Statements used by the property file *)
Lemma mp_grid_complete g0 g1 g2 : (0 < g0)%nat -> (0 < g1)%nat -> (0 < g2)%nat ->
  exists l, mp_grid g0 g1 g2 = Ok l /\
    length l = (g0 * g1 * g2)%nat /\ NoDup l /\
    (forall x y z, In (x, y, z) l -> In (- x, - y, - z) l) /\
    (forall x y z, In (x, y, z) l ->
       -1/2 < x < 1/2 /\ -1/2 < y < 1/2 /\ -1/2 < z < 1/2) /\
    (forall x y z x' y' z', In (x, y, z) l -> In (x', y', z') l ->
       In (x, y', z) l /\ In (x, y, z') l /\ In (x', y, z) l).
Proof.
  intros H0 H1 H2. exists (prod3 (mp_axis g0) (mp_axis g1) (mp_axis g2)).
  split; [apply mp_grid_prod|].
  split; [rewrite prod3_length, !mp_axis_length; lia|].
  split; [apply NoDup_prod3; apply NoDup_mp_axis|].
  assert (Hneg : forall g u, In u (mp_axis g) -> In (- u) (mp_axis g)).
  { intros g u Hu. apply in_mp_axis in Hu. destruct Hu as [i [Hi ->]].
    apply in_mp_axis. exists (g - 1 - i)%nat. split; [lia|]. apply mp_val_neg. exact Hi. }
  assert (Hran : forall g u, In u (mp_axis g) -> -1/2 < u < 1/2).
  { intros g u Hu. apply in_mp_axis in Hu. destruct Hu as [i [Hi ->]].
    apply mp_val_range. exact Hi. }
  split; [|split].
  - intros x y z. rewrite !in_prod3. intros [Hx [Hy Hz]]. auto.
  - intros x y z. rewrite in_prod3. intros [Hx [Hy Hz]]. split; [|split]; eapply Hran; eassumption.
  - intros x y z x' y' z'. rewrite !in_prod3. tauto.
Qed.

Lemma mp_grid_order g0 g1 g2 i j k l :
  mp_grid g0 g1 g2 = Ok l -> (i < g0)%nat -> (j < g1)%nat -> (k < g2)%nat ->
  nth ((i * g1 + j) * g2 + k) l (0, 0, 0)
  = ((INR i + 1/2) / INR g0 - 1/2, (INR j + 1/2) / INR g1 - 1/2,
     (INR k + 1/2) / INR g2 - 1/2).
Proof.
  intros Hl Hi Hj Hk. rewrite mp_grid_prod in Hl. injection Hl as <-.
  pose proof (nth_prod3 (mp_axis g0) (mp_axis g1) (mp_axis g2) i j k 0 0 0 (0,0,0)) as H.
  rewrite !mp_axis_length in H. rewrite H by assumption.
  assert (Hv : forall g n, (n < g)%nat -> nth n (mp_axis g) 0 = (INR n + 1/2) / INR g - 1/2).
  { intros g n Hn. unfold mp_axis.
    rewrite (map_nth_indep _ _ _ 0%nat) by (rewrite seq_length; exact Hn).
    rewrite nth_seq_id by exact Hn.
    assert (0 < INR g) by (apply lt_0_INR; lia). field. lra. }
  rewrite !Hv by assumption. reflexivity.
Qed.

Lemma get_all_origins_box x0 y0 z0 x1 y1 z1 :
  (x0 <= x1)%Z -> (y0 <= y1)%Z -> (z0 <= z1)%Z ->
  exists l, get_all_origins (x1, y1, z1) (x0, y0, z0) 1 = Ok l /\ NoDup l /\
    (forall x y z, In (x, y, z) l <-> (x0 <= x < x1 /\ y0 <= y < y1 /\ z0 <= z < z1)%Z) /\
    Z.of_nat (length l) = ((x1 - x0) * (y1 - y0) * (z1 - z0))%Z.
Proof.
  intros Hx Hy Hz.
  exists (prod3 (py_range x0 x1 1) (py_range y0 y1 1) (py_range z0 z1 1)).
  split; [apply get_all_origins_1; assumption|].
  split; [apply NoDup_prod3; apply NoDup_py_range_1|].
  split.
  - intros x y z. rewrite in_prod3, !in_py_range_1. tauto.
  - rewrite prod3_length, !py_range_1_length, !Nat2Z.inj_mul, !Z2Nat.id by lia. ring.
Qed.

Lemma get_shell_origins_spec n : (0 <= n)%Z ->
  exists l, get_shell_origins n = Ok l /\ NoDup l /\
    (forall x y z, In (x, y, z) l <-> Z.max (Z.abs x) (Z.max (Z.abs y) (Z.abs z)) = n) /\
    Z.of_nat (length l) = (if (n =? 0)%Z then 1 else (2*n+1)^3 - (2*n-1)^3)%Z.
Proof.
  intros Hn. destruct (Z.eqb_spec n 0) as [->|H0].
  - exists [(0, 0, 0)%Z]. split; [reflexivity|]. split.
    + constructor; [intros []|constructor].
    + split; [|reflexivity]. intros x y z. cbn [In]. split.
      * intros [H|[]]. injection H as <- <- <-. reflexivity.
      * intros H. left. f_equal; [f_equal|]; lia.
  - exists (shell_list n). split; [apply get_shell_origins_list; lia|].
    split; [apply NoDup_shell_list; lia|].
    split; [intros; apply in_shell_list; lia|]. apply shell_list_length. lia.
Qed.

Lemma get_all_origins_step_duplicates :
  exists mx mn step l, (1 < step)%Z /\ get_all_origins mx mn step = Ok l /\ ~ NoDup l.
Proof.
  exists (2, 2, 2)%Z, (0, 0, 0)%Z, 2%Z. eexists. split; [lia|]. split; [reflexivity|].
  intros H. inversion H as [|? ? Hni _]; subst. apply Hni. left. reflexivity.
Qed.

Lemma get_all_origins_step_error :
  exists mx mn step e, (1 < step)%Z /\ get_all_origins mx mn step = Err e.
Proof.
  exists (3, 2, 2)%Z, (0, 0, 0)%Z, 2%Z, ColumnLengthMismatch. split; [lia|]. reflexivity.
Qed.

Definition shell_or_nil (n : Z) : list Z3 :=
  match get_shell_origins n with Ok l => l | Err _ => [] end.

Lemma shell_or_nil_ok n : (0 <= n)%Z -> get_shell_origins n = Ok (shell_or_nil n).
Proof.
  intros Hn. unfold shell_or_nil. destruct (get_shell_origins_spec n Hn) as [l [-> _]].
  reflexivity.
Qed.

Lemma shells_partition_cube : forall n : nat,
  exists shells, map (fun k => get_shell_origins (Z.of_nat k)) (seq 0 (S n)) = map Ok shells /\
    NoDup (concat shells) /\
    forall x y z, In (x, y, z) (concat shells) <->
      (Z.abs x <= Z.of_nat n /\ Z.abs y <= Z.of_nat n /\ Z.abs z <= Z.of_nat n)%Z.
Proof.
  intros n. exists (map (fun k => shell_or_nil (Z.of_nat k)) (seq 0 (S n))).
  assert (Hsp : forall k, NoDup (shell_or_nil (Z.of_nat k)) /\
     forall x y z, In (x, y, z) (shell_or_nil (Z.of_nat k)) <->
       Z.max (Z.abs x) (Z.max (Z.abs y) (Z.abs z)) = Z.of_nat k).
  { intros k. destruct (get_shell_origins_spec (Z.of_nat k)) as [l [Hl [Hnd [Hin _]]]]; [lia|].
    unfold shell_or_nil. rewrite Hl. split; assumption. }
  split; [|split].
  - rewrite map_map. apply map_ext. intros k. apply shell_or_nil_ok. lia.
  - rewrite <- flat_map_concat_map. apply NoDup_flat_map; [apply seq_NoDup| |].
    + intros k _. apply Hsp.
    + intros j k [[x y] z] _ _ Hj Hk. apply Hsp in Hj. apply Hsp in Hk. lia.
  - intros x y z. rewrite <- flat_map_concat_map, in_flat_map. split.
    + intros [k [Hk Hin]]. apply in_seq in Hk. apply Hsp in Hin. lia.
    + intros H. exists (Z.to_nat (Z.max (Z.abs x) (Z.max (Z.abs y) (Z.abs z)))).
      split; [apply in_seq; lia|]. apply Hsp. lia.
Qed.
