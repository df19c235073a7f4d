(** Reordering: whole tables, orthonormal modes, and a table on which a mode is lost. *)
From Verif Require Import Base L_util Cpx Vec3 M_qpts L_qpts M_path M_dos L_dos L_conv M_sf L_sf L_sf2 M_reorder S_reorder L_reorder.
Open Scope R_scope.

Lemma overlap_inner N prev cur m p : overlap N prev cur m p = Cabs (inner N (prev p) (cur m)).
Proof. reflexivity. Qed.
Lemma overlap_nonneg N prev cur m p : 0 <= overlap N prev cur m p.
Proof. apply sqrt_pos. Qed.
Lemma Cnorm2_zero z : Cnorm2 z = 0 -> z = RtoC 0.
Proof. destruct z as [x y]. unfold Cnorm2. cbn [re im]. intros H. apply C_eq; cbn; nra. Qed.
Lemma always_overlap_block N prev cur : always_overlap N prev cur -> block_positive (3 * N) (overlap N prev cur).
Proof.
  intros H rows cols A B Cc D. destruct (H rows cols A B Cc D) as [m [p [H1 [H2 [H3 [H4 H5]]]]]]. exists m, p.
  repeat split; try assumption. rewrite overlap_inner. apply sqrt_lt_R0.
  destruct (Cnorm2_nonneg (inner N (prev p) (cur m))) as [L|L]; [exact L|]. exfalso. apply H5. apply Cnorm2_zero. symmetry. exact L.
Qed.

Lemma mode_maps_perm N flags ev : forall k i pm, Permutation pm (seq 0 (3 * N)) -> (0 < i)%nat ->
  (forall t, (i <= t < i + k)%nat -> nth (t - 1) flags false = true -> always_overlap N (ev (t - 1)%nat) (ev t)) ->
  exists ms, mode_maps N flags ev i k pm = Ok ms /\ length ms = k /\ forall x, In x ms -> Permutation x (seq 0 (3 * N)).
Proof.
  induction k as [|k IH]; intros i pm P Hi H; cbn [mode_maps].
  - exists []. split; [reflexivity|]. split; [reflexivity|intros x []].
  - assert (exists r, next_map N (nth (i - 1) flags false) (ev (i - 1)%nat) (ev i) pm = Ok r /\ Permutation r (seq 0 (3 * N))) as [r [Er Pr]].
    { unfold next_map. destruct (nth (i - 1) flags false) eqn:F; [|exists pm; split; [reflexivity|exact P]].
      apply greedy_perm; [exact P|intros; apply overlap_nonneg|]. apply always_overlap_block. apply H; [lia|exact F]. }
    rewrite Er. destruct (IH (S i) r Pr ltac:(lia)) as [ms [Em [Lm Pm]]]; [intros t Ht F; apply H; [lia|exact F]|].
    rewrite Em. exists (r :: ms). split; [reflexivity|]. split; [cbn; lia|]. intros x [<-|Hx]; [exact Pr|apply Pm; exact Hx].
Qed.

Lemma reorder_permutes tol rg qpts e : (0 < nq (et e))%nat ->
  (forall t, (1 <= t < nq (et e))%nat -> nth (t - 1) (calc_reorder tol rg qpts) false = true -> always_overlap (n_atoms e) (evec e (t - 1)%nat) (evec e t)) ->
  exists e', reorder_frequencies tol rg qpts e = Ok e' /\ nq (et e') = nq (et e) /\ nm (et e') = nm (et e) /\ n_atoms e' = n_atoms e /\
    (forall q, wt (et e') q = wt (et e) q) /\ forall q, (q < nq (et e))%nat -> reordered e e' q.
Proof.
  intros Hn H. unfold reorder_frequencies, reorder_maps.
  destruct (mode_maps_perm (n_atoms e) (calc_reorder tol rg qpts) (evec e) (nq (et e) - 1) 1 (seq 0 (3 * n_atoms e)) (Permutation_refl _) ltac:(lia)) as [ms [Em [Lm Pm]]];
    [intros t Ht F; apply H; [lia|exact F]|].
  rewrite Em. eexists. split; [reflexivity|]. cbn [et nq nm n_atoms wt freq]. repeat (split; [reflexivity|]). intros q Hq.
  exists (nth q (seq 0 (3 * n_atoms e) :: ms) []). split; [|intros b Hb; split; reflexivity].
  destruct q as [|q]; [apply Permutation_refl|]. cbn [nth]. apply Pm. apply nth_In. lia.
Qed.

(** ** Bessel: a unit vector cannot overlap strongly with two orthonormal ones *)
Lemma inner_add N u v w : inner N u (fun a l => Cadd (v a l) (w a l)) = Cadd (inner N u v) (inner N u w).
Proof.
  unfold inner. rewrite <- Csum_plus. apply Csum_ext. intros a _. rewrite <- Csum_plus. apply Csum_ext. intros l _. apply C_eq; cbn; ring.
Qed.
Lemma inner_mul N u c v : inner N u (fun a l => Cmul c (v a l)) = Cmul c (inner N u v).
Proof.
  unfold inner. rewrite <- Csum_mul. apply Csum_ext. intros a _. rewrite <- Csum_mul. apply Csum_ext. intros l _. apply C_eq; cbn; ring.
Qed.
Lemma inner_conj N u v : inner N v u = Cconj (inner N u v).
Proof.
  unfold inner. rewrite Csum_conj. apply Csum_ext. intros a _. rewrite Csum_conj. apply Csum_ext. intros l _. apply C_eq; cbn; ring.
Qed.
Lemma inner_self N u : 0 <= re (inner N u u).
Proof.
  unfold inner. unfold Csum; cbn [re]. apply Sum_nonneg. intros a _. unfold Csum; cbn [re]. apply Sum_nonneg. intros l _. cbn. nra.
Qed.
Lemma bessel2 N u u' v : inner N u u = RtoC 1 -> inner N u' u' = RtoC 1 -> inner N u u' = RtoC 0 -> inner N v v = RtoC 1 ->
  Cnorm2 (inner N u v) + Cnorm2 (inner N u' v) <= 1.
Proof.
  intros H1 H2 H3 H4. set (c := inner N u v). set (c' := inner N u' v).
  pose (w := fun a l => Cadd (v a l) (Cadd (Cmul (Copp c) (u a l)) (Cmul (Copp c') (u' a l)))).
  assert (E : forall x, inner N x w = Cadd (inner N x v) (Cadd (Cmul (Copp c) (inner N x u)) (Cmul (Copp c') (inner N x u')))).
  { intros x. unfold w. rewrite inner_add, inner_add, !inner_mul. reflexivity. }
  assert (Eu : inner N u w = RtoC 0) by (rewrite E, H1, H3; fold c; apply C_eq; cbn; ring).
  assert (Eu' : inner N u' w = RtoC 0).
  { rewrite E, H2, (inner_conj N u u'), H3. fold c'. apply C_eq; cbn; ring. }
  assert (Ew : inner N w w = inner N v w).
  { rewrite (inner_conj N w w). rewrite (E w) at 1.
    rewrite (inner_conj N v w) at 1. rewrite (inner_conj N u w), (inner_conj N u' w), Eu, Eu'. apply C_eq; cbn; ring. }
  pose proof (inner_self N w) as P. rewrite Ew, E, H4, (inner_conj N u v), (inner_conj N u' v) in P. fold c c' in P.
  clearbody c c'. unfold Cnorm2. cbn in P. lra.
Qed.

Lemma Cabs_lt z z' : Cnorm2 z < Cnorm2 z' -> Cabs z < Cabs z'.
Proof. intros H. unfold Cabs. apply sqrt_lt_1; [apply Cnorm2_nonneg|apply Cnorm2_nonneg|exact H]. Qed.

Lemma next_map_follows N prev cur pm (pi : nat -> nat) : Permutation pm (seq 0 (3 * N)) -> orthonormal N prev -> orthonormal N cur ->
  Permutation (map pi (seq 0 (3 * N))) (seq 0 (3 * N)) ->
  (forall p, (p < 3 * N)%nat -> 1 / 2 < Cnorm2 (inner N (prev p) (cur (pi p)))) ->
  exists r, next_map N true prev cur pm = Ok r /\ length r = (3 * N)%nat /\ forall i, (i < 3 * N)%nat -> nth i r 0%nat = pi (nth i pm 0%nat).
Proof.
  intros P Op Oc Hpi H. unfold next_map. destruct (perm_inj _ _ Hpi) as [I1 [I2 _]].
  destruct (greedy_follows (3 * N) (overlap N prev cur) pm pi P (fun m p => overlap_nonneg N prev cur m p) Hpi) with (j := (3 * N)%nat) (cols := @nil nat) (cm := repeat 0%nat (3 * N)) as [r [Er [Lr Vr]]].
  - intros m p Hm Hp Hne. rewrite !overlap_inner. apply Cabs_lt.
    pose proof (bessel2 N (cur m) (cur (pi p)) (prev p)) as B.
    rewrite (Oc m m Hm Hm), Nat.eqb_refl, (Oc (pi p) (pi p) (I2 p Hp) (I2 p Hp)), Nat.eqb_refl, (Oc m (pi p) Hm (I2 p Hp)), (Op p p Hp Hp), Nat.eqb_refl in B.
    destruct (Nat.eqb_spec m (pi p)) as [E|_]; [contradiction|]. specialize (B eq_refl eq_refl eq_refl eq_refl).
    specialize (H p Hp). rewrite (inner_conj N (prev p) (cur m)), (inner_conj N (prev p) (cur (pi p))), !Cnorm2_conj in B. lra.
  - intros p Hp. rewrite overlap_inner. apply sqrt_lt_R0. specialize (H p Hp). lra.
  - cbn; lia.
  - constructor.
  - apply repeat_length.
  - intros x [].
  - intros i _ [].
  - exists r. split; [|split; [exact Lr|exact Vr]]. rewrite <- Er. apply greedy_ext. reflexivity.
Qed.

(** ** A two-atom crystal in which a mode is lost *)
Definition lost_U : list (list Z) :=
  [[1;0;1;0;1;1]; [0;1;0;1;1;-1]; [1;0;1;0;-1;-1]; [0;1;0;1;-1;1]; [1;1;-1;-1;0;0]; [1;-1;-1;1;0;0]]%Z.
Definition lost_entry (m k : nat) : Z := nth k (nth m lost_U []) 0%Z.
Definition lost_ev (q m a l : nat) : C :=
  match q with
  | O => if Nat.eqb m (3 * a + l) then RtoC 1 else RtoC 0
  | _ => RtoC (IZR (lost_entry m (3 * a + l)) / 2)
  end.
Definition lost_e : etable := mkE (mkF 2 6 (fun q m => INR (S m)) (fun _ => 1)) 2 lost_ev.

Lemma lost_inner p m : (p < 6)%nat -> inner 2 (lost_ev 0 p) (lost_ev 1 m) = RtoC (IZR (lost_entry m p) / 2).
Proof.
  intros Hp. unfold inner. cbn [seq]. rewrite !Csum_cons, !Csum_nil. unfold lost_ev.
  destruct p as [|[|[|[|[|[|]]]]]]; try lia; cbn [Nat.eqb Nat.mul Nat.add]; apply C_eq; cbn; ring.
Qed.
Lemma lost_orthonormal q : (q < 2)%nat -> orthonormal 2 (lost_ev q).
Proof.
  intros Hq m m' Hm Hm'. cbn in Hm, Hm'.
  destruct q as [|[|]]; [| |lia].
  - destruct m as [|[|[|[|[|[|]]]]]]; try lia; destruct m' as [|[|[|[|[|[|]]]]]]; try lia; unfold inner; cbn [seq]; rewrite !Csum_cons, !Csum_nil;
    apply C_eq; cbn; ring.
  - assert (E : forall m m', inner 2 (lost_ev 1 m) (lost_ev 1 m') = RtoC (IZR (fold_right Z.add 0%Z (map (fun k => (lost_entry m k * lost_entry m' k)%Z) (seq 0 6))) / 4)).
    { intros x y. unfold inner. cbn [seq]. rewrite !Csum_cons, !Csum_nil. unfold lost_ev. cbn [map fold_right Nat.mul Nat.add].
      rewrite !plus_IZR, !mult_IZR. apply C_eq; cbn -[lost_entry]; field. }
    rewrite E. destruct m as [|[|[|[|[|[|]]]]]]; try lia; destruct m' as [|[|[|[|[|[|]]]]]]; try lia;
    match goal with |- RtoC (IZR ?z / 4) = _ => let v := eval vm_compute in z in replace z with v by (vm_compute; reflexivity) end; cbn [Nat.eqb]; apply C_eq; cbn; lra.
Qed.

(** Greedy matching on a matrix whose entries are 0 or 1/2 only needs booleans. *)
Definition bargmax (n : nat) (b : nat -> nat -> bool) : nat * nat :=
  match find (fun mp => b (fst mp) (snd mp)) (list_prod (seq 0 n) (seq 0 n)) with Some mp => mp | None => (0%nat, 0%nat) end.
Definition half (b : bool) : R := if b then 1 / 2 else 0.
Lemma fold_half (b : nat -> nat -> bool) l x : fold_left (fun best mp => if Rltb (half (b (fst best) (snd best))) (half (b (fst mp) (snd mp))) then mp else best) l x
  = if b (fst x) (snd x) then x else match find (fun mp => b (fst mp) (snd mp)) l with Some mp => mp | None => x end.
Proof.
  revert x. induction l as [|y l IH]; intros x; cbn [fold_left find]; [destruct (b _ _); reflexivity|]. rewrite IH.
  destruct (b (fst x) (snd x)) eqn:X, (b (fst y) (snd y)) eqn:Y; cbn [half].
  - rewrite Rltb_false by lra. rewrite X. reflexivity.
  - rewrite Rltb_false by lra. rewrite X. reflexivity.
  - rewrite Rltb_true by lra. rewrite Y. reflexivity.
  - rewrite Rltb_false by lra. rewrite X. reflexivity.
Qed.
Lemma argmax_half n b : (0 < n)%nat -> argmax2 n (fun m p => half (b m p)) = bargmax n b.
Proof.
  intros Hn. unfold argmax2, bargmax. rewrite fold_half. cbn [fst snd]. destruct n as [|n]; [lia|].
  cbn [seq list_prod map app find fst snd]. destruct (b 0%nat 0%nat); reflexivity.
Qed.
Fixpoint bgreedy (j n : nat) (b : nat -> nat -> bool) (pm cm : list nat) : res (list nat) rerr :=
  match j with
  | O => Ok cm
  | S j' => let '(m, p) := bargmax n b in
    match where_eq pm p with
    | [] => Err PrevModeMissing
    | idx :: _ => bgreedy j' n (fun m' p' => if (Nat.eqb m' m || Nat.eqb p' p)%bool then false else b m' p') pm (set_nth cm idx m)
    end
  end.
Lemma greedy_half n pm : (0 < n)%nat -> forall j b cm, greedy j n (fun m p => half (b m p)) pm cm = bgreedy j n b pm cm.
Proof.
  intros Hn. induction j as [|j IH]; intros b cm; [reflexivity|]. cbn [greedy bgreedy]. rewrite argmax_half by exact Hn.
  destruct (bargmax n b) as [m p]. destruct (where_eq pm p); [reflexivity|]. rewrite <- IH. apply greedy_ext. intros m' p'.
  unfold strike. destruct (_ || _)%bool; reflexivity.
Qed.
Lemma lost_overlap m p : (m < 6)%nat -> (p < 6)%nat -> overlap 2 (lost_ev 0) (lost_ev 1) m p = half (negb (Z.eqb (lost_entry m p) 0)).
Proof.
  intros Hm Hp. rewrite overlap_inner, lost_inner by exact Hp.
  assert (A : Cabs (RtoC (1 / 2)) = 1 / 2).
  { unfold Cabs, Cnorm2. cbn [RtoC re im]. replace (1 / 2 * (1 / 2) + 0 * 0) with (1 / 2 * (1 / 2)) by ring. apply sqrt_square. lra. }
  assert (B : Cabs (RtoC (-1 / 2)) = 1 / 2).
  { unfold Cabs, Cnorm2. cbn [RtoC re im]. replace (-1 / 2 * (-1 / 2) + 0 * 0) with (1 / 2 * (1 / 2)) by field. apply sqrt_square. lra. }
  assert (Z0 : Cabs (RtoC (0 / 2)) = 0).
  { unfold Cabs, Cnorm2. cbn [RtoC re im]. replace (0 / 2 * (0 / 2) + 0 * 0) with 0 by field. apply sqrt_0. }
  destruct m as [|[|[|[|[|[|]]]]]]; try lia; destruct p as [|[|[|[|[|[|]]]]]]; try lia; cbn; first [exact A|exact B|exact Z0].
Qed.
Lemma argmax2_ext_lt n d d' : (0 < n)%nat -> (forall m p, (m < n)%nat -> (p < n)%nat -> d m p = d' m p) -> argmax2 n d = argmax2 n d'.
Proof.
  intros Hn H. unfold argmax2.
  assert (G : forall l b, (fst b < n)%nat -> (snd b < n)%nat -> (forall x, In x l -> (fst x < n)%nat /\ (snd x < n)%nat) ->
    fold_left (fun best mp => if Rltb (d (fst best) (snd best)) (d (fst mp) (snd mp)) then mp else best) l b
    = fold_left (fun best mp => if Rltb (d' (fst best) (snd best)) (d' (fst mp) (snd mp)) then mp else best) l b).
  { induction l as [|x l IH]; intros b B1 B2 Hl; [reflexivity|]. cbn [fold_left]. destruct (Hl x (or_introl eq_refl)) as [X1 X2].
    rewrite !H by assumption. apply IH; [destruct (Rltb _ _); assumption|destruct (Rltb _ _); assumption|intros y Hy; apply Hl; right; exact Hy]. }
  apply G; [exact Hn|exact Hn|]. intros [m p] Hx. apply in_prod_iff in Hx. destruct Hx as [A B]. apply in_seq in A, B. cbn. lia.
Qed.
Lemma greedy_ext_lt n pm : (0 < n)%nat -> forall j d d' cm, (forall m p, (m < n)%nat -> (p < n)%nat -> d m p = d' m p) -> greedy j n d pm cm = greedy j n d' pm cm.
Proof.
  intros Hn. induction j as [|j IH]; intros d d' cm H; [reflexivity|]. cbn [greedy]. rewrite (argmax2_ext_lt n d d' Hn H). destruct (argmax2 n d') as [m p].
  destruct (where_eq pm p); [reflexivity|]. apply IH. intros m' p' Hm Hp. unfold strike. rewrite H by assumption. reflexivity.
Qed.

(** where_eq without filter over real numbers, for computation *)
Lemma mode_lost : exists tol rg qpts e e', n_atoms e = 2%nat /\ nq (et e) = 2%nat /\ nm (et e) = 6%nat /\
  (forall q, (q < 2)%nat -> orthonormal (n_atoms e) (evec e q)) /\
  (forall m m', (m < 6)%nat -> (m' < 6)%nat -> freq (et e) 1 m = freq (et e) 1 m' -> m = m') /\
  reorder_frequencies tol rg qpts e = Ok e' /\
  (forall b, (b < 6)%nat -> freq (et e') 1 b <> freq (et e) 1 5%nat) /\ freq (et e') 1 0%nat = freq (et e') 1 5%nat.
Proof.
  exists 0, true, [(0, 0, 0); (1/4, 0, 0)], lost_e.
  assert (M : mode_maps 2 (calc_reorder 0 true [(0, 0, 0); (1/4, 0, 0)]) lost_ev 1 1 (seq 0 6) = Ok [[0;1;2;3;0;0]%nat]).
  { cbn [mode_maps]. unfold next_map. cbn [Nat.sub calc_reorder nth Nat.mul Nat.add].
    rewrite (greedy_ext_lt 6 (seq 0 6) ltac:(lia) 6 _ (fun m p => half (negb (Z.eqb (lost_entry m p) 0)))) by (intros; apply lost_overlap; assumption).
    rewrite greedy_half by lia. vm_compute. reflexivity. }
  eexists. split; [reflexivity|]. split; [reflexivity|]. split; [reflexivity|]. split; [intros q Hq; apply lost_orthonormal; exact Hq|].
  split; [intros m m' _ _ E; cbn [lost_e et freq] in E; apply INR_eq in E; lia|].
  split.
  - unfold reorder_frequencies, reorder_maps. cbn [lost_e n_atoms et nq nm freq wt evec Nat.sub Nat.mul Nat.add]. rewrite M. reflexivity.
  - cbn [et freq lost_e nth]. split; [|reflexivity]. intros b Hb E. apply INR_eq in E. cbn [seq] in E.
    destruct b as [|[|[|[|[|[|]]]]]]; try lia; cbn in E; lia.
Qed.

(** ** Following modes that change little *)
Lemma partner_map N prev cur : orthonormal N prev -> partnered N prev cur ->
  orthonormal N cur -> exists pi : nat -> nat, Permutation (map pi (seq 0 (3 * N))) (seq 0 (3 * N)) /\
    forall p, (p < 3 * N)%nat -> (pi p < 3 * N)%nat /\ 1 / 2 < Cnorm2 (inner N (prev p) (cur (pi p))).
Proof.
  intros Op H Oc. set (n := (3 * N)%nat) in *.
  pose (pi := fun p => match find (fun m => Rltb (1 / 2) (Cnorm2 (inner N (prev p) (cur m)))) (seq 0 n) with Some m => m | None => 0%nat end).
  assert (V : forall p, (p < n)%nat -> (pi p < n)%nat /\ 1 / 2 < Cnorm2 (inner N (prev p) (cur (pi p)))).
  { intros p Hp. unfold pi. destruct (find _ _) as [m|] eqn:F.
    - apply find_some in F. destruct F as [F1 F2]. apply in_seq in F1. apply Rltb_iff in F2. split; [lia|exact F2].
    - exfalso. destruct (H p Hp) as [m [Hm L]]. pose proof (find_none _ _ F m ltac:(apply in_seq; lia)) as Z. cbv beta in Z.
      rewrite Rltb_true in Z by exact L. discriminate. }
  assert (Inj : forall p p', (p < n)%nat -> (p' < n)%nat -> pi p = pi p' -> p = p').
  { intros p p' Hp Hp' E. destruct (Nat.eq_dec p p') as [Q|Q]; [exact Q|]. exfalso.
    destruct (V p Hp) as [A1 A2], (V p' Hp') as [B1 B2]. rewrite <- E in B2.
    pose proof (bessel2 N (prev p) (prev p') (cur (pi p))) as B.
    rewrite (Op p p Hp Hp), Nat.eqb_refl, (Op p' p' Hp' Hp'), Nat.eqb_refl, (Op p p' Hp Hp'), (Oc (pi p) (pi p) A1 A1), Nat.eqb_refl in B.
    destruct (Nat.eqb_spec p p') as [Q'|_]; [contradiction|]. specialize (B eq_refl eq_refl eq_refl eq_refl). lra. }
  exists pi. split; [|exact V]. apply NoDup_Permutation_bis.
  - apply NoDup_map_inj; [|apply seq_NoDup]. intros x y Hx Hy E. apply in_seq in Hx, Hy. apply Inj; [lia|lia|exact E].
  - rewrite map_length. lia.
  - intros x Hx. apply in_map_iff in Hx. destruct Hx as [p [<- Hp]]. apply in_seq in Hp. destruct (V p ltac:(lia)) as [A _]. apply in_seq. lia.
Qed.

Lemma mode_maps_follow N flags ev : forall k i pm, Permutation pm (seq 0 (3 * N)) -> (0 < i)%nat ->
  (forall t, (i <= t < i + k)%nat -> nth (t - 1) flags false = true ->
     orthonormal N (ev (t - 1)%nat) /\ orthonormal N (ev t) /\ partnered N (ev (t - 1)%nat) (ev t)) ->
  exists ms, mode_maps N flags ev i k pm = Ok ms /\ length ms = k /\ (forall x, In x ms -> Permutation x (seq 0 (3 * N))) /\
    forall t, (t < k)%nat -> nth (i + t - 1) flags false = true -> forall b, (b < 3 * N)%nat ->
      1 / 2 < Cnorm2 (inner N (ev (i + t - 1)%nat (nth b (nth t (pm :: ms) []) 0%nat)) (ev (i + t)%nat (nth b (nth (S t) (pm :: ms) []) 0%nat))).
Proof.
  induction k as [|k IH]; intros i pm P Hi H; cbn [mode_maps].
  - exists []. split; [reflexivity|]. split; [reflexivity|]. split; [intros x []|]. intros t Ht. lia.
  - assert (exists r, next_map N (nth (i - 1) flags false) (ev (i - 1)%nat) (ev i) pm = Ok r /\ Permutation r (seq 0 (3 * N)) /\
       (nth (i - 1) flags false = true -> forall b, (b < 3 * N)%nat ->
         1 / 2 < Cnorm2 (inner N (ev (i - 1)%nat (nth b pm 0%nat)) (ev i (nth b r 0%nat))))) as [r [Er [Pr Vr]]].
    { destruct (nth (i - 1) flags false) eqn:F; [|exists pm; split; [reflexivity|split; [exact P|discriminate]]].
      destruct (H i ltac:(lia) F) as [O1 [O2 Pa]]. destruct (partner_map N _ _ O1 Pa O2) as [pi [Ppi Vpi]].
      destruct (next_map_follows N (ev (i - 1)%nat) (ev i) pm pi P O1 O2 Ppi (fun p Hp => proj2 (Vpi p Hp))) as [r [Er [Lr Vr]]].
      assert (Lp : length pm = (3 * N)%nat) by (rewrite (Permutation_length P), seq_length; reflexivity).
      assert (Br : forall b, (b < 3 * N)%nat -> (nth b pm 0 < 3 * N)%nat).
      { intros b Hb. assert (I : In (nth b pm 0%nat) (seq 0 (3 * N))) by (apply (Permutation_in _ P); apply nth_In; lia). apply in_seq in I. lia. }
      exists r. split; [exact Er|]. split.
      - assert (E : r = map pi pm).
        { apply nth_ext with (d := 0%nat) (d' := 0%nat); [rewrite map_length; lia|]. intros b Hb. rewrite Vr by lia.
          rewrite (map_nth_indep pi pm b 0%nat 0%nat) by lia. reflexivity. }
        rewrite E. eapply Permutation_trans; [apply Permutation_map; exact P|exact Ppi].
      - intros _ b Hb. rewrite Vr by exact Hb. apply Vpi. apply Br. exact Hb. }
    rewrite Er. destruct (IH (S i) r Pr ltac:(lia)) as [ms [Em [Lm [Pm Vm]]]]; [intros t Ht F; apply H; [lia|exact F]|].
    rewrite Em. exists (r :: ms). split; [reflexivity|]. split; [cbn; lia|]. split; [intros x [<-|Hx]; [exact Pr|apply Pm; exact Hx]|].
    intros t Ht F b Hb. destruct t as [|t].
    + rewrite Nat.add_0_r in *. cbn [nth]. exact (Vr F b Hb).
    + replace (i + S t - 1)%nat with (S i + t - 1)%nat in * by lia. replace (i + S t)%nat with (S i + t)%nat by lia.
      exact (Vm t ltac:(lia) F b Hb).
Qed.

Lemma reorder_follows tol rg qpts e : (0 < nq (et e))%nat ->
  (forall t, (1 <= t < nq (et e))%nat -> nth (t - 1) (calc_reorder tol rg qpts) false = true ->
     orthonormal (n_atoms e) (evec e (t - 1)%nat) /\ orthonormal (n_atoms e) (evec e t) /\ partnered (n_atoms e) (evec e (t - 1)%nat) (evec e t)) ->
  exists e', reorder_frequencies tol rg qpts e = Ok e' /\ (forall q, (q < nq (et e))%nat -> reordered e e' q) /\
    forall t, (1 <= t < nq (et e))%nat -> nth (t - 1) (calc_reorder tol rg qpts) false = true -> forall b, (b < 3 * n_atoms e)%nat ->
      1 / 2 < Cnorm2 (inner (n_atoms e) (evec e' (t - 1)%nat b) (evec e' t b)).
Proof.
  intros Hn H. unfold reorder_frequencies, reorder_maps.
  destruct (mode_maps_follow (n_atoms e) (calc_reorder tol rg qpts) (evec e) (nq (et e) - 1) 1 (seq 0 (3 * n_atoms e)) (Permutation_refl _) ltac:(lia)) as [ms [Em [Lm [Pm Vm]]]];
    [intros t Ht F; apply H; [lia|exact F]|].
  rewrite Em. eexists. split; [reflexivity|]. cbn [et nq nm n_atoms wt freq evec]. split.
  - intros q Hq. exists (nth q (seq 0 (3 * n_atoms e) :: ms) []). split; [|intros b Hb; split; reflexivity].
    destruct q as [|q]; [apply Permutation_refl|]. cbn [nth]. apply Pm. apply nth_In. lia.
  - intros t Ht F b Hb. specialize (Vm (t - 1)%nat ltac:(lia)). replace (1 + (t - 1) - 1)%nat with (t - 1)%nat in Vm by lia.
    replace (1 + (t - 1))%nat with t in Vm by lia. replace (S (t - 1)) with t in Vm by lia. exact (Vm F b Hb).
Qed.

(** A hypothesis-satisfying case: three modes at two q-points, swapped. *)
Definition swap_e : etable := mkE (mkF 2 3 (fun q m => INR (q + m)) (fun _ => 1)) 1
  (fun q m _ l => match q with O => if Nat.eqb m l then RtoC 1 else RtoC 0 | _ => if Nat.eqb (2 - m) l then mkC 0 1 else RtoC 0 end).
Lemma swap_partnered : orthonormal 1 (evec swap_e 0) /\ orthonormal 1 (evec swap_e 1) /\ partnered 1 (evec swap_e 0) (evec swap_e 1) /\
  calc_reorder 0 true [(0, 0, 0); (1/4, 0, 0)] = [true].
Proof.
  split; [|split; [|split; [|reflexivity]]].
  - intros m m' Hm Hm'. cbn in Hm, Hm'. destruct m as [|[|[|]]]; try lia; destruct m' as [|[|[|]]]; try lia; unfold inner; cbn [seq]; rewrite !Csum_cons, !Csum_nil; apply C_eq; cbn; ring.
  - intros m m' Hm Hm'. cbn in Hm, Hm'. destruct m as [|[|[|]]]; try lia; destruct m' as [|[|[|]]]; try lia; unfold inner; cbn [seq]; rewrite !Csum_cons, !Csum_nil; apply C_eq; cbn; ring.
  - intros p Hp. exists (2 - p)%nat. split; [lia|]. cbn in Hp.
    destruct p as [|[|[|]]]; try lia; unfold inner; cbn [seq]; rewrite !Csum_cons, !Csum_nil; unfold Cnorm2; cbn; lra.
Qed.
