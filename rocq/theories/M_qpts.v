(** Model: which q-points are calculated, in what order, with what direction
    and weight.  /repo/euphonic/force_constants.py:472-537, 695-711, 1237-1277
    and /repo/euphonic/util.py:54-72. *)
From Verif Require Import Base Vec3.

(** np.rint: nearest integer, ties to even. *)
Definition rint (x : R) : Z :=
  let f := Int_part x in
  let r := x - IZR f in
  if Rlt_dec r (1/2) then f
  else if Rlt_dec (1/2) r then (f + 1)%Z
  else if Z.even f then f else (f + 1)%Z.

(** C library round(): nearest integer, ties away from zero. *)
Definition c_round (x : R) : Z :=
  let f := Int_part x in
  let r := x - IZR f in
  if Rlt_dec r (1/2) then f
  else if Rlt_dec (1/2) r then (f + 1)%Z
  else if (f <? 0)%Z then f else (f + 1)%Z.

(** util.py:70 and c/util.c:33 *)
Definition gamma_tol : R := / 10 ^ 15.

Definition frac_dist (x : R) : R := Rabs (x - IZR (rint x)).
Definition c_frac_dist (x : R) : R := Rabs (x - IZR (c_round x)).

(** util.py:54-72 is_gamma for one q-point (np.sum of absolute values). *)
Definition is_gamma (q : V3) : bool :=
  let '(x, y, z) := q in
  Rltb (frac_dist x + frac_dist y + frac_dist z) gamma_tol.

(** c/util.c:32-45 is_gamma. *)
Definition c_is_gamma (q : V3) : bool :=
  let '(x, y, z) := q in
  Rltb (0 + c_frac_dist x + c_frac_dist y + c_frac_dist z) gamma_tol.

(** qpts - np.rint(qpts), force_constants.py:499 *)
Definition qnorm (q : V3) : V3 :=
  let '(x, y, z) := q in (x - IZR (rint x), y - IZR (rint y), z - IZR (rint z)).

Definition V3_eq_dec (u v : V3) : {u = v} + {u <> v}.
Proof.
  destruct u as [[a b] c], v as [[d e] f].
  destruct (Req_EM_T a d) as [->|H1]; [|right; intros H; injection H as ? ? ?; contradiction].
  destruct (Req_EM_T b e) as [->|H2]; [|right; intros H; injection H as ? ?; contradiction].
  destruct (Req_EM_T c f) as [->|H3]; [|right; intros H; injection H as ?; contradiction].
  left. reflexivity.
Defined.

(** Row order used by np.unique(axis=0): lexicographic. *)
Definition lexlt (u v : V3) : bool :=
  let '(a, b, c) := u in let '(d, e, f) := v in
  if Rlt_dec a d then true else if Rlt_dec d a then false else
  if Rlt_dec b e then true else if Rlt_dec e b then false else
  if Rlt_dec c f then true else false.

Fixpoint insert_uniq (x : V3) (l : list V3) : list V3 :=
  match l with
  | [] => [x]
  | y :: l' => if V3_eq_dec x y then l
               else if lexlt x y then x :: l else y :: insert_uniq x l'
  end.

(** np.unique(a, axis=0)[0]: the distinct rows, sorted. *)
Definition np_unique (l : list V3) : list V3 := fold_right insert_uniq [] l.

Fixpoint index_of (x : V3) (l : list V3) : nat :=
  match l with
  | [] => 0
  | y :: l' => if V3_eq_dec x y then 0 else S (index_of x l')
  end.

(** return_inverse=True *)
Definition np_unique_inverse (l : list V3) : list nat :=
  map (fun x => index_of x (np_unique l)) l.

(** np.where(mask)[0] *)
Definition where_true (mask : list bool) : list nat :=
  filter (fun i => nth i mask false) (seq 0 (length mask)).

Definition where_eq (l : list nat) (v : nat) : list nat :=
  where_true (map (fun x => Nat.eqb x v) l).

(** a[idx] = vals, elementwise integer-array assignment. *)
Fixpoint set_nth {A} (l : list A) (i : nat) (v : A) : list A :=
  match l, i with
  | [], _ => []
  | _ :: l', 0%nat => v :: l'
  | x :: l', S i' => x :: set_nth l' i' v
  end.
Fixpoint scatter {A} (l : list A) (idx : list nat) (vals : list A) : list A :=
  match idx, vals with
  | i :: idx', v :: vals' => scatter (set_nth l i v) idx' vals'
  | _, _ => l
  end.

(** norm_qpts with gammas forced to zero, force_constants.py:499, 508. *)
Definition norm_qpts (qpts : list V3) : list V3 :=
  map (fun q => if is_gamma q then vzero else qnorm q) qpts.

(** force_constants.py:498-529: (reduced_qpts, qpts_i). *)
Definition reduce_qpts (reduce splitting : bool) (qpts : list V3)
  : list V3 * list nat :=
  if reduce then
    let nq := norm_qpts qpts in
    let gamma_i := where_true (map is_gamma qpts) in
    let n_gamma := length gamma_i in
    let rq := np_unique nq in
    let qpts_i := np_unique_inverse nq in
    let n_rqpts := length rq in
    if (splitting && (1 <? n_gamma)%nat)%bool then
      (rq ++ repeat vzero (n_gamma - 1),
       scatter qpts_i (tl gamma_i) (seq n_rqpts (n_gamma - 1)))
    else (rq, qpts_i)
  else (qpts, seq 0 (length qpts)).

Inductive qerr := NoUniquePosition | NoSplitIndex.

Definition getq (qpts : list V3) (i : nat) : V3 := nth i qpts vzero.

(** force_constants.py:1259-1276, body of the loop of _get_q_dirs for one
    reduced gamma index.  [idx_in_qpts] has to hold one position: with zero or
    several the array comparisons/assignments in the code raise. *)
Definition get_q_dir (qpts : list V3) (qpts_i : list nat) (idx : nat) : res V3 qerr :=
  let n := length qpts in
  if (1 <? n)%nat then
    match where_eq qpts_i idx with
    | [p] =>
        if (p =? 0)%nat then Ok (vsub (getq qpts 1) (getq qpts 0))
        else if (p =? n - 1)%nat then Ok (vsub (getq qpts (n-1)) (getq qpts (n-2)))
        else let d := vsub (getq qpts (p+1)) (getq qpts p) in
             if is_gamma d then Ok (vsub (getq qpts p) (getq qpts (p-1))) else Ok d
    | _ => Err NoUniquePosition
    end
  else Ok vzero.

Fixpoint mapE {A B E} (f : A -> res B E) (l : list A) : res (list B) E :=
  match l with
  | [] => Ok []
  | x :: l' => match f x with
               | Err e => Err e
               | Ok y => match mapE f l' with Err e => Err e | Ok ys => Ok (y :: ys) end
               end
  end.

(** position of the first occurrence, np.where(a == v)[0][0] *)
Definition first_where (l : list nat) (v : nat) : option nat := hd_error (where_eq l v).

(** force_constants.py:532-537 and the loop 697-711.  [calc q dir] stands for
    _calculate_phonons_at_q at one q-point (everything it returns); [dir] is
    None or the q-direction.  Output: one result per input q-point
    (rfreqs[qpts_i] etc., lines 711-735). *)
Definition calculate {X} (calc : V3 -> option V3 -> X) (dflt : X)
    (reduce splitting : bool) (qpts : list V3) : res (list X) qerr :=
  let '(rq, qpts_i) := reduce_qpts reduce splitting qpts in
  let split_idx := if splitting then where_true (map is_gamma rq) else [] in
  match mapE (get_q_dir qpts qpts_i) split_idx with
  | Err e => Err e
  | Ok q_dirs =>
      match mapE (fun qi =>
               let q := getq rq qi in
               if (splitting && is_gamma q)%bool then
                 match first_where split_idx qi with
                 | None => Err NoSplitIndex
                 | Some k => Ok (calc q (Some (nth k q_dirs vzero)))
                 end
               else Ok (calc q None)) (seq 0 (length rq)) with
      | Err e => Err e
      | Ok rres => Ok (map (fun i => nth i rres dflt) qpts_i)
      end
  end.

(** np.insert(a, idx, vals, axis=0) for indices inside the array: each value
    goes before the original element with that index. *)
Definition np_insert {A} (l : list A) (idx : list nat) (vals : list A) : list A :=
  let ins := combine idx vals in
  let at_ := fun i => map snd (filter (fun p => Nat.eqb (fst p) i) ins) in
  concat (map (fun p => at_ (fst p) ++ [snd p]) (combine (seq 0 (length l)) l))
    ++ at_ (length l).

(** force_constants.py:483-485: gamma points strictly inside the list. *)
Definition split_gamma (qpts : list V3) : list nat :=
  filter (fun i => (0 <? i)%nat && (i <? length qpts - 1)%nat)%bool
         (where_true (map is_gamma qpts)).

(** A weights array has a dtype: assigning w/2 back into an integer array
    truncates toward zero. *)
Inductive weights_t := WFloat (w : list R) | WInt (w : list Z).

Definition fancy {A} (l : list A) (idx : list nat) (d : A) : list A :=
  map (fun i => nth i l d) idx.

Definition trunc_half (z : Z) : Z := Z.quot z 2.

(** force_constants.py:481-496 *)
Definition insert_gamma_qpts (qpts : list V3) : list V3 :=
  let sg := split_gamma qpts in np_insert qpts sg (fancy qpts sg vzero).

Definition insert_gamma_weights (qpts : list V3) (w : weights_t) : weights_t :=
  let sg := split_gamma qpts in
  match w with
  | WFloat w =>
      let w := scatter w sg (map (fun x => x / 2) (fancy w sg 0)) in
      WFloat (np_insert w sg (fancy w sg 0))
  | WInt w =>
      let w := scatter w sg (map trunc_half (fancy w sg 0%Z)) in
      WInt (np_insert w sg (fancy w sg 0%Z))
  end.

(** qpoint_frequencies.py:73-78: default weights. *)
Definition final_weights (n : nat) (w : option weights_t) : list R :=
  match w with
  | None => repeat (1 / INR n) n
  | Some (WFloat w) => w
  | Some (WInt w) => map IZR w
  end.
