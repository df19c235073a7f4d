(** Model of /repo/euphonic/qpoint_phonon_modes.py:81-166
    [QpointPhononModes.reorder_frequencies]. *)
From Verif Require Import Base Cpx Vec3 M_qpts M_path M_dos M_sf.
Open Scope R_scope.

Inductive rerr := PrevModeMissing.   (* 157: np.where(...)[0][0] IndexError *)

(** 105-119: for each step i -> i+1 whether modes are matched.  [tol] is the tolerance of
    util.direction_changed. *)
Definition calc_reorder (tol : R) (reorder_gamma : bool) (qpts : list V3) : list bool :=
  let c := true :: map negb (direction_changed tol qpts) in
  if reorder_gamma then c else
  let g := where_true (map is_gamma qpts) in
  let c1 := fold_left (fun c i => set_nth c (i - 1) false) (filter (fun i => 0 <? i)%nat g) c in
  fold_left (fun c i => set_nth c i false) (filter (fun i => i <? length qpts - 1)%nat g) c1.

(** 126-143: |<previous p, current m>|, rows m, columns p. *)
Definition overlap (n_atoms : nat) (prev cur : nat -> nat -> nat -> C) (m p : nat) : R :=
  Cabs (Csum (seq 0 n_atoms) (fun a => Csum (seq 0 3) (fun l => Cmul (Cconj (prev p a l)) (cur m a l)))).
(** np.argmax of the n x n matrix: first maximum in row-major order, as (row, column)
    (147-151). *)
Definition argmax2 (n : nat) (d : nat -> nat -> R) : nat * nat :=
  fold_left (fun best mp => if Rltb (d (fst best) (snd best)) (d (fst mp) (snd mp)) then mp else best)
    (list_prod (seq 0 n) (seq 0 n)) (0%nat, 0%nat).
(** 153-154 *)
Definition strike (d : nat -> nat -> R) (m p : nat) : nat -> nat -> R :=
  fun m' p' => if (Nat.eqb m' m || Nat.eqb p' p)%bool then 0 else d m' p'.
(** 146-158, [j] passes left *)
Fixpoint greedy (j n : nat) (d : nat -> nat -> R) (prev_map cur_map : list nat) : res (list nat) rerr :=
  match j with
  | O => Ok cur_map
  | S j' =>
    let '(m, p) := argmax2 n d in
    match where_eq prev_map p with
    | [] => Err PrevModeMissing
    | idx :: _ => greedy j' n (strike d m p) prev_map (set_nth cur_map idx m)
    end
  end.
(** 121-160: mode_map[i] from mode_map[i-1]; rows of mode_map start as zeros (99). *)
Definition next_map (n_atoms : nat) (reorder : bool) (prev cur : nat -> nat -> nat -> C) (prev_map : list nat) : res (list nat) rerr :=
  let n := (3 * n_atoms)%nat in
  if reorder then greedy n n (overlap n_atoms prev cur) prev_map (repeat 0%nat n) else Ok prev_map.
Fixpoint mode_maps (n_atoms : nat) (flags : list bool) (ev : nat -> nat -> nat -> nat -> C) (i k : nat) (prev_map : list nat)
  : res (list (list nat)) rerr :=
  match k with
  | O => Ok []
  | S k' => match next_map n_atoms (nth (i - 1) flags false) (ev (i - 1)%nat) (ev i) prev_map with
            | Err e => Err e
            | Ok mp => match mode_maps n_atoms flags ev (S i) k' mp with
                       | Err e => Err e
                       | Ok r => Ok (mp :: r) end
            end
  end.
(** 101-166: the mode maps and the rearranged table. *)
Definition reorder_maps (tol : R) (reorder_gamma : bool) (qpts : list V3) (e : etable) : res (list (list nat)) rerr :=
  match mode_maps (n_atoms e) (calc_reorder tol reorder_gamma qpts) (evec e) 1 (nq (et e) - 1) (seq 0 (3 * n_atoms e)) with
  | Err r => Err r
  | Ok ms => Ok (seq 0 (3 * n_atoms e) :: ms)
  end.
Definition reorder_frequencies (tol : R) (reorder_gamma : bool) (qpts : list V3) (e : etable) : res etable rerr :=
  match reorder_maps tol reorder_gamma qpts e with
  | Err r => Err r
  | Ok maps => let at_ q b := nth b (nth q maps []) 0%nat in
      Ok (mkE (mkF (nq (et e)) (nm (et e)) (fun q b => freq (et e) q (at_ q b)) (wt (et e))) (n_atoms e)
              (fun q b => evec e q (at_ q b)))
  end.
