(** Model of the acoustic sum rule corrections: /repo/euphonic/force_constants.py 1366-1500,
    used at 588-612 of the same file.
    np.linalg.eigh and np.argsort are arguments.  eigh is given the matrix of the upper
    triangle it reads (UPLO='U'), as a function on the indices below the size; None is
    LinAlgError.  The warning that accompanies an uncorrected result is the flag [false]. *)
From Verif Require Import Base Cpx Vec3 M_grid M_dynmat M_struct.
Open Scope R_scope.

(** force_constants.py:1387-1396.  [rel nc c'] is sc_rel_idx[nc][c']; [n3] is 3*n_atoms.
    Row nc*n3 + a, column c'*n3 + b of the square matrix. *)
Definition sq_fc (n3 : nat) (rel : nat -> nat -> nat) (fc : nat -> nat -> nat -> R) (I J : nat) : R :=
  fc (rel (I / n3)%nat (J / n3)%nat) (J mod n3)%nat (I mod n3)%nat.
(** What eigh(m, UPLO='U') reads *)
Definition sym_upper (m : nat -> nat -> R) (a b : nat) : R := if Nat.leb a b then m a b else m b a.

(** force_constants.py:1459-1500 [_find_acoustic_modes] after eigh.  [v i m] is evecs[i, m]. *)
Definition com_disp_sq (natoms : nat) (e : nat -> C) : R := sumn 3 (fun x => Cnorm2 (Csum (seq 0 natoms) (fun k => e (3 * k + x)%nat))).
Definition find_acoustic_modes (argsort : list R -> list nat) (dim : nat) (v : nat -> nat -> C) : option (list nat) :=
  let natoms := (dim / 3)%nat in
  let w m := com_disp_sq natoms (fun i => v i m) in
  let ws := map w (seq 0 dim) in
  if Nat.ltb (length (filter (fun x => Rltb (1 / 2 * (1 * INR natoms)) x) ws)) 3 then None
  else Some (skipn (length ws - 3) (argsort ws)).

Notation real_eigh := (nat -> (nat -> nat -> R) -> option ((nat -> R) * (nat -> nat -> R))).
Notation complex_eigh := (nat -> (nat -> nat -> C) -> option ((nat -> R) * (nat -> nat -> C))).
(** np.min(np.abs(evals)) *)
Definition min_abs (dim : nat) (ev : nat -> R) : R := fold_right (fun m x => Rmin (Rabs (ev m)) x) (Rabs (ev 0%nat)) (seq 0 dim).
(** force_constants.py:1407-1411: sq_fc -= (fc_tol + evals[ac])*outer(evecs[:, ac], evecs[:, ac]) *)
Definition subtract_modes (coef : nat -> R) (v : nat -> nat -> R) (ac : list nat) (m : nat -> nat -> R) (I J : nat) : R :=
  fold_left (fun x a => x - coef a * (v I a * v J a)) ac (m I J).

(** force_constants.py:1366-1414 [_enforce_realspace_asr].  The first component says whether
    the correction was applied. *)
Definition enforce_realspace_asr (eigh : real_eigh) (argsort : list R -> list nat) (chunk : nat) (d : fcdata)
  : res (bool * (nat -> nat -> nat -> R)) sc_err :=
  match supercell_relative_idx chunk (f_origins d) (f_sc d) with
  | Err e => Err e
  | Ok t =>
      let n3 := (3 * n_atoms d)%nat in
      let dim := (n3 * n_cells d)%nat in
      let sq := sq_fc n3 (fun nc c => nth c (nth nc t []) 0%nat) (f_fc d) in
      match eigh dim (sym_upper sq) with
      | None => Ok (false, f_fc d)
      | Some (ev, v) =>
          match find_acoustic_modes argsort dim (fun i m => RtoC (v i m)) with
          | None => Ok (false, f_fc d)
          | Some ac =>
              let tol := 1 / 10 ^ 8 * min_abs dim ev in
              let sq' := subtract_modes (fun a => tol + ev a) v ac sq in
              Ok (true, fun c a b => sq' (c * n3 + a)%nat b)
          end
      end
  end.
Definition with_fc (d : fcdata) (fc : nat -> nat -> nat -> R) : fcdata := mkFC (f_cell d) (f_atom_r d) (f_sc d) (f_origins d) fc.

(** force_constants.py:1416-1457 [_enforce_reciprocal_asr]: the correction, None for the empty
    array.  enumerate(ac_i) numbers the modes from 0; the outer product has no conjugate. *)
Definition enforce_reciprocal_asr (eigh : complex_eigh) (argsort : list R -> list nat) (n3 : nat) (gamma : nat -> nat -> C) : option (nat -> nat -> C) :=
  match eigh n3 (herm_upper gamma) with
  | None => None
  | Some (ev, v) =>
      match find_acoustic_modes argsort n3 v with
      | None => None
      | Some ac =>
          let tol := 5 / 10 ^ 15 in
          Some (fun a b => fold_left (fun x p => Cadd x (Copp (Cscal (tol * INR (fst p) + ev (snd p)) (Cmul (v a (snd p)) (v b (snd p)))))) (combine (seq 0 (length ac)) ac) Czero)
      end
  end.
