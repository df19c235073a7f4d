(** Model of the Brille interpolator: /repo/euphonic/brille.py 32-263, with
    /repo/euphonic/crystal.py 165-183 [to_spglib_cell].
    - spglib and Brille are arguments: [zone] makes the irreducible Brillouin zone of a cell as
      spglib describes it (188-203), [volume] is its volume, [points] the q-points of a grid,
      [interpolate] is ir_interpolate_at.
    - The calculation on the grid is M_calc (Python evaluation), in hartree; [k] is one hartree
      in meV.  Arrays are functions of their indices.  use_c and n_threads, which do not change
      the results (C12), are left out of the keyword arguments.
    - Printing and the constructor's check of the arrays just filled are left out. *)
From Coq Require Import String.
From Verif Require Import Base Cpx Vec3 M_grid M_qpts M_dynmat M_dipole M_struct M_asr M_calc.
Open Scope R_scope.

Inductive gkind := Trellis | Mesh | Nest.
Inductive bval := BNum (x : R) | BFlag (b : bool).
Notation kwargs := (list (string * bval)).
Inductive brerr :=
  | BadGridType          (* ValueError, 183 *)
  | ZeroDivision         (* 1/grid_density, vol/grid_npts *)
  | GridErr              (* whatever Brille raises *)
  | TupleError           (* AttributeError, 249: the result is a tuple *)
  | FillErr (e : cerr).  (* from calculate_qpoint_phonon_modes *)

(** 181-183 *)
Definition grid_kind (s : string) : res gkind brerr :=
  if String.eqb s "trellis" then Ok Trellis else if String.eqb s "mesh" then Ok Mesh else if String.eqb s "nest" then Ok Nest else Err BadGridType.
(** int(x) of a float *)
Definition py_int (x : R) : R := if Rltb x 0 then - IZR (Int_part (- x)) else IZR (Int_part x).
Definition div (x y : R) : res R brerr := if Reqb y 0 then Err ZeroDivision else Ok (x / y).
(** 207-237: the keyword arguments of the grid *)
Definition grid_args (t : gkind) (npts : R) (density : option R) (given : option kwargs) (vol : R) : res kwargs brerr :=
  match given with
  | Some kw => Ok kw
  | None =>
    match t, density with
    | Trellis, Some d => match div 1 d with Ok v => Ok [("node_volume_fraction"%string, BNum v); ("always_triangulate"%string, BFlag false)] | Err e => Err e end
    | Trellis, None => match div vol npts with Ok v => Ok [("node_volume_fraction"%string, BNum v); ("always_triangulate"%string, BFlag false)] | Err e => Err e end
    | Mesh, Some d => match div 1 d with Ok v => Ok [("max_size"%string, BNum v); ("max_points"%string, BNum (py_int (d * vol)))] | Err e => Err e end
    | Mesh, None => match div vol npts with Ok v => Ok [("max_size"%string, BNum v); ("max_points"%string, BNum npts)] | Err e => Err e end
    | Nest, Some d => Ok [("number_density"%string, BNum (py_int (d * vol)))]
    | Nest, None => Ok [("number_density"%string, BNum npts)]
    end
  end.

(** The keyword arguments for calculate_qpoint_phonon_modes: None is a key that is not in the
    dictionary. *)
Record idict := mkI { i_weights : option (option weights_t); i_asr : option (option asr_kind); i_dipole : option bool; i_param : option R;
  i_splitting : option bool; i_insert : option bool; i_reduce : option bool; i_grads : option bool }.
Definition no_kwargs : idict := mkI None None None None None None None None.
Definition given {A} (o : option A) (default : A) : A := match o with Some a => a | None => default end.
(** The call with these keyword arguments, force_constants.py:166-178 *)
Definition with_kwargs (qpts : list V3) (d : idict) : options :=
  mkOpts qpts (given (i_weights d) None) (given (i_asr d) None) (given (i_dipole d) true) (given (i_param d) 1)
    (given (i_splitting d) true) (given (i_insert d) false) (given (i_reduce d) true) (given (i_grads d) false).
(** 243-244: two keys are set in the dictionary itself *)
Definition forced (d : idict) : idict :=
  mkI (i_weights d) (i_asr d) (i_dipole d) (i_param d) (i_splitting d) (Some false) (Some false) (i_grads d).

(** crystal.py:180: the magnitudes of cell_vectors in the unit displayed; [u] is one bohr in
    that unit *)
Definition spglib_cell (u : R) (cell : M3) : M3 := let '(a, b, c) := cell in (vscal u a, vscal u b, vscal u c).

(** Filled grid: q-points, values (n, 3 n_atoms, 1), vectors (n, 3 n_atoms, 3 n_atoms) *)
Record grid := mkG { g_rlu : list V3; g_values : nat -> nat -> nat -> R; g_vectors : nat -> nat -> nat -> C }.
(** QpointPhononModes: frequencies (meV), eigenvectors (n, 3 n_atoms, n_atoms, 3) *)
Record bmodes := mkB { b_qpts : list V3; b_freq : nat -> nat -> R; b_evec : nat -> nat -> nat -> nat -> C }.

Section Brille.
Context {Z : Type}.
Variables (zone : M3 -> list V3 -> list nat -> Z) (volume : Z -> R) (points : gkind -> Z -> kwargs -> res (list V3) brerr).
Variables (erfc : R -> R) (reigh : real_eigh) (ceigh : complex_eigh) (argsort : list R -> list nat) (chunk : nat).
Variable junk : nat -> nat -> nat -> R.

(** 248-262: eigenvectors come as (n, 3 n_atoms, n_atoms, 3) and are reshaped *)
Definition filled (rlu : list V3) (ms : list modes) : grid :=
  let none := mkModes (fun _ => 0) (fun _ _ => Czero) None in
  let evec4 := fun i m a x => m_evec (nth i ms none) m (3 * a + x)%nat in
  mkG rlu (fun i m _ => m_freq (nth i ms none) m) (fun i m j => evec4 i m (j / 3)%nat (j mod 3)%nat).
(** 130-263; the result has the grid, the caller's dictionary as it is left if there is one, and
    the force constants object with what the calculation stored on it.  [types] are the numbers of the species. *)
Definition from_force_constants (u : R) (types : list nat) (x : fcobj) (grid_type : string) (npts : R) (density : option R) (kw : option kwargs) (ikw : option idict)
  : res (grid * option idict * fcobj) brerr :=
  match grid_kind grid_type with
  | Err e => Err e
  | Ok t =>
    let z := zone (spglib_cell u (f_cell (o_d x))) (f_atom_r (o_d x)) types in
    match grid_args t npts density kw (volume z) with
    | Err e => Err e
    | Ok args =>
      match points t z args with
      | Err e => Err e
      | Ok rlu =>
        let d := forced (given ikw no_kwargs) in
        let o := with_kwargs rlu d in
        match snd (snd (call erfc reigh ceigh argsort chunk junk o x)) with
        | Err e => Err (FillErr e)
        | Ok (_, _, ms) =>
          if p_grads o then Err TupleError
          else Ok (filled rlu ms, option_map (fun _ => d) ikw, fst (call erfc reigh ceigh argsort chunk junk o x))
        end
      end
    end
  end.

(** 116-128; [interpolate] gives arrays (n, 3 n_atoms, 1) and (n, 3 n_atoms, 3 n_atoms) *)
Definition interpolated (interpolate : grid -> list V3 -> kwargs -> (nat -> nat -> nat -> R) * (nat -> nat -> nat -> C)) (k cpus : R) (g : grid) (qpts : list V3) (kw : kwargs) : bmodes :=
  let kw := match kw with [] => [("useparallel"%string, BFlag true); ("threads"%string, BNum cpus)] | _ => kw end in
  let '(vals, vecs) := interpolate g qpts kw in
  mkB qpts (fun i m => vals i m 0%nat * k) (fun i m a x => vecs i m (3 * a + x)%nat).
End Brille.
