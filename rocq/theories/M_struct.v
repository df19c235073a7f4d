(** Model: species lists, symmetry-equivalent atoms and the re-indexing of
    Phonopy force constants.  /repo/euphonic/util.py:302-458, 666-725 and
    /repo/euphonic/crystal.py:185-277. *)
From Coq Require Import String.
From Verif Require Import Base Vec3 M_grid M_qpts M_dynmat M_dipole.
Open Scope R_scope.

(** ** util.py:445-458 _get_unique_elems_and_idx *)
(** dict(zip(keys, ...)).keys(): insertion order, one entry per key. *)
Definition dict_keys {A} (eqb : A -> A -> bool) (l : list A) : list A :=
  fold_left (fun acc k => if existsb (eqb k) acc then acc else acc ++ [k]) l [].
Definition elem_idx {A} (eqb : A -> A -> bool) (l : list A) (e : A) : list nat :=
  map fst (filter (fun p => eqb e (snd p)) (combine (seq 0 (length l)) l)).
Definition unique_elems_idx {A} (eqb : A -> A -> bool) (l : list A) : list (A * list nat) :=
  map (fun e => (e, elem_idx eqb l e)) (dict_keys eqb l).

(** crystal.py:185-200 Crystal.get_species_idx *)
Definition get_species_idx (atom_type : list string) : list (string * list nat) :=
  unique_elems_idx String.eqb atom_type.

(** ** crystal.py:202-277 Crystal.get_symmetry_equivalent_atoms
    Lengths are in bohr.  spglib.get_symmetry is an argument: None or the list
    of (rotation, translation).  Result: column i of equiv_atoms is [E i], one
    entry per operation. *)
Definition wrap1 (x : R) : R := x - IZR (Int_part (x + 1/2)).
Definition vwrap (v : V3) : V3 := let '(x, y, z) := v in (wrap1 x, wrap1 y, wrap1 z).
Definition apply_op (op : M3 * V3) (r : V3) : V3 := vadd (mulv (fst op) r) (snd op).

(** lines 240-253: distance from the transformed atom i to atom j *)
Definition symm_dist (cell : M3) (atom_r : list V3) (op : M3 * V3) (i j : nat) : R :=
  norm (vmul (vwrap (vsub (vwrap (apply_op op (nth i atom_r vzero))) (nth j atom_r vzero))) cell).

Inductive symm_err := SymmNone | NoEquivalent (atom op : nat) | MultipleEquivalent (atom op : nat) | ShapeMismatch.

(** lines 260-273: raise for the first operation without exactly one match *)
Fixpoint check_ops (i : nat) (count : nat -> nat) (finish : res (list nat) symm_err) (l : list nat)
  : res (list nat) symm_err :=
  match l with
  | [] => finish
  | s :: l' => match count s with
               | O => Err (NoEquivalent i s)
               | 1%nat => check_ops i count finish l'
               | _ => Err (MultipleEquivalent i s)
               end
  end.

(** lines 257-274 for one atom: [dist s p] is diff_r[s, p], [idx] the atoms of
    the species. *)
Definition equiv_of_atom (n_ops : nat) (idx : list nat) (i : nat) (dist : nat -> nat -> R) (tol : R)
  : res (list nat) symm_err :=
  let match_op := fun s => filter (fun p => Rltb (dist s p) tol) (seq 0 (length idx)) in
  let pairs := flat_map (fun s => map (fun p => (s, p)) (match_op s)) (seq 0 n_ops) in
  let finish :=
    if Nat.eqb (length pairs) n_ops then Ok (map (fun sp => nth (snd sp) idx 0%nat) pairs)
    else Err ShapeMismatch in
  if list_eq_dec Nat.eq_dec (map fst pairs) (seq 0 n_ops) then finish
  else
    check_ops i (fun s => length (match_op s)) finish (seq 0 n_ops).

Definition fset {A} (m : nat -> A) (k : nat) (v : A) : nat -> A :=
  fun x => if Nat.eqb x k then v else m x.

(** equiv_atoms starts as -1 everywhere (None here). *)
Fixpoint fill_columns (f : nat -> nat -> res (list nat) symm_err) (todo : list (nat * nat))
  (m : nat -> option (list nat)) : res (nat -> option (list nat)) symm_err :=
  match todo with
  | [] => Ok m
  | (sp, i) :: todo' => match f sp i with
                        | Err e => Err e
                        | Ok col => fill_columns f todo' (fset m i (Some col))
                        end
  end.

Definition symmetry_equivalent_atoms (cell : M3) (atom_r : list V3) (atom_type : list string)
  (symm : option (list (M3 * V3))) (tol : R) : res (nat -> option (list nat)) symm_err :=
  match symm with
  | None => Err SymmNone
  | Some ops =>
      let species := map snd (get_species_idx atom_type) in
      let todo := flat_map (fun sp => map (fun i => (sp, i)) (nth sp species [])) (seq 0 (length species)) in
      fill_columns (fun sp i =>
          let idx := nth sp species [] in
          equiv_of_atom (length ops) idx i
            (fun s p => symm_dist cell atom_r (nth s ops (((0,0,0),(0,0,0),(0,0,0)), vzero)) i (nth p idx 0%nat)) tol)
        todo (fun _ => None)
  end.

(** ** util.py:666-725 _get_supercell_relative_idx
    np.linalg.inv is exact inversion.  The chunk length N is an argument (100
    in the code). *)
Definition sc_frac (sc : Z3 * Z3 * Z3) (o : Z3) : V3 := mulv (inv3 (transpose (zrows sc))) (zvec o).
Definition frac_sum (v : V3) : R := let '(x, y, z) := v in frac_dist x + frac_dist y + frac_dist z.

(** np.argmin: position of the first smallest element (0 for an empty list,
    on which NumPy raises; chunks are never empty). *)
Fixpoint argmin_from (best : R) (bi k : nat) (l : list R) : nat :=
  match l with
  | [] => bi
  | x :: l' => if Rlt_dec x best then argmin_from x k (S k) l' else argmin_from best bi (S k) l'
  end.
Definition argmin (l : list R) : nat :=
  match l with [] => 0%nat | x :: l' => argmin_from x 0 1 l' end.

(** 16*sys.float_info.epsilon = 2^-48 *)
Definition sc_tol : R := / 2 ^ 48.

(** One chunk for one row of inter_cell_vectors: state is (dist_min, index),
    None standing for sys.float_info.max. *)
Definition chunk_row (cosc : list V3) (ci cf : nat) (v : V3) (st : option R * nat) : option R * nat :=
  let ds := map (fun c => frac_sum (vsub v c)) (firstn (cf - ci) (skipn ci cosc)) in
  let k := argmin ds in
  let cur := nth k ds 0 in
  let replace := match fst st with None => true | Some m => Rltb cur m end in
  if replace then (Some cur, (ci + k)%nat) else st.

Definition close_enough (st : option R * nat) : bool :=
  match fst st with None => false | Some m => Rleb m sc_tol end.

(** for i in range(...): ... break *)
Fixpoint chunk_loop (N : nat) (cosc : list V3) (vs : list V3) (i todo : nat) (st : list (option R * nat))
  : list (option R * nat) :=
  match todo with
  | O => st
  | S todo' =>
      let ci := (i * N)%nat in
      let cf := Nat.min ((i + 1) * N) (length cosc) in
      let st' := map (fun vs => chunk_row cosc ci cf (fst vs) (snd vs)) (combine vs st) in
      if forallb close_enough st' then st' else chunk_loop N cosc vs (S i) todo' st'
  end.

Inductive sc_err := NoRelativeIndex.
Definition supercell_relative_row (N : nat) (cosc : list V3) (nc : nat) : res (list nat) sc_err :=
  let vs := map (fun c => vsub c (nth nc cosc vzero)) cosc in
  let st := chunk_loop N cosc vs 0 ((length cosc - 1) / N + 1) (map (fun _ => (None, 0%nat)) cosc) in
  if forallb close_enough st then Ok (map snd st) else Err NoRelativeIndex.

Definition supercell_relative_idx (N : nat) (origins : list Z3) (sc : Z3 * Z3 * Z3) : res (list (list nat)) sc_err :=
  let cosc := map (sc_frac sc) origins in
  mapE (supercell_relative_row N cosc) (seq 0 (length origins)).

(** ** util.py:302-434 convert_fc_phases
    [fc i s a b]: force_constants[i, s, a, b] with [rows] rows.  Index arrays
    are lists of naturals; an index out of range raises IndexError in NumPy.
    The order in which two different errors would be met is not kept.  A number
    of cell origins other than n_cells makes the assignments at lines 419 and
    427 fail (shape mismatch or IndexError; NumPy would broadcast in the
    degenerate case n_cells = 1). *)
Inductive conv_err := InconsistentCells | NonIntegerOrigin | NoCellOrigin | NoRelIdx | IndexErr | BadShape.

Definition zsub3 (a b : Z3) : Z3 := zadd3 a (zopp3 b).
Definition vrint (v : V3) : Z3 := let '(x, y, z) := v in (rint x, rint y, rint z).
Definition Z3_eqb (a b : Z3) : bool :=
  let '(a1, a2, a3) := a in let '(b1, b2, b3) := b in
  (Z.eqb a1 b1 && Z.eqb a2 b2 && Z.eqb a3 b3)%bool.
Definition zdet3 (s : Z3 * Z3 * Z3) : Z :=
  let '((a1, a2, a3), (b1, b2, b3), (c1, c2, c3)) := s in
  (a1 * (b2 * c3 - b3 * c2) - a2 * (b1 * c3 - b3 * c1) + a3 * (b1 * c2 - b2 * c1))%Z.

(** get_all_origins((2,2,2), min_xyz=(-1,-1,-1)) times sc_matrix *)
Definition neighbour_supercells (sc : Z3 * Z3 * Z3) : list Z3 :=
  match get_all_origins (2, 2, 2)%Z (-1, -1, -1)%Z 1 with
  | Ok l => map (fun m => zmul3 m sc) l
  | Err _ => []
  end.

(** lines 383-404: index of the cell origin for one supercell atom *)
Definition cell_origin_of (sc : Z3 * Z3 * Z3) (cell_origins : list Z3) (o : Z3) : option nat :=
  match filter (fun k => Z3_eqb o (nth k cell_origins (0,0,0)%Z)) (seq 0 (length cell_origins)) with
  | [k] => Some k
  | _ => hd_error (filter (fun j =>
           existsb (fun m => Z3_eqb (zsub3 o m) (nth j cell_origins (0,0,0)%Z)) (neighbour_supercells sc))
           (seq 0 (length cell_origins)))
  end.

(** a[idx1, idx2] = vals: the last assignment to a position wins. *)
Definition last_match (p : nat -> bool) (n : nat) : option nat :=
  hd_error (filter p (rev (seq 0 n))).

Definition convert_fc_phases (N : nat) (rows : nat) (fc : nat -> nat -> nat -> nat -> R)
  (atom_r sc_atom_r : list V3) (uc_to_sc sc_to_uc : list nat) (sc : Z3 * Z3 * Z3) (tol : R)
  : res ((nat -> nat -> nat -> R) * list Z3) conv_err :=
  let n_sc := length sc_to_uc in
  let n_uc := length uc_to_sc in
  let n_cells := Z.to_nat (Z.abs (zdet3 sc)) in
  if negb (Nat.eqb n_sc (n_cells * n_uc)) then Err InconsistentCells else
  let diff := map (fun s => vsub (nth s sc_atom_r vzero) (nth (nth s sc_to_uc 0%nat) atom_r vzero)) (seq 0 n_sc) in
  if existsb (fun v => let '(x, y, z) := v in
        (Rltb tol (frac_dist x) || Rltb tol (frac_dist y) || Rltb tol (frac_dist z))%bool) diff
  then Err NonIntegerOrigin else
  let raw := map vrint diff in
  let per_atom := map (fun o => zsub3 o (nth (nth 0 uc_to_sc 0%nat) raw (0,0,0)%Z)) raw in
  let cell_origins := map (fun s => nth s per_atom (0,0,0)%Z) (where_eq sc_to_uc 0) in
  if negb (Nat.eqb (length cell_origins) n_cells) then Err BadShape else
  match mapE (fun o => match cell_origin_of sc cell_origins o with
                       | Some k => Ok k | None => Err NoCellOrigin end) per_atom with
  | Err e => Err e
  | Ok cmap =>
      let fc' := if Nat.eqb rows n_sc then fun i => fc (nth i uc_to_sc 0%nat) else fc in
      match supercell_relative_idx N cell_origins sc with
      | Err _ => Err NoRelIdx
      | Ok rel =>
          match mapE (fun i => match first_where sc_to_uc i with Some s => Ok s | None => Err IndexErr end)
                  (seq 0 n_uc) with
          | Err e => Err e
          | Ok firsts =>
              let fc_tmp := fun i n j a b =>
                match last_match (fun s => (Nat.eqb (nth s cmap 0%nat) n && Nat.eqb (nth s sc_to_uc 0%nat) j)%bool) n_sc with
                | Some s => fc' i s a b | None => 0 end in
              let conv := fun i n j a b =>
                let cell_idx := nth (nth i firsts 0%nat) cmap 0%nat in
                let r := nth cell_idx rel [] in
                match last_match (fun m => Nat.eqb (nth m r 0%nat) n) n_cells with
                | Some m => fc_tmp i m j a b | None => -1 end in
              Ok (fun n x y => conv (x / 3)%nat n (y / 3)%nat (x mod 3)%nat (y mod 3)%nat, cell_origins)
          end
      end
  end.
