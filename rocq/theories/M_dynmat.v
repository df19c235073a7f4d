(** Model: supercell images, phases, dynamical matrix and its gradient, Python
    side.  /repo/euphonic/force_constants.py:538-612, 858-951, 1502-1661.
    Matrices are functions of their indices; floats are reals. *)
From Verif Require Import Base Cpx Vec3 M_grid.
Open Scope R_scope.

Definition Cinv (a : C) : C := mkC (re a / Cnorm2 a) (- im a / Cnorm2 a).
Fixpoint Cpow (z : C) (n : nat) : C :=
  match n with O => Cone | S n' => Cmul z (Cpow z n') end.
(** np.power(complex, int): negative exponents invert. *)
Definition Cpowz (z : C) (k : Z) : C :=
  if (0 <=? k)%Z then Cpow z (Z.to_nat k) else Cinv (Cpow z (Z.to_nat (- k))).

(** np.unique(a, return_inverse=True) on integers: sorted distinct values and
    for each input its position among them. *)
Fixpoint zinsert (x : Z) (l : list Z) : list Z :=
  match l with
  | [] => [x]
  | y :: l' => if (x =? y)%Z then l
               else if (x <? y)%Z then x :: l else y :: zinsert x l'
  end.
Definition zunique (l : list Z) : list Z := fold_right zinsert [] l.
Fixpoint zindex (x : Z) (l : list Z) : nat :=
  match l with
  | [] => 0%nat
  | y :: l' => if (x =? y)%Z then 0%nat else S (zindex x l')
  end.
Definition zunique_inverse (l : list Z) : list nat :=
  map (fun x => zindex x (zunique l)) l.

Definition zx (p : Z3) : Z := let '(x, y, z) := p in x.
Definition zy (p : Z3) : Z := let '(x, y, z) := p in y.
Definition zz (p : Z3) : Z := let '(x, y, z) := p in z.
Definition zvec (p : Z3) : V3 := let '(x, y, z) := p in (IZR x, IZR y, IZR z).

(** a[k] with Python's wrap-around for negative k. *)
Definition py_nth {A} (l : list A) (k : Z) (d : A) : A :=
  if (k <? 0)%Z then nth (Z.to_nat (Z.of_nat (length l) + k)) l d
  else nth (Z.to_nat k) l d.

(** force_constants.py:1552-1565 with 547-559: one axis of the phase
    calculation.  np.power on the distinct coordinates, then fancy indexing
    back to every origin. *)
Definition axis_phases (qk : R) (coords : list Z) : list C :=
  let phase := cis (2 * PI * qk) in
  let up := map (Cpowz phase) (zunique coords) in
  map (fun i => nth i up Czero) (zunique_inverse coords).

Definition cmul_lists (a b : list C) : list C :=
  map (fun p => Cmul (fst p) (snd p)) (combine a b).

(** force_constants.py:1502-1567 _calculate_phases, for one list of origins
    (the code treats the supercell origins and the cell origins alike). *)
Definition calc_phases (q : V3) (origins : list Z3) : list C :=
  let '(qx, qy, qz) := q in
  let p0 := repeat Cone (length origins) in
  let p1 := cmul_lists p0 (axis_phases qx (map zx origins)) in
  let p2 := cmul_lists p1 (axis_phases qy (map zy origins)) in
  cmul_lists p2 (axis_phases qz (map zz origins)).

(** Crystal and force-constant data used here: cell vectors, fractional atom
    coordinates, integer supercell matrix, cell origins, force constants
    [fc nc a b] with a, b < 3*n_atoms. *)
Record fcdata := mkFC {
  f_cell : M3;
  f_atom_r : list V3;
  f_sc : Z3 * Z3 * Z3;
  f_origins : list Z3;
  f_fc : nat -> nat -> nat -> R }.

Definition n_atoms (d : fcdata) : nat := length (f_atom_r d).
Definition n_cells (d : fcdata) : nat := length (f_origins d).

Definition zmul3 (m : Z3) (s : Z3 * Z3 * Z3) : Z3 :=
  let '(a, b, c) := m in
  let '((s00, s01, s02), (s10, s11, s12), (s20, s21, s22)) := s in
  (a * s00 + b * s10 + c * s20, a * s01 + b * s11 + c * s21,
   a * s02 + b * s12 + c * s22)%Z.
Definition zadd3 (a b : Z3) : Z3 :=
  let '(x, y, z) := a in let '(u, v, w) := b in (x + u, y + v, z + w)%Z.
Definition zopp3 (a : Z3) : Z3 := let '(x, y, z) := a in (- x, - y, - z)%Z.
Definition zrows (s : Z3 * Z3 * Z3) : M3 :=
  let '(a, b, c) := s in (zvec a, zvec b, zvec c).

(** force_constants.py:1595-1598 *)
Definition ws_frac : list Z3 :=
  [(0,0,0); (0,0,1); (0,1,0); (0,1,1); (0,1,-1); (1,0,0); (1,0,1); (1,0,-1);
   (1,1,0); (1,1,1); (1,1,-1); (1,-1,0); (1,-1,1); (1,-1,-1)]%Z.

(** force_constants.py:1602 sc_vecs = sc_matrix . cell_vectors *)
Definition sc_vecs (d : fcdata) : M3 :=
  let '(a, b, c) := zrows (f_sc d) in
  (vmul a (f_cell d), vmul b (f_cell d), vmul c (f_cell d)).

(** force_constants.py:1603-1605; a zero-length point (singular supercell)
    divides by zero in the code. *)
Definition ws_list_norm (d : fcdata) : list V3 :=
  map (fun w => vscal (1 / dot w w) w)
      (tl (map (fun f => vmul (zvec f) (sc_vecs d)) ws_frac)).

(** force_constants.py:1608-1609 and 547-548: the images searched. *)
Definition sc_image_r (shells : Z) : list Z3 :=
  match get_all_origins (shells+1, shells+1, shells+1)%Z
                        (- shells, - shells, - shells)%Z 1 with
  | Ok l => l
  | Err _ => []
  end.

(** force_constants.py:1611-1613 *)
Definition sc_atom_cart (d : fcdata) (nc j : nat) : V3 :=
  vmul (vadd (zvec (nth nc (f_origins d) (0,0,0)%Z)) (nth j (f_atom_r d) vzero))
       (f_cell d).

(** force_constants.py:1627-1630: vector from j (cell nc, image m) to i. *)
Definition image_dist (d : fcdata) (nc i j : nat) (m : Z3) : V3 :=
  vsub (vsub (sc_atom_cart d 0 i) (sc_atom_cart d nc j))
       (vmul (zvec m) (sc_vecs d)).

(** force_constants.py:1634-1636, 1644-1646: cutoff 0.5*1.0 + 0.001 *)
Definition ws_cutoff : R := 1 / 2 + 1 / 1000.
Definition ws_pass (w : V3) (dist : V3) : bool := Rleb (Rabs (dot dist w)) ws_cutoff.

(** force_constants.py:1633-1658, the loop over Wigner-Seitz points: the
    surviving (nc, j, dist) entries are filtered point by point and the loop
    stops when none are left; what is left after the last point is saved. *)
Fixpoint ws_loop (ws : list V3) (surv : list (nat * nat * V3))
  : list (nat * nat * V3) :=
  match ws with
  | [] => surv
  | w :: ws' =>
      match filter (fun e => ws_pass w (snd e)) surv with
      | [] => []
      | s => ws_loop ws' s
      end
  end.

(** All (nc, j) with their vectors, row-major as NumPy stores them. *)
Definition all_pairs (d : fcdata) (i : nat) (m : Z3) : list (nat * nat * V3) :=
  flat_map (fun nc => map (fun j => (nc, j, image_dist d nc i j m))
                          (seq 0 (n_atoms d)))
           (seq 0 (n_cells d)).

(** The tables _sc_image_i[nc,i,j,:n] (before padding); n_sc_images is the
    length of each list. *)
Definition imtab := nat -> nat -> nat -> list nat.
Definition im_append (t : imtab) (nc i j im : nat) : imtab :=
  fun nc' i' j' =>
    if (Nat.eqb nc nc' && Nat.eqb i i' && Nat.eqb j j')%bool
    then t nc' i' j' ++ [im] else t nc' i' j'.

(** force_constants.py:1628-1658, body for atom i and image number im. *)
Definition image_step (d : fcdata) (i : nat) (t : imtab) (e : nat * Z3) : imtab :=
  let '(im, m) := e in
  fold_left (fun t e => let '(nc, j, _) := e in im_append t nc i j im)
            (ws_loop (ws_list_norm d) (all_pairs d i m)) t.

(** force_constants.py:1569-1661 _calculate_supercell_images *)
Definition sc_images (d : fcdata) (shells : Z) : imtab :=
  let ims := sc_image_r shells in
  fold_left (fun t i => fold_left (image_step d i) (combine (seq 0 (length ims)) ims) t)
            (seq 0 (n_atoms d))
            (fun _ _ _ => []).

(** force_constants.py:1661 np.max(n_sc_images) *)
Definition max_images (d : fcdata) (t : imtab) : nat :=
  fold_right Nat.max 0%nat
    (flat_map (fun nc => flat_map (fun i => map (fun j => length (t nc i j))
                                                (seq 0 (n_atoms d)))
                                  (seq 0 (n_atoms d)))
              (seq 0 (n_cells d))).

(** _sc_image_i[nc,i,j,:]: image numbers, then -1 up to the maximum. *)
Definition sc_image_i (d : fcdata) (t : imtab) (nc i j : nat) : list Z :=
  map Z.of_nat (t nc i j)
  ++ repeat (-1)%Z (max_images d t - length (t nc i j)).

(** force_constants.py:549-550 sc_origins (int32 wrap not modelled). *)
Definition sc_origins (d : fcdata) (shells : Z) : list Z3 :=
  map (fun m => zmul3 m (f_sc d)) (sc_image_r shells).

(** force_constants.py:595-598.  np.divide(..., where=n != 0) without out=
    leaves uninitialised memory where there are no images: [junk]. *)
Definition fc_img_weighted (t : imtab) (junk : nat -> nat -> nat -> R)
  (fc : nat -> nat -> nat -> R) (nc a b : nat) : R :=
  let n := length (t nc (a / 3)%nat (b / 3)%nat) in
  if Nat.eqb n 0 then junk nc a b else fc nc a b / INR n.

(** force_constants.py:926-932: phase list with a zero appended so that index
    -1 contributes nothing; sum over images. *)
Definition sc_phases (d : fcdata) (shells : Z) (q : V3) : list C :=
  calc_phases q (sc_origins d shells) ++ [Czero].
Definition sc_phase_sum (d : fcdata) (shells : Z) (t : imtab) (q : V3)
  (nc i j : nat) : C :=
  Csum (sc_image_i d t nc i j) (fun k => py_nth (sc_phases d shells q) k Czero).
Definition cell_phase (d : fcdata) (q : V3) (nc : nat) : C :=
  nth nc (calc_phases q (f_origins d)) Czero.

(** force_constants.py:934-938: dynamical matrix from weighted force
    constants; entry (a, b) uses the phase of atoms (a/3, b/3). *)
Definition dyn_mat (d : fcdata) (shells : Z) (t : imtab)
  (fcw : nat -> nat -> nat -> R) (q : V3) (a b : nat) : C :=
  Csum (seq 0 (n_cells d)) (fun nc =>
    Cscal (fcw nc a b)
      (Cmul (cell_phase d q nc) (sc_phase_sum d shells t q nc (a / 3) (b / 3)))).

(** force_constants.py:561-571 all_origins_cart[nc,i,j,n]. *)
Definition sc_origins_cart (d : fcdata) (shells : Z) : list V3 :=
  map (fun o => vmul (zvec o) (f_cell d)) (sc_origins d shells) ++ [vzero].
Definition all_origins_cart (d : fcdata) (shells : Z) (nc : nat) (k : Z) : V3 :=
  vadd (py_nth (sc_origins_cart d shells) k vzero)
       (vmul (zvec (nth nc (f_origins d) (0,0,0)%Z)) (f_cell d)).

(** force_constants.py:939-948: gradient of the dynamical matrix in Cartesian
    direction [l]. *)
Definition dyn_mat_grad (d : fcdata) (shells : Z) (t : imtab)
  (fcw : nat -> nat -> nat -> R) (q : V3) (a b l : nat) : C :=
  Csum (seq 0 (n_cells d)) (fun nc =>
    Cscal (fcw nc a b)
      (Cmul Ci (Csum (sc_image_i d t nc (a / 3) (b / 3)) (fun k =>
         Cscal (comp (all_origins_cart d shells nc k) l)
           (Cmul (py_nth (sc_phases d shells q) k Czero) (cell_phase d q nc)))))).

(** The whole chain for n_sc_shells = 2 (line 538), as used by
    calculate_qpoint_phonon_modes without dipole or ASR. *)
Definition interp_dyn_mat (d : fcdata) (junk : nat -> nat -> nat -> R)
  (q : V3) (a b : nat) : C :=
  let t := sc_images d 2 in
  dyn_mat d 2 t (fc_img_weighted t junk (f_fc d)) q a b.
Definition interp_dyn_mat_grad (d : fcdata) (junk : nat -> nat -> nat -> R)
  (q : V3) (a b l : nat) : C :=
  let t := sc_images d 2 in
  dyn_mat_grad d 2 t (fc_img_weighted t junk (f_fc d)) q a b l.

(** force_constants.py:576-579, 823: mass weighting by 1/sqrt(m_i m_j). *)
Definition mass_weight (mass : nat -> R) (m : nat -> nat -> C) (a b : nat) : C :=
  Cscal (1 / sqrt (mass (b / 3)%nat * mass (a / 3)%nat)) (m a b).

(** The Hermitian matrix np.linalg.eigh(m, UPLO='U') diagonalises: only the
    upper triangle is read (line 837), imaginary parts of the diagonal ignored. *)
Definition herm_upper (m : nat -> nat -> C) (a b : nat) : C :=
  if Nat.ltb a b then m a b
  else if Nat.ltb b a then Cconj (m b a)
  else RtoC (re (m a a)).

(** force_constants.py:842-844: eigenvalue to (signed) frequency. *)
Definition freq_of_eval (l : R) : R :=
  if Rlt_dec l 0 then sqrt (Rabs l) * -1 else sqrt (Rabs l).

(** force_constants.py:846-854: einsum('ij,ik,jkl->il', conj(e), e, grad)
    / (2*freq) for one mode with eigenvector [e], frequency [w]; [n] = 3*n_atoms. *)
Definition mode_gradient (n : nat) (e : nat -> C) (w : R)
  (grad : nat -> nat -> nat -> C) (l : nat) : C :=
  Cscal (1 / (2 * w))
    (Csum (seq 0 n) (fun j => Csum (seq 0 n) (fun k =>
       Cmul (Cmul (Cconj (e j)) (e k)) (grad j k l)))).

(** force_constants.py:848: mass weighting of the gradient. *)
Definition mass_weight_grad (mass : nat -> R) (g : nat -> nat -> nat -> C)
  (a b l : nat) : C :=
  Cscal (1 / sqrt (mass (b / 3)%nat * mass (a / 3)%nat)) (g a b l).
