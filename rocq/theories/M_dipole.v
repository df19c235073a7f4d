(** Model: dipole-dipole (Ewald) correction and non-analytic gamma correction,
    Python side.  /repo/euphonic/force_constants.py:954-1235, 1279-1319.
    Floats are reals; quantities are in atomic units.  [erfc] (scipy.special)
    is a parameter everywhere.  Division by zero (coincident atoms, singular
    dielectric tensor) gives inf/nan in the code and is not modelled. *)
From Verif Require Import Base Cpx Vec3 M_grid M_cell M_qpts M_dynmat.
Open Scope R_scope.

Definition mget (m : M3) (a b : nat) : R := comp (row m a) b.

(** np.linalg.inv of a 3x3 matrix in exact arithmetic (adjugate / det). *)
Definition inv3 (m : M3) : M3 :=
  let '((a1, a2, a3), (b1, b2, b3), (c1, c2, c3)) := m in
  let d := det3 m in
  (((b2 * c3 - b3 * c2) / d, (a3 * c2 - a2 * c3) / d, (a2 * b3 - a3 * b2) / d),
   ((b3 * c1 - b1 * c3) / d, (a1 * c3 - a3 * c1) / d, (a3 * b1 - a1 * b3) / d),
   ((b1 * c2 - b2 * c1) / d, (a2 * c1 - a1 * c2) / d, (a1 * b2 - a2 * b1) / d)).

Definition Cdiv (a b : C) : C := Cmul a (Cinv b).
Definition Cabs (z : C) : R := sqrt (Cnorm2 z).
(** np.amax *)
Definition amax (l : list R) : R := fold_right Rmax (hd 0 l) (tl l).

(** What _dipole_correction_init stores (force_constants.py:1127-1134), one
    list element per cell / G vector.  H_ab rows are functions of the compact
    (upper triangular) element number and a, b; gvec_phases rows are lists over
    atoms. *)
Record dipdata := mkDip {
  dd_lambda : R;
  dd_H : list (nat -> nat -> nat -> R);
  dd_cells : list Z3;
  dd_gcart : list V3;
  dd_gph : list (list C);
  dd_q0 : nat -> nat -> nat -> C }.

(** force_constants.py:1038: idx = np.sum(range(n_atoms - i, n_atoms)); the
    element number of (i, j) is idx + j. *)
Definition hidx (n i : nat) : nat := fold_right Nat.add 0%nat (seq (n - i) i).

(** force_constants.py:1042-1057: one 3x3 block of H_ab. *)
Definition H_block (erfc : R -> R) (lambda_2 : R) (inv_e : M3)
  (rij_cart rij_e cell_cart cell_e : V3) (a b : nat) : R :=
  let diff := vsub rij_cart cell_cart in
  let delta := vsub rij_e cell_e in
  let norms_2 := dot delta diff * lambda_2 in
  let norms := sqrt norms_2 in
  let exp_term := 2 * exp (- norms_2) / (sqrt PI * norms_2) in
  let erfc_term := erfc norms / (norms * norms_2) in
  let f1 := lambda_2 * (3 * erfc_term / norms_2 + exp_term * (3 / norms_2 + 2)) in
  let f2 := erfc_term + exp_term in
  f1 * (comp delta a * comp delta b) - f2 * mget inv_e a b.

(** force_constants.py:1033-1057, for one shell number and one of its cells:
    H_ab_tmp[cell], initially zero, filled for i <= j except i = j in shell 0. *)
Definition H_row (erfc : R -> R) (lambda_2 : R) (cell inv_e : M3) (atom_r : list V3)
  (shell : nat) (c : Z3) : nat -> nat -> nat -> R :=
  let n := length atom_r in
  let cart := fun i => vmul (nth i atom_r vzero) cell in
  let cell_cart := vmul (zvec c) cell in
  let cell_e := vmul cell_cart inv_e in
  fold_left (fun h i =>
    fold_left (fun h j =>
      if (Nat.eqb shell 0 && Nat.eqb i j)%bool then h else
      let rij_cart := vsub (cart i) (cart j) in
      let rij_e := vsub (vmul (cart i) inv_e) (vmul (cart j) inv_e) in
      fun k a b => if Nat.eqb k (hidx n i + j)
                   then H_block erfc lambda_2 inv_e rij_cart rij_e cell_cart cell_e a b
                   else h k a b)
      (seq i (n - i)) h)
    (seq 0 n) (fun _ _ _ => 0).

(** force_constants.py:1322 _get_shell_origins (an error cannot occur for
    shell numbers >= 0). *)
Definition shell (n : nat) : list Z3 :=
  match get_shell_origins (Z.of_nat n) with Ok l => l | Err _ => [] end.

Definition frac_tol : R := / 10 ^ 15.

(** np.sum(range(1, n_atoms + 1)), force_constants.py:1025 *)
Definition n_elems (n : nat) : nat := fold_right Nat.add 0%nat (seq 1 n).

Definition idx3 : list nat := [0; 1; 2]%nat.
Definition H_amax (n : nat) (hs : list (nat -> nat -> nat -> R)) : R :=
  amax (flat_map (fun h => flat_map (fun k => flat_map (fun a => map (fun b =>
          Rabs (h k a b)) idx3) idx3) (seq 0 (n_elems n))) hs).

(** force_constants.py:1031-1067: shells are added until one is below the
    tolerance relative to shell 0 (or 50 are done). *)
Fixpoint real_shells (mk : nat -> Z3 -> nat -> nat -> nat -> R) (n : nat)
  (todo : list nat) (r0_max : R) : list Z3 * list (nat -> nat -> nat -> R) :=
  match todo with
  | [] => ([], [])
  | s :: todo' =>
      let h := map (mk s) (shell s) in
      let m := H_amax n h in
      let r0 := if Nat.eqb s 0 then m else r0_max in
      if Rltb (frac_tol * r0) m then
        let '(cs, hs) := real_shells mk n todo' r0 in (shell s ++ cs, h ++ hs)
      else ([], [])
  end.

(** Values k_a k_b exp(-k2)/k2 with k2 = k.e.k/(4 lambda^2), for one vector k
    (force_constants.py:1086-1090 and 1202-1206). *)
Definition k_len_2 (diel : M3) (lambda_2 : R) (k : V3) : R :=
  Sum idx3 (fun a => Sum idx3 (fun b => comp k a * comp k b * mget diel a b)) / (4 * lambda_2).
Definition recip_term (diel : M3) (lambda_2 : R) (k : V3) (a b : nat) : R :=
  comp k a * comp k b * (exp (- k_len_2 diel lambda_2 k) / k_len_2 diel lambda_2 k).

(** force_constants.py:1091-1098: recip_q0_tmp of one shell (zero below the
    diagonal). [gs]: Cartesian vectors and phases. *)
Definition recip_q0_tmp (diel : M3) (lambda_2 : R) (gs : list (V3 * list C))
  (i j a b : nat) : C :=
  if Nat.ltb j i then Czero else
  Csum gs (fun g => Cscal (recip_term diel lambda_2 (fst g) a b)
                          (Cdiv (nth i (snd g) Czero) (nth j (snd g) Czero))).

Definition block_amax (n : nat) (m : nat -> nat -> nat -> nat -> C) : R :=
  amax (flat_map (fun i => flat_map (fun j => flat_map (fun a => map (fun b =>
          Cabs (m i j a b)) idx3) idx3) (seq 0 n)) (seq 0 n)).

Definition g_row (recip : M3) (atom_r : list V3) (g : Z3) : V3 * list C :=
  (vmul (zvec g) recip, map (fun r => cis (2 * PI * dot (zvec g) r)) atom_r).

(** force_constants.py:1080-1107: shells 1.. until below tolerance relative to
    shell 1; [acc] is recip_q0. *)
Fixpoint recip_shells (diel recip : M3) (lambda_2 : R) (atom_r : list V3)
  (todo : list nat) (first_max : R) (acc : nat -> nat -> nat -> nat -> C)
  : list (V3 * list C) * (nat -> nat -> nat -> nat -> C) :=
  match todo with
  | [] => ([], acc)
  | s :: todo' =>
      let gs := map (g_row recip atom_r) (shell s) in
      let t := recip_q0_tmp diel lambda_2 gs in
      let m := block_amax (length atom_r) t in
      let f := if Nat.eqb s 1 then m else first_max in
      if Rltb (frac_tol * f) m then
        let '(l, acc') := recip_shells diel recip lambda_2 atom_r todo' f
                            (fun i j a b => Cadd (acc i j a b) (t i j a b)) in
        (gs ++ l, acc')
      else ([], acc)
  end.

(** np.triu_indices(n): pairs (i, j), i <= j, row by row. *)
Definition triu (n : nat) : list (nat * nat) :=
  flat_map (fun i => map (fun j => (i, j)) (seq i (n - i))) (seq 0 n).
Fixpoint pair_index (i j : nat) (l : list (nat * nat)) : option nat :=
  match l with
  | [] => None
  | (x, y) :: l' => if (Nat.eqb x i && Nat.eqb y j)%bool then Some 0%nat
                    else option_map S (pair_index i j l')
  end.
(** m = zeros; m[np.triu_indices(n)] = compact *)
Definition triu_fill {A} (z : A) (n : nat) (compact : nat -> nat -> nat -> A)
  (i j a b : nat) : A :=
  match pair_index i j (triu n) with Some k => compact k a b | None => z end.

(** force_constants.py:1010-1019 *)
Definition upper_lambda (cell diel : M3) (n : nat) (dipole_parameter : R) : R :=
  let abc := norm (row cell 0) * norm (row cell 1) * norm (row cell 2) in
  sqrt PI / Rpower abc (1 / 3) * Rpower (INR n) (1 / 6)
    * Rpower (np_linalg_det diel) (1 / 6) * dipole_parameter.

(** lambda^3 / sqrt(det(dielectric)), force_constants.py:1070, 1197 *)
Definition real_factor (lambda : R) (diel : M3) : R :=
  lambda ^ 3 / sqrt (np_linalg_det diel).

(** force_constants.py:1109-1113: the lower triangle is the conjugate of the
    upper one, without exchanging a and b. *)
Definition fill_lower (m : nat -> nat -> nat -> nat -> C) (i j a b : nat) : C :=
  if Nat.ltb j i then Cconj (m j i a b) else m i j a b.

(** force_constants.py:1115-1125: born_i[a,:] . (recip - real)[i,j] . born_j[b,:]
    summed over j, then symmetrised in a, b. *)
Definition born_contract (born : nat -> M3) (m : nat -> nat -> nat -> nat -> C)
  (i j a b : nat) : C :=
  Csum idx3 (fun a' => Csum idx3 (fun b' =>
    Cscal (mget (born i) a a' * mget (born j) b b') (m i j a' b'))).
Definition dipole_q0 (born : nat -> M3) (n : nat)
  (diff : nat -> nat -> nat -> nat -> C) (i a b : nat) : C :=
  let q0 := fun a b => Csum (seq 0 n) (fun j => born_contract born diff i j a b) in
  Cscal (1/2) (Cadd (q0 a b) (q0 b a)).

(** force_constants.py:954-1135 _dipole_correction_init *)
Definition dipole_init (erfc : R -> R) (cell : M3) (atom_r : list V3)
  (born : nat -> M3) (diel : M3) (dipole_parameter : R) : dipdata :=
  let n := length atom_r in
  let recip := reciprocal_cell cell in
  let inv_e := inv3 diel in
  let lambda := upper_lambda cell diel n dipole_parameter in
  let lambda_2 := lambda ^ 2 in
  let '(cells, H) := real_shells (H_row erfc lambda_2 cell inv_e atom_r) n (seq 0 50) 0 in
  let real_q0 := fun i j a b =>
    Cscal (real_factor lambda diel)
      (triu_fill Czero n (fun k a b => RtoC (Sum H (fun h => h k a b))) i j a b) in
  let g0 := (vzero, repeat Cone n) in
  let '(gs, recip_sum) :=
    recip_shells diel recip lambda_2 atom_r (seq 1 49) 0 (fun _ _ _ _ => Czero) in
  let recip_q0 := fun i j a b =>
    Cscal (PI / (cell_volume cell * lambda_2)) (recip_sum i j a b) in
  mkDip lambda H cells (map fst (g0 :: gs)) (map snd (g0 :: gs))
    (dipole_q0 born n
       (fun i j a b => Csub (fill_lower recip_q0 i j a b) (fill_lower real_q0 i j a b))).

(** force_constants.py:1182-1188: G vectors used at this q. *)
Definition used_g (dd : dipdata) (qn : V3) : list (V3 * list C) :=
  let l := combine (dd_gcart dd) (dd_gph dd) in
  if is_gamma qn then tl l else l.

(** force_constants.py:1190-1197: real-space term, upper triangle. *)
Definition real_dipole (diel : M3) (n : nat) (dd : dipdata) (qn : V3)
  (i j a b : nat) : C :=
  Cscal (real_factor (dd_lambda dd) diel)
    (triu_fill Czero n (fun k a b =>
       Csum (combine (dd_cells dd) (dd_H dd)) (fun ch =>
         Cscal (snd ch k a b) (cis (2 * PI * dot qn (zvec (fst ch)))))) i j a b).

(** force_constants.py:1199-1215: reciprocal-space term, upper triangle. *)
Definition recip_dipole (cell : M3) (atom_r : list V3) (diel : M3) (dd : dipdata)
  (qn : V3) (i j a b : nat) : C :=
  let lambda_2 := dd_lambda dd ^ 2 in
  let q_phase := fun i => cis (2 * PI * dot qn (nth i atom_r vzero)) in
  let q_cart := vmul qn (reciprocal_cell cell) in
  if Nat.ltb j i then Czero else
  Cscal (PI / (cell_volume cell * lambda_2))
    (Csum (used_g dd qn) (fun g =>
       Cscal (recip_term diel lambda_2 (vadd (fst g) q_cart) a b)
             (Cdiv (Cmul (nth i (snd g) Czero) (q_phase i))
                   (Cmul (nth j (snd g) Czero) (q_phase j))))).

(** force_constants.py:1217-1223: m + mask*conj(transpose(m, [1,0,2,3])). *)
Definition add_lower (m : nat -> nat -> nat -> nat -> C) (i j a b : nat) : C :=
  Cadd (m i j a b) (if Nat.ltb j i then Cconj (m j i a b) else Czero).

(** force_constants.py:1225-1235: Born charges, subtraction of the q=0 term,
    and the final (3n, 3n) layout. *)
Definition dipole_correction (cell : M3) (atom_r : list V3) (born : nat -> M3)
  (diel : M3) (dd : dipdata) (q : V3) (x y : nat) : C :=
  let n := length atom_r in
  let qn := qnorm q in
  let diff := fun i j a b =>
    Csub (add_lower (recip_dipole cell atom_r diel dd qn) i j a b)
         (add_lower (real_dipole diel n dd qn) i j a b) in
  let i := (x / 3)%nat in let a := (x mod 3)%nat in
  let j := (y / 3)%nat in let b := (y mod 3)%nat in
  let v := born_contract born diff i j a b in
  if Nat.eqb i j then Csub v (dd_q0 dd i a b) else v.

(** force_constants.py:1279-1319 _calculate_gamma_correction *)
Definition gamma_correction (cell : M3) (born : nat -> M3) (diel : M3) (q_dir : V3)
  (x y : nat) : C :=
  if is_gamma q_dir then Czero else
  let q := vmul q_dir (reciprocal_cell cell) in
  let denominator :=
    Sum idx3 (fun a => Sum idx3 (fun b => mget diel a b * comp q a * comp q b)) in
  let factor := 4 * PI / (cell_volume cell * denominator) in
  let q_born_sum := fun i a => Sum idx3 (fun b => mget (born i) a b * comp q b) in
  RtoC (q_born_sum (x / 3)%nat (x mod 3)%nat * q_born_sum (y / 3)%nat (y mod 3)%nat * factor).
