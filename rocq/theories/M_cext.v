(** Model: the C extension, /repo/c/dyn_mat.c, /repo/c/util.c and the body of
    the q-point loop of /repo/c/_euphonic.c, over flat memory.  A [double*] is a
    function from offsets to reals, an [int*] one to integers; doubles are
    reals and int arithmetic does not overflow (not modelled).  Loops, strides
    and the order of updates follow the C text. *)
From Verif Require Import Base Cpx Vec3 M_grid M_cell M_qpts M_dynmat M_dipole.
Open Scope R_scope.

Notation mem := (nat -> R).
Notation imem := (nat -> Z).

Definition mset (m : mem) (k : nat) (v : R) : mem := fun x => if Nat.eqb x k then v else m x.
Definition madd (m : mem) (k : nat) (v : R) : mem := mset m k (m k + v).
(** memset(p, 0, size*sizeof(double)) *)
Definition memset0 (size : nat) (m : mem) : mem := fun x => if Nat.ltb x size then 0 else m x.
(** for (k = lo; k < hi; k++) *)
Definition for_ {S} (lo hi : nat) (body : nat -> S -> S) (s : S) : S :=
  fold_left (fun s k => body k s) (seq lo (hi - lo)) s.

(** util.c:3-8 *)
Definition add_arrays (size : nat) (arr1 arr2 : mem) : mem :=
  for_ 0 size (fun i m => madd m i (arr1 i)) arr2.
(** util.c:10-15 *)
Definition multiply_array (size : nat) (scalar : R) (arr : mem) : mem :=
  for_ 0 size (fun i m => mset m i (m i * scalar)) arr.
(** util.c:63-71, on (re, im) pairs *)
Definition cmult (c1 c2 : R * R) : R * R :=
  (fst c1 * fst c2 - snd c1 * snd c2, fst c1 * snd c2 + snd c1 * fst c2).
Definition cmult_conj (c1 c2 : R * R) : R * R :=
  (fst c1 * fst c2 + snd c1 * snd c2, - fst c1 * snd c2 + snd c1 * fst c2).
Definition at2 (m : mem) (k : nat) : R * R := (m k, m (k + 1)%nat).
Definition mat9 (m : mem) : M3 :=
  ((m 0%nat, m 1%nat, m 2%nat), (m 3%nat, m 4%nat, m 5%nat), (m 6%nat, m 7%nat, m 8%nat)).
Definition vec3 (m : mem) : V3 := (m 0%nat, m 1%nat, m 2%nat).

(** dyn_mat.c:50-56: phase of image [sc] of cell [nc]. *)
Definition c_phase (qpt : mem) (cell_origins sc_origins : imem) (sc : Z) (nc : nat) : R * R :=
  let qdotr := for_ 0 3 (fun k s =>
    s + qpt k * IZR (sc_origins (Z.to_nat (3 * sc + Z.of_nat k)) + cell_origins (3 * nc + k)%nat)) 0 in
  (cos (2 * PI * qdotr), - sin (2 * PI * qdotr)).

(** dyn_mat.c:43-68: phase_sum[2] and rcart_sum[6] for one (i, j, nc). *)
Definition c_image_sums (qpt : mem) (n max_images : nat) (n_sc_images sc_image_i cell_origins
  sc_origins : imem) (aoc : mem) (grad : bool) (i j nc : nat) : R * R * mem :=
  for_ 0 (Z.to_nat (n_sc_images (nc * (n * n) + i * n + j)%nat)) (fun k st =>
    let '(p0, p1, rs) := st in
    let sc_img_idx := (nc * (n * n * max_images) + i * (n * max_images) + j * max_images + k)%nat in
    let '(c, s) := c_phase qpt cell_origins sc_origins (sc_image_i sc_img_idx) nc in
    (p0 + c, p1 + s,
     if grad then
       for_ 0 3 (fun l rs =>
         let rcart := aoc (3 * sc_img_idx + l)%nat in
         madd (madd rs (2 * l) (s * rcart)) (2 * l + 1) (c * rcart)) rs
     else rs))
  (0, 0, fun _ => 0).

(** dyn_mat.c:13-106 calculate_dyn_mat_at_q *)
Definition c_dyn_mat (qpt : mem) (n n_cells max_images : nat) (n_sc_images sc_image_i cell_origins
  sc_origins : imem) (fc aoc : mem) (grad : bool) (dyn_mat dmat_grad : mem) : mem * mem :=
  let s_fc := (9 * n * n)%nat in
  let dm0 := memset0 (2 * 9 * n * n) dyn_mat in
  let dg0 := if grad then memset0 (3 * 2 * 9 * n * n) dmat_grad else dmat_grad in
  let '(dm, dg) :=
    for_ 0 n (fun i => for_ i n (fun j => for_ 0 n_cells (fun nc st =>
      let '(p0, p1, rs) := c_image_sums qpt n max_images n_sc_images sc_image_i cell_origins
                             sc_origins aoc grad i j nc in
      for_ 0 3 (fun ii => for_ 0 3 (fun jj st =>
        let '(dm, dg) := st in
        let idx := ((3 * i + ii) * 3 * n + 3 * j + jj)%nat in
        (madd (madd dm (2 * idx) (p0 * fc (nc * s_fc + idx)%nat))
              (2 * idx + 1) (p1 * fc (nc * s_fc + idx)%nat),
         if grad then
           for_ 0 3 (fun k dg =>
             madd (madd dg (6 * idx + 2 * k) (rs (2 * k)%nat * fc (nc * s_fc + idx)%nat))
                  (6 * idx + 2 * k + 1) (rs (2 * k + 1)%nat * fc (nc * s_fc + idx)%nat)) dg
         else dg))) st))) (dm0, dg0) in
  (dm,
   if grad then
     for_ 1 n (fun i => for_ 0 i (fun j => for_ 0 3 (fun ii => for_ 0 3 (fun jj =>
       let idx := (6 * ((3 * i + ii) * 3 * n + 3 * j + jj))%nat in
       let idx_t := (6 * ((3 * j + jj) * 3 * n + 3 * i + ii))%nat in
       for_ 0 3 (fun k dg =>
         let dg1 := mset dg (idx + 2 * k) (dg (idx_t + 2 * k)%nat) in
         mset dg1 (idx + 2 * k + 1) (- dg1 (idx_t + 2 * k + 1)%nat)))))) dg
   else dg).

(** Upper-block offset used by every correction: 2*(3*(3i+a)*n + 3j + b). *)
Definition cidx (n i j a b : nat) : nat := (2 * (3 * (3 * i + a) * n + 3 * j + b))%nat.

(** dyn_mat.c:139-162: real-space loop with its running pointer into H_ab. *)
Definition c_real_loop (qn : mem) (n : nat) (H cells : mem) (n_dcells : nat) (corr : mem) : mem :=
  fst (for_ 0 n_dcells (fun nc =>
    let qdotr := for_ 0 3 (fun a s => s + qn a * cells (3 * nc + a)%nat) 0 in
    let p0 := cos (2 * PI * qdotr) in
    let p1 := - sin (2 * PI * qdotr) in
    for_ 0 n (fun i => for_ i n (fun j => for_ 0 3 (fun a => for_ 0 3 (fun b st =>
      let '(corr, ptr) := st in
      let idx := cidx n i j a b in
      (madd (madd corr idx (- (p0 * H ptr))) (idx + 1) (- (p1 * H ptr)), S ptr))))))
    (corr, 0%nat)).

(** dyn_mat.c:197-229: reciprocal-space loop. *)
Definition c_recip_loop (qn recip atom_r diel_lambda : mem) (fac : R) (n n_gvecs : nat)
  (gph gcart : mem) (corr : mem) : mem :=
  let q_cart := fun a => for_ 0 3 (fun b s => s + qn b * recip (3 * b + a)%nat) 0 in
  let q_phase := fun i =>
    let qdotr := for_ 0 3 (fun a s => s + qn a * atom_r (3 * i + a)%nat) 0 in
    (cos (2 * PI * qdotr), - sin (2 * PI * qdotr)) in
  for_ 0 n_gvecs (fun ng =>
    let kvec := fun a => gcart (3 * ng + a)%nat + q_cart a in
    let k_len_2 := for_ 0 3 (fun a => for_ 0 3 (fun b s =>
                     s + kvec a * kvec b * diel_lambda (3 * a + b)%nat)) 0 in
    let k_ab_exp := fun a b => kvec a * kvec b * (exp (- k_len_2) / k_len_2) in
    for_ 0 n (fun i =>
      let ri := cmult_conj (q_phase i) (at2 gph (2 * (ng * n + i))) in
      for_ i n (fun j =>
        let rj := cmult_conj (q_phase j) (at2 gph (2 * (ng * n + j))) in
        let rij := cmult_conj ri rj in
        for_ 0 3 (fun a => for_ 0 3 (fun b corr =>
          let idx := cidx n i j a b in
          madd (madd corr idx (fac * fst rij * k_ab_exp a b))
               (idx + 1) (fac * snd rij * k_ab_exp a b)))))) corr.

(** dyn_mat.c:232-271: Born charges block by block in place, then the q=0 term
    from the diagonal block of row i. *)
Definition c_born_loop (n : nat) (born q0 : mem) (corr : mem) : mem :=
  for_ 0 n (fun i corr =>
    let corr := for_ i n (fun j corr =>
      let tmp := for_ 0 3 (fun a => for_ 0 3 (fun b => for_ 0 3 (fun aa => for_ 0 3 (fun bb tmp =>
        let idx := cidx n i j aa bb in
        let born_fac := born (9 * i + 3 * a + aa)%nat * born (9 * j + 3 * b + bb)%nat in
        madd (madd tmp (6 * a + 2 * b) (born_fac * corr idx))
             (6 * a + 2 * b + 1) (born_fac * corr (idx + 1)%nat))))) (fun _ => 0) in
      for_ 0 3 (fun a => for_ 0 3 (fun b corr =>
        let idx := cidx n i j a b in
        mset (mset corr idx (tmp (6 * a + 2 * b)%nat)) (idx + 1) (tmp (6 * a + 2 * b + 1)%nat))) corr)
      corr in
    for_ 0 3 (fun a => for_ 0 3 (fun b corr =>
      let idx := cidx n i i a b in
      madd (madd corr idx (- q0 (18 * i + 6 * a + 2 * b)%nat))
           (idx + 1) (- q0 (18 * i + 6 * a + 2 * b + 1)%nat))) corr) corr.

(** dyn_mat.c:108-273 calculate_dipole_correction *)
Definition c_dipole (qpt : mem) (n : nat) (cell_vec recip atom_r born dielectric H cells : mem)
  (n_dcells : nat) (gph gcart : mem) (n_gvecs : nat) (q0 : mem) (lambda : R) (corr : mem) : mem :=
  let qn := fun a => qpt a - IZR (c_round (qpt a)) in
  let gam := c_is_gamma (vec3 qn) in
  let gph' := if gam then fun k => gph (2 * n + k)%nat else gph in
  let gcart' := if gam then fun k => gcart (3 + k)%nat else gcart in
  let ng := if gam then (n_gvecs - 1)%nat else n_gvecs in
  let corr := memset0 (2 * 9 * n * n) corr in
  let corr := c_real_loop qn n H cells n_dcells corr in
  let corr := multiply_array (2 * 9 * n * n) (lambda ^ 3 / sqrt (c_det_array (mat9 dielectric))) corr in
  let diel_lambda := fun a => dielectric a / (4 * lambda ^ 2) in
  let fac := PI / (c_cell_volume (mat9 cell_vec) * lambda ^ 2) in
  let corr := c_recip_loop qn recip atom_r diel_lambda fac n ng gph' gcart' corr in
  c_born_loop n born q0 corr.

(** dyn_mat.c:275-325 calculate_gamma_correction *)
Definition c_gamma (q_dir : mem) (n : nat) (cell_vec recip born dielectric : mem) (corr : mem) : mem :=
  if c_is_gamma (vec3 q_dir) then memset0 (2 * 9 * n * n) corr else
  let qc := fun a => for_ 0 3 (fun b s => s + recip (3 * b + a)%nat * q_dir b) 0 in
  let den := for_ 0 3 (fun a => for_ 0 3 (fun b s =>
               s + dielectric (3 * a + b)%nat * qc a * qc b)) 0 in
  let fac := 4 * PI / (c_cell_volume (mat9 cell_vec) * den) in
  let qbs := for_ 0 n (fun i => for_ 0 3 (fun a => for_ 0 3 (fun b m =>
               madd m (3 * i + a) (born (9 * i + 3 * a + b)%nat * qc b)))) (fun _ => 0) in
  for_ 0 n (fun i => for_ i n (fun j => for_ 0 3 (fun a => for_ 0 3 (fun b corr =>
    mset corr (cidx n i j a b) (fac * qbs (3 * i + a)%nat * qbs (3 * j + b)%nat))))) corr.

(** dyn_mat.c:327-338 *)
Definition c_mass_weight (w : mem) (n repeats : nat) (dm : mem) : mem :=
  for_ 0 (9 * n * n) (fun i => for_ 0 repeats (fun j dm =>
    mset dm (repeats * i + j) (dm (repeats * i + j)%nat * w i))) dm.

(** dyn_mat.c:340-386: the Hermitian matrix that zheevd(jobz='V', uplo='L')
    sees in column-major memory of order [N] (LAPACK reads only the lower
    triangle and ignores imaginary parts of the diagonal). *)
Definition cget (m : mem) (k : nat) : C := mkC (m (2 * k)%nat) (m (2 * k + 1)%nat).
Definition zheevd_matrix (N : nat) (m : mem) (r c : nat) : C :=
  if Nat.ltb c r then cget m (c * N + r)%nat
  else if Nat.ltb r c then Cconj (cget m (r * N + c)%nat)
  else RtoC (re (cget m (r * N + r)%nat)).

(** dyn_mat.c:388-396, copysign(sqrt(fabs(x)), x) (a real number has no
    negative zero). *)
Definition c_freq (x : R) : R :=
  let s := sqrt (Rabs x) in if Rlt_dec x 0 then - s else s.

(** dyn_mat.c:398-426 calculate_mode_gradients; [evals] already frequencies. *)
Definition c_mode_gradients (n : nat) (evals evecs dmat_grad modeg : mem) : mem :=
  let mode_s := (2 * 3 * n)%nat in
  for_ 0 (3 * n) (fun m => for_ 0 n (fun i => for_ 0 3 (fun a => for_ 0 n (fun j => for_ 0 3 (fun b =>
    for_ 0 3 (fun k modeg =>
      let e := cmult_conj (at2 evecs (m * mode_s + 6 * j + 2 * b))
                          (at2 evecs (m * mode_s + 6 * i + 2 * a)) in
      let grad_idx := (3 * (3 * i + a) * mode_s + 3 * (6 * j + 2 * b) + 2 * k)%nat in
      let v := cmult (at2 dmat_grad grad_idx) e in
      madd (madd modeg (6 * m + 2 * k) (1/2 * fst v / evals m))
           (6 * m + 2 * k + 1) (1/2 * snd v / evals m))))))) modeg.

(** Arguments of calculate_phonons that do not depend on the q-point
    (_euphonic.c:14-185), after PyArray_DATA. *)
Record c_dip := mkCDip {
  cd_atom_r : mem; cd_born : mem; cd_diel : mem; cd_H : mem; cd_cells : mem; cd_ncells : nat;
  cd_gph : mem; cd_gcart : mem; cd_ngvecs : nat; cd_q0 : mem; cd_lambda : R }.
Record c_args := mkCArgs {
  ca_n : nat; ca_ncells : nat; ca_max : nat;
  ca_nims : imem; ca_ims : imem; ca_cell_ogs : imem; ca_sc_ogs : imem;
  ca_fc : mem; ca_aoc : mem; ca_cell : mem; ca_recip : mem; ca_weight : mem;
  ca_dip : option c_dip; ca_asr : option mem; ca_grad : bool }.

(** _euphonic.c:222-263: the matrix built for one q-point; [q_dir] is the
    pointer found by the split_idx lookup when splitting applies.  [corr] is
    the thread's scratch array. *)
Definition c_matrix (A : c_args) (qpt : mem) (q_dir : option mem) (dmat dgrad corr : mem) : mem * mem :=
  let n := ca_n A in
  let size := (2 * 9 * n * n)%nat in
  let '(dm, dg) := c_dyn_mat qpt n (ca_ncells A) (ca_max A) (ca_nims A) (ca_ims A)
                     (ca_cell_ogs A) (ca_sc_ogs A) (ca_fc A) (ca_aoc A) (ca_grad A) dmat dgrad in
  let '(dm, corr) :=
    match ca_dip A with
    | Some D =>
        let corr := c_dipole qpt n (ca_cell A) (ca_recip A) (cd_atom_r D) (cd_born D) (cd_diel D)
                      (cd_H D) (cd_cells D) (cd_ncells D) (cd_gph D) (cd_gcart D) (cd_ngvecs D)
                      (cd_q0 D) (cd_lambda D) corr in
        (add_arrays size corr dm, corr)
    | None => (dm, corr)
    end in
  let dm := match ca_asr A with Some c => add_arrays size c dm | None => dm end in
  let dm :=
    match q_dir, ca_dip A with
    | Some qd, Some D =>
        add_arrays size (c_gamma qd n (ca_cell A) (ca_recip A) (cd_born D) (cd_diel D) corr) dm
    | _, _ => dm
    end in
  (c_mass_weight (ca_weight A) n 2 dm,
   if ca_grad A then c_mass_weight (ca_weight A) n 6 dg else dg).

(** _euphonic.c:261-270: eigenvalues to frequencies and mode gradients.  The
    LAPACK routine is [eigh N H], giving eigenvalue m and component r of
    eigenvector m; eigenvectors land in memory mode by mode. *)
Definition c_one_q (eigh : nat -> (nat -> nat -> C) -> (nat -> R) * (nat -> nat -> C))
  (A : c_args) (qpt : mem) (q_dir : option mem) (dmat dgrad corr : mem) : mem * mem * mem :=
  let N := (3 * ca_n A)%nat in
  let '(dm, dg) := c_matrix A qpt q_dir dmat dgrad corr in
  let '(ev, vec) := eigh N (zheevd_matrix N dm) in
  let freqs := fun m => c_freq (ev m) in
  let evecs := fun k => let z := vec (k / 2 / N)%nat ((k / 2) mod N)%nat in
                        if Nat.even k then re z else im z in
  (freqs, evecs,
   if ca_grad A then c_mode_gradients (ca_n A) freqs evecs dg (fun _ => 0) else fun _ => 0).

(** ** What Python hands to C (force_constants.py:657-693): C-contiguous arrays
    of the right element type (_ensure_contiguous_args, validate.py:139-180),
    complex numbers as interleaved (re, im). *)
Definition pack2 {A} (d1 : nat) (f : nat -> nat -> A) (k : nat) : A := f (k / d1)%nat (k mod d1)%nat.
Definition pack3 {A} (d1 d2 : nat) (f : nat -> nat -> nat -> A) (k : nat) : A :=
  f (k / (d1 * d2))%nat ((k / d2) mod d1)%nat (k mod d2)%nat.
Definition pack4 {A} (d1 d2 d3 : nat) (f : nat -> nat -> nat -> nat -> A) (k : nat) : A :=
  f (k / (d1 * d2 * d3))%nat ((k / (d2 * d3)) mod d1)%nat ((k / d3) mod d2)%nat (k mod d3)%nat.
Definition cpack (f : nat -> C) : mem :=
  fun k => if Nat.even k then re (f (k / 2)%nat) else im (f (k / 2)%nat).
Definition zcomp (p : Z3) (k : nat) : Z :=
  match k with O => zx p | 1%nat => zy p | _ => zz p end.

(** Dipole inputs of one call: Born charges, dielectric tensor, stored Ewald data. *)
Record dipin := mkDipin { di_born : nat -> M3; di_diel : M3; di_dd : dipdata }.

Definition marshal_dip (atom_r : list V3) (D : dipin) : c_dip :=
  let n := length atom_r in
  let dd := di_dd D in
  {| cd_atom_r := pack2 3 (fun i k => comp (nth i atom_r vzero) k);
     cd_born := pack3 3 3 (fun i => mget (di_born D i));
     cd_diel := pack2 3 (mget (di_diel D));
     cd_H := pack4 (n_elems n) 3 3 (fun nc => nth nc (dd_H dd) (fun _ _ _ => 0));
     cd_cells := pack2 3 (fun nc k => IZR (zcomp (nth nc (dd_cells dd) (0,0,0)%Z) k));
     cd_ncells := length (dd_cells dd);
     cd_gph := cpack (pack2 n (fun g i => nth i (nth g (dd_gph dd) []) Czero));
     cd_gcart := pack2 3 (fun g k => comp (nth g (dd_gcart dd) vzero) k);
     cd_ngvecs := length (dd_gph dd);
     cd_q0 := cpack (pack3 3 3 (dd_q0 dd));
     cd_lambda := dd_lambda dd |}.

(** [shells] = 2 in the code; the ASR correction goes over as conj().T (line 672). *)
Definition marshal (d : fcdata) (shells : Z) (t : imtab) (fcw : nat -> nat -> nat -> R)
  (mass : nat -> R) (dip : option dipin) (asr : option (nat -> nat -> C)) (grad : bool) : c_args :=
  let n := n_atoms d in
  let mx := max_images d t in
  {| ca_n := n; ca_ncells := n_cells d; ca_max := mx;
     ca_nims := pack3 n n (fun nc i j => Z.of_nat (length (t nc i j)));
     ca_ims := pack4 n n mx (fun nc i j k => nth k (sc_image_i d t nc i j) 0%Z);
     ca_cell_ogs := pack2 3 (fun nc => zcomp (nth nc (f_origins d) (0,0,0)%Z));
     ca_sc_ogs := pack2 3 (fun s => zcomp (nth s (sc_origins d shells) (0,0,0)%Z));
     ca_fc := pack3 (3 * n) (3 * n) fcw;
     ca_aoc := pack2 3 (fun idx l => pack4 n n mx (fun nc i j k =>
                 comp (all_origins_cart d shells nc (nth k (sc_image_i d t nc i j) 0%Z)) l) idx);
     ca_cell := pack2 3 (mget (f_cell d));
     ca_recip := pack2 3 (mget (reciprocal_cell (f_cell d)));
     ca_weight := pack2 (3 * n) (fun a b => 1 / sqrt (mass (b / 3)%nat * mass (a / 3)%nat));
     ca_dip := option_map (marshal_dip (f_atom_r d)) dip;
     ca_asr := option_map (fun A => cpack (pack2 (3 * n) (fun a b => Cconj (A b a)))) asr;
     ca_grad := grad |}.

Definition vmem (v : V3) : mem := fun k => comp v k.

(** ** The Python calculation at one q-point, force_constants.py:738-856. *)
Definition py_matrix (d : fcdata) (shells : Z) (t : imtab) (fcw : nat -> nat -> nat -> R)
  (mass : nat -> R) (dip : option dipin) (asr : option (nat -> nat -> C)) (q_dir : option V3)
  (q : V3) : nat -> nat -> C :=
  mass_weight mass (fun a b =>
    let m := dyn_mat d shells t fcw q a b in
    let m := match dip with
             | Some D => Cadd m (dipole_correction (f_cell d) (f_atom_r d) (di_born D) (di_diel D)
                                   (di_dd D) q a b)
             | None => m end in
    let m := match asr with Some A => Cadd m (A a b) | None => m end in
    match q_dir, dip with
    | Some v, Some D => Cadd m (gamma_correction (f_cell d) (di_born D) (di_diel D) v a b)
    | _, _ => m end).

(** Frequencies, eigenvectors and mode gradients; [eigh] stands for
    np.linalg.eigh on the Hermitian matrix read from the upper triangle. *)
Definition py_one_q (eigh : nat -> (nat -> nat -> C) -> (nat -> R) * (nat -> nat -> C))
  (d : fcdata) (shells : Z) (t : imtab) (fcw : nat -> nat -> nat -> R) (mass : nat -> R)
  (dip : option dipin) (asr : option (nat -> nat -> C)) (q_dir : option V3) (q : V3)
  : (nat -> R) * (nat -> nat -> C) * (nat -> nat -> C) :=
  let N := (3 * n_atoms d)%nat in
  let '(ev, vec) := eigh N (herm_upper (py_matrix d shells t fcw mass dip asr q_dir q)) in
  let freqs := fun m => freq_of_eval (ev m) in
  (freqs, vec,
   fun m l => mode_gradient N (vec m) (freqs m) (mass_weight_grad mass (dyn_mat_grad d shells t fcw q)) l).
