(** Two descriptions of one crystal (C94).  Atom i of the second is atom [p i] of the first, at
    its place plus the shift [s] common to all atoms and the lattice vector [T i], and all
    Cartesian vectors v are v G, for an orthogonal matrix G.  Cells may be listed in another
    order and each may be replaced by any cell a supercell vector away. *)
From Verif Require Import Base Cpx Vec3 M_grid M_dos M_sf M_dynmat S_dynmat.
Open Scope R_scope.

Definition entry (m : M3) (a b : nat) : R := comp (row m a) b.
Definition orthogonal (G : M3) : Prop := forall a b, (a < 3)%nat -> (b < 3)%nat ->
  sumn 3 (fun x => entry G a x * entry G b x) = (if Nat.eqb a b then 1 else 0) /\
  sumn 3 (fun x => entry G x a * entry G x b) = (if Nat.eqb a b then 1 else 0).
Definition no_turn : M3 := ((1, 0, 0), (0, 1, 0), (0, 0, 1)).
(** p numbers n atoms in another way, and p' undoes it. *)
Definition renumbers (n : nat) (p p' : nat -> nat) : Prop := forall i, (i < n)%nat -> (p i < n)%nat /\ (p' i < n)%nat /\ p' (p i) = i /\ p (p' i) = i.
Definition turned_rows (m G : M3) : M3 := let '(a, b, c) := m in (vmul a G, vmul b G, vmul c G).
(** A table of 3 x 3 entries in the turned axes. *)
Definition turned_entry (G : M3) (f : nat -> nat -> R) (a b : nat) : R :=
  sumn 3 (fun a' => sumn 3 (fun b' => entry G a' a * entry G b' b * f a' b')).

Record frame := mkFrame { fr_p : nat -> nat; fr_p' : nat -> nat; fr_s : V3; fr_T : nat -> Z3; fr_G : M3; fr_c : nat -> nat -> nat -> nat }.
(** The first listed cell is number 0; cell [fr_c i j nc] of the first description holds what
    cell nc of the second one holds for the pair i, j. *)
Definition redescribes (F : frame) (d d' : fcdata) (mass mass' : nat -> R) : Prop :=
  let n := M_dynmat.n_atoms d in
  renumbers n (fr_p F) (fr_p' F) /\ orthogonal (fr_G F) /\
  M_dynmat.n_atoms d' = n /\ n_cells d' = n_cells d /\ f_sc d' = f_sc d /\ f_cell d' = turned_rows (f_cell d) (fr_G F) /\
  (forall i, (i < n)%nat -> mass' i = mass (fr_p F i) /\
     nth i (f_atom_r d') vzero = vadd (vadd (nth (fr_p F i) (f_atom_r d) vzero) (fr_s F)) (zvec (fr_T F i))) /\
  (forall i j, (i < n)%nat -> (j < n)%nat ->
     (forall nc nc', (nc < n_cells d)%nat -> (nc' < n_cells d)%nat -> fr_c F i j nc = fr_c F i j nc' -> nc = nc') /\
     forall nc, (nc < n_cells d)%nat -> (fr_c F i j nc < n_cells d)%nat /\
       same_mod_supercell (f_sc d) (nth (fr_c F i j nc) (f_origins d) (0,0,0)%Z)
         (zadd3 (nth nc (f_origins d') (0,0,0)%Z) (zadd3 (fr_T F j) (zopp3 (fr_T F i)))) /\
       forall a b, (a < 3)%nat -> (b < 3)%nat ->
         f_fc d' nc (3 * i + a)%nat (3 * j + b)%nat
         = turned_entry (fr_G F) (fun a' b' => f_fc d (fr_c F i j nc) (3 * fr_p F i + a')%nat (3 * fr_p F j + b')%nat) a b).

(** The same for the crystal, scattering lengths and Debye-Waller factors that structure factors use. *)
Definition redescribes_xtal (F : frame) (n : nat) (x x' : xtal) (sl sl' : nat -> R) : Prop :=
  recip x' = turned_rows (recip x) (fr_G F) /\
  forall i, (i < n)%nat -> mass x' i = mass x (fr_p F i) /\ sl' i = sl (fr_p F i) /\
    pos x' i = vadd (vadd (pos x (fr_p F i)) (fr_s F)) (zvec (fr_T F i)).
Definition turned_dw (F : frame) (w w' : dwaller) : Prop :=
  dw_n w' = dw_n w /\ dw_t w' = dw_t w /\
  forall i a b, (i < dw_n w)%nat -> (a < 3)%nat -> (b < 3)%nat -> dw_w w' i a b = turned_entry (fr_G F) (dw_w w (fr_p F i)) a b.

(** The table of modes e of the second description seen in the first: u holds a factor for each
    q-point and atom. *)
Definition seen_table (F : frame) (u : nat -> nat -> C) (e : etable) : etable :=
  mkE (et e) (M_dos.n_atoms e) (fun q m k a =>
    Cmul (Cconj (u q (fr_p' F k))) (Csum (seq 0 3) (fun b => Cscal (entry (fr_G F) a b) (evec e q m (fr_p' F k) b)))).
(** Partial densities of states of the same atoms. *)
Definition same_atoms (F : frame) (n : nat) (l l' : list (list R)) : Prop :=
  length l = n /\ length l' = n /\ forall i, (i < n)%nat -> nth i l' [] = nth (fr_p F i) l [].
(** Cross sections and masses of the same atoms. *)
Definition same_sections (F : frame) (n : nat) (s s' : (nat -> R) * (nat -> R)) : Prop :=
  forall i, (i < n)%nat -> fst s' i = fst s (fr_p F i) /\ snd s' i = snd s (fr_p F i).
(** The same symmetry operation of the crystal in both descriptions: it sends each of the n atoms to one atom, no two to the same. *)
Definition same_op (F : frame) (n : nat) (o o' : symop) : Prop :=
  (forall i, (i < n)%nat -> (image o i < n)%nat /\ image o (fr_p F i) = fr_p F (image o' i) /\ (image o' i < n)%nat) /\
  (forall i j, (i < n)%nat -> (j < n)%nat -> image o i = image o j -> i = j) /\
  forall a b, (a < 3)%nat -> (b < 3)%nat -> rotc o' a b = turned_entry (fr_G F) (rotc o) a b.

(** Born charges and dielectric tensor of the two descriptions.  With charges the crystal is not turned and its atoms stay in their unit cells. *)
Definition same_charges (F : frame) (n : nat) (born born' : option (nat -> M3)) (diel diel' : M3) : Prop :=
  match born, born' with
  | None, None => True
  | Some b, Some b' => fr_G F = no_turn /\ (forall i, (i < n)%nat -> fr_T F i = (0,0,0)%Z) /\ diel' = diel /\ forall i, (i < n)%nat -> b' i = b (fr_p F i)
  | _, _ => False
  end.
