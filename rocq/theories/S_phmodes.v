(** Words for Phonopy's files of modes (C74, C75): the same modes written to the different
    files.  The layouts are Phonopy's: mesh.yaml, band.yaml and qpoints.yaml list for every
    mode its atoms and three pairs of numbers; mesh.hdf5, qpoints.hdf5 and band.hdf5 hold for
    every q-point a square array whose COLUMNS are the modes (as np.linalg.eigh returns it).
    The layout of the HDF5 files was checked against the files under
    /repo/tests_and_analysis/test/data/phonopy_files/NaCl: in qpoints.hdf5 and band.hdf5 the
    first three columns at gamma are the rigid translations, in mesh.hdf5 the columns span
    the same degenerate spaces as the modes of mesh.yaml. *)
From Coq Require Import String.
From Verif Require Import Base Cpx Vec3 M_phonopy M_phmodes.
Open Scope R_scope.

(** [V i b a x] is component x of atom a of mode b at q-point i. *)
Record modes_data := { nq : nat; na : nat; q : nat -> V3; F : nat -> nat -> R; V : nat -> nat -> nat -> nat -> C }.
Definition idx (n : nat) : list nat := seq 0 n.

Definition yaml_of (d : modes_data) (w : option (nat -> R)) (lattice : option M3) (points : option (list yatom)) : yfile :=
  {| y_phonon := map (fun i => {| yp_q := q d i;
       yp_band := map (fun b => {| yb_freq := F d i b; yb_evec := Some (map (fun a => map (fun x => (re (V d i b a x), im (V d i b a x))) (idx 3)) (idx (na d))) |}) (idx (3 * na d));
       yp_weight := option_map (fun w => w i) w |}) (idx (nq d));
     y_lattice := lattice; y_points := points |}.
(** One q-point of an HDF5 file: row 3a+x, column b *)
Definition columns_of (d : modes_data) (i : nat) : list (list C) :=
  map (fun r => map (fun b => V d i b (r / 3) (r mod 3)) (idx (3 * na d))) (idx (3 * na d)).
Definition freqs_of (d : modes_data) (i : nat) : list R := map (F d i) (idx (3 * na d)).
Definition points_h5_of (d : modes_data) (w : option (nat -> R)) : h5file :=
  H5points (map (q d) (idx (nq d))) (map (freqs_of d) (idx (nq d))) (Some (map (columns_of d) (idx (nq d)))) (option_map (fun w => map w (idx (nq d))) w).
(** The q-points of a band file are split into segments. *)
Definition band_h5_of (d : modes_data) (segments : list (list nat)) : h5file :=
  H5band (map (map (q d)) segments) (map (map (freqs_of d)) segments) (Some (map (map (columns_of d)) segments)).

(** The matrix D has the vector e, of n atoms, as eigenvector. *)
Definition is_mode (n : nat) (D : nat -> nat -> C) (e : nat -> nat -> C) (lam : R) : Prop :=
  forall a x, (a < n)%nat -> (x < 3)%nat ->
    Csum (seq 0 n) (fun b => Csum (seq 0 3) (fun y => Cmul (D (3 * a + x)%nat (3 * b + y)%nat) (e b y))) = Cscal lam (e a x).
(** What should be returned: the modes of the file times exp(2 pi i q.(r_a - r_c)), c any atom
    that depends on the mode only (C45). *)
Definition right_modes (d : modes_data) (r : nat -> V3) (ev : nat -> nat -> nat -> nat -> C) : Prop :=
  exists c : nat -> nat, forall i b a x, (i < nq d)%nat -> (b < 3 * na d)%nat -> (a < na d)%nat -> (x < 3)%nat ->
    ev i b a x = Cmul (cis (2 * PI * dot (q d i) (vsub (r a) (r (c b))))) (V d i b a x).

(** The q-points and frequencies of d, the latter in the unit asked for, and the crystal c. *)
Definition same_data (d : modes_data) (k : mfactors) (c : cryst) (m : modes) : Prop :=
  m_cry m = c /\ m_q m = map (q d) (idx (nq d)) /\ m_freq m = map (fun i => map (fun b => F d i b * k_thz k) (idx (3 * na d))) (idx (nq d)).
Definition site (c : cryst) (a : nat) : V3 := nth a (c_r c) vzero.
(** The crystal of the summary file, in its own units. *)
Definition crystal_of_summary (k : mfactors) (s : summary) : cryst :=
  {| c_cell := mscal (k_sum_len k) (s_lattice s); c_r := map pt_r (s_points s); c_mass := map (fun p => pt_mass p * k_sum_mass k) (s_points s); c_type := map pt_symbol (s_points s) |}.
(** A crystal written in the file of modes: cell, and position, mass and symbol of the atoms;
    lengths in angstrom and masses in amu. *)
Definition full (p : V3 * R * string) : yatom := let '(r, m, t) := p in {| ya_r := r; ya_mass := Some m; ya_symbol := Some t |}.
Definition crystal_inside (k : mfactors) (l : M3) (ps : list (V3 * R * string)) : cryst :=
  {| c_cell := mscal (k_angstrom k) l; c_r := map (fun p => fst (fst p)) ps; c_mass := map (fun p => snd (fst p) * k_amu k) ps; c_type := map snd ps |}.

(** A crystal in a summary file. *)
Definition summary_with (lattice : M3) (points : list point) : summary :=
  mkSum lattice points [] ((1, 0, 0), (0, 1, 0), (0, 0, 1))%Z None None None None None.
Definition unit3 : M3 := ((1, 0, 0), (0, 1, 0), (0, 0, 1)).
Definition one_point : point := mkPt (0, 0, 0) 1 "Si"%string None.
(** One atom at gamma with its modes along (3,4,0)/5, (-4,3,0)/5 and z. *)
Definition turned : modes_data :=
  {| nq := 1; na := 1; q := fun _ => (0, 0, 0); F := fun _ b => INR (1 + b);
     V := fun _ b _ x => RtoC (nth x (nth b [[3/5; 4/5; 0]; [-4/5; 3/5; 0]; [0; 0; 1]] []) 0) |}.
Definition turned_matrix (i j : nat) : C := RtoC (nth j (nth i [[41/25; -12/25; 0]; [-12/25; 34/25; 0]; [0; 0; 3]] []) 0).
Definition no_change : mfactors := {| k_angstrom := 1; k_amu := 1; k_sum_len := 1; k_sum_mass := 1; k_thz := 1 |}.
