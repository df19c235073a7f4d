(** Properties C42-C44: species, symmetry-equivalent atoms, re-indexing of
    Phonopy force constants. *)
From Coq Require Import String Sorting.
From Verif Require Import Base Vec3 M_grid M_cell M_qpts M_dynmat M_dipole M_struct S_dynmat S_struct L_struct L_scidx L_conv.
Open Scope R_scope.

(** C42.  The returned dictionary lists each species once, in order of first
    appearance; atom i is listed under s exactly when its type is s, in
    increasing order; every atom is listed exactly once. *)
Theorem C42_species_partition : forall types : list string,
  let d := get_species_idx types in
  NoDup (map fst d) /\ (forall s, In s (map fst d) <-> In s types) /\
  (forall a b sa sb ia ib, nth_error d a = Some (sa, ia) -> nth_error d b = Some (sb, ib) -> (a < b)%nat ->
     exists k, nth_error types k = Some sa /\ forall k', (k' <= k)%nat -> nth_error types k' <> Some sb) /\
  (forall s idx, In (s, idx) d -> StronglySorted lt idx /\ forall i, In i idx <-> nth_error types i = Some s) /\
  Permutation (concat (map snd d)) (seq 0 (length types)).
Proof. exact species_partition. Qed.
Print Assumptions C42_species_partition.

Open Scope string_scope.
Example C42_nonvacuous : get_species_idx ["Na"; "Cl"; "Na"; "O"; "Cl"]
  = [("Na", [0; 2]%nat); ("Cl", [1; 4]%nat); ("O", [3]%nat)].
Proof. reflexivity. Qed.
Close Scope string_scope.

(** C43.  When the call returns, the atom reported for atom i under operation s
    has the same species and lies within tol of the transformed atom, modulo a
    lattice vector.  Any operations list, any cell (even a singular one). *)
Theorem C43_reported_atoms_are_equivalent : forall cell atom_r types ops tol E,
  symmetry_equivalent_atoms cell atom_r types (Some ops) tol = Ok E ->
  forall i, (i < length types)%nat -> exists col, E i = Some col /\ length col = length ops /\
    forall s, (s < length ops)%nat -> let j := nth s col 0%nat in
      (j < length types)%nat /\ nth_error types j = nth_error types i /\
      near_mod_lattice cell tol (apply_op (op_at ops s) (nth i atom_r vzero)) (nth j atom_r vzero).
Proof. exact symm_equiv_sound. Qed.
Print Assumptions C43_reported_atoms_are_equivalent.

(** C43.  With a tolerance below half the lattice-plane spacings, the call
    returns if and only if every transformed atom is near exactly one atom of
    its species; otherwise it raises. *)
Theorem C43_raises_unless_unique : forall cell atom_r types ops tol,
  det3 cell <> 0 -> small_tolerance cell tol ->
  (exists E, symmetry_equivalent_atoms cell atom_r types (Some ops) tol = Ok E) <->
  (forall i s, (i < length types)%nat -> (s < length ops)%nat ->
     exists! j, near_atoms cell atom_r types tol (op_at ops s) i j).
Proof. exact symm_equiv_exact. Qed.
Print Assumptions C43_raises_unless_unique.

(** Non-vacuity: inversion of a two-species cubic cell. *)
Example C43_nonvacuous : det3 cube <> 0 /\ small_tolerance cube (1/10) /\
  exists E, symmetry_equivalent_atoms cube [vzero; (1/2,0,0)] ["A"%string; "B"%string] (Some [inversion_op]) (1/10) = Ok E.
Proof. split; [cbn; lra|]. split; [exact cube_small|exact cube_inversion]. Qed.

(** C44.  Entry (nc, j) is the first cell equivalent, modulo the supercell, to
    cell j seen from cell nc; an error means some pair has no such cell.  The
    chunk length N is arbitrary. *)
Theorem C44_relative_index_exact : forall N origins sc,
  (0 < N)%nat -> zdet3 sc <> 0%Z -> (Z.abs (zdet3 sc) < 2 ^ 48)%Z ->
  let n := length origins in
  let o k := nth k origins (0,0,0)%Z in
  match supercell_relative_idx N origins sc with
  | Ok t => length t = n /\ forall nc, (nc < n)%nat -> length (nth nc t []) = n /\ forall j, (j < n)%nat ->
      first_index n (fun k => same_mod_supercell sc (o k) (zsub3 (o j) (o nc))) (nth j (nth nc t []) 0%nat)
  | Err _ => exists nc j, (nc < n)%nat /\ (j < n)%nat /\
      forall k, (k < n)%nat -> ~ same_mod_supercell sc (o k) (zsub3 (o j) (o nc))
  end.
Proof. exact rel_idx_spec. Qed.
Print Assumptions C44_relative_index_exact.

Theorem C44_chunk_size_irrelevant : forall N N' origins sc,
  (0 < N)%nat -> (0 < N')%nat -> zdet3 sc <> 0%Z -> (Z.abs (zdet3 sc) < 2 ^ 48)%Z ->
  supercell_relative_idx N origins sc = supercell_relative_idx N' origins sc.
Proof. exact rel_idx_chunk. Qed.
Print Assumptions C44_chunk_size_irrelevant.

(** C44.  Converted force constants: whenever the copy of atom i named by
    uc_to_sc is the first one in the supercell, the entry for atoms i and s is
    stored under a cell equivalent to the cell of s relative to that copy.
    Partial: see the refutation below when the copy is not the first. *)
Theorem C44_force_constants_placed_partial :
  forall N rows fc atom_r sc_atom_r uc_to_sc sc_to_uc sc tol out origins,
  let copy i := nth i uc_to_sc 0%nat in
  let cell s := cell_of atom_r sc_atom_r sc_to_uc s in
  (0 < N)%nat -> zdet3 sc <> 0%Z -> (Z.abs (zdet3 sc) < 2 ^ 48)%Z ->
  distinct_copies sc atom_r sc_atom_r sc_to_uc ->
  (forall i, (i < length uc_to_sc)%nat -> (copy i < length sc_to_uc)%nat) ->
  convert_fc_phases N rows fc atom_r sc_atom_r uc_to_sc sc_to_uc sc tol = Ok (out, origins) ->
  (forall i, (i < length uc_to_sc)%nat -> first_where sc_to_uc i = Some (copy i)) ->
  forall i s a b, (i < length uc_to_sc)%nat -> (s < length sc_to_uc)%nat -> (a < 3)%nat -> (b < 3)%nat ->
  exists n, (n < length origins)%nat /\
    same_mod_supercell sc (nth n origins (0,0,0)%Z) (zsub3 (cell s) (cell (copy i))) /\
    out n (3 * i + a)%nat (3 * nth s sc_to_uc 0%nat + b)%nat
    = (if Nat.eqb rows (length sc_to_uc) then fc (copy i) else fc i) s a b.
Proof.
  intros until origins. intros copy cell HN Hd Hb Hdist Hc.
  exact (convert_fc_phases_spec N rows fc atom_r sc_atom_r uc_to_sc sc_to_uc sc tol HN Hd Hb Hdist Hc out origins).
Qed.
Print Assumptions C44_force_constants_placed_partial.

(** Non-vacuity: two cells of one atom; both blocks are where they should be. *)
Example C44_pair_ok : forall fc : nat -> nat -> nat -> nat -> R,
  distinct_copies pair_sc [vzero] pair_pos [0;0]%nat /\
  (forall i, (i < 1)%nat -> first_where [0;0]%nat i = Some (nth i [0]%nat 0%nat)) /\
  exists out, convert_fc_phases 100 1 fc [vzero] pair_pos [0]%nat [0;0]%nat pair_sc (1/100000)
              = Ok (out, [(0,0,0); (1,0,0)]%Z) /\
    out 0%nat 0%nat 0%nat = fc 0%nat 0%nat 0%nat 0%nat /\ out 1%nat 0%nat 0%nat = fc 0%nat 1%nat 0%nat 0%nat.
Proof.
  intros fc. split; [apply pair_distinct|]. split; [intros [|i] H; [reflexivity|lia]|].
  destruct (pair_convert fc 0 (1/100000) ltac:(lia) ltac:(lra)) as [out [E H]]. exists out. split; [exact E|].
  split; apply H; lia.
Qed.

(** C44, refuted in general.  The same two cells, but the compact force
    constants belong to the second copy (uc_to_sc = [1]).  The home-cell block
    should hold the self term fc[0, 1]; it holds the neighbour term fc[0, 0]. *)
Theorem C44_other_copy_refuted : exists (fc : nat -> nat -> nat -> nat -> R) atom_r sc_atom_r uc_to_sc sc_to_uc sc out origins n,
  distinct_copies sc atom_r sc_atom_r sc_to_uc /\
  nth (nth 0 uc_to_sc 0%nat) sc_to_uc 0%nat = 0%nat /\
  convert_fc_phases 100 1 fc atom_r sc_atom_r uc_to_sc sc_to_uc sc (1/100000) = Ok (out, origins) /\
  nth_error origins n = Some (0,0,0)%Z /\
  (forall n', (n' < length origins)%nat -> same_mod_supercell sc (nth n' origins (0,0,0)%Z) (0,0,0)%Z -> n' = n) /\
  out n 0%nat 0%nat <> fc 0%nat (nth 0 uc_to_sc 0%nat) 0%nat 0%nat.
Proof. exact other_copy_refuted. Qed.
Print Assumptions C44_other_copy_refuted.
