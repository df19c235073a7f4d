(** Model of the reader of Phonopy force constants: /repo/euphonic/readers/phonopy.py 341-795.
    - The YAML and HDF5 parsers are not modelled: a summary file is the record of what its keys
      hold, optional keys as options; a BORN file is the list of its lines as numbers.
    - pint: the factors of the unit conversions are arguments ([factors]).
    - np.genfromtxt: lines of numbers; the first three of every line that has three or more are
      kept, shorter lines are skipped (invalid_raise=False).  Comments and words are left out.
    - Fractions are exact; int(len(sc_atom_r)/n_atoms) is the quotient. *)
From Coq Require Import String Ascii.
From Verif Require Import Base Vec3 M_grid M_qpts M_dynmat M_dipole M_struct.
Open Scope R_scope.

(** One entry of 'points' *)
Record point := mkPt { pt_r : V3; pt_mass : R; pt_symbol : string; pt_reduced : option Z }.
(** force_constants: shape (rows, cols, 3, 3) *)
Record fcarr := mkFA { fa_rows : nat; fa_cols : nat; fa_val : nat -> nat -> nat -> nat -> R }.
Record summary := mkSum {
  s_lattice : M3; s_points : list point;          (* primitive_cell *)
  s_sc_points : list point;                       (* supercell *)
  s_supercell_matrix : Z3 * Z3 * Z3; s_primitive_matrix : option M3;
  s_fc : option fcarr;
  s_nac : option R; s_born : option (list M3); s_diel : option M3 }.

Inductive perr :=
  | NoReducedTo          (* KeyError: some points have reduced_to, not this one *)
  | BadFormat            (* ValueError, 730-733 *)
  | ShapeMismatch        (* ValueError, 402-406 *)
  | BadFile              (* ValueError or IndexError while parsing *)
  | NoFactor             (* KeyError, 757-759 *)
  | Conversion (e : conv_err).   (* from convert_fc_phases *)

(** 622-633, idx_in_pcell *)
Fixpoint all_reduced (l : list point) : option (list Z) :=
  match l with [] => Some [] | p :: r => match pt_reduced p, all_reduced r with Some z, Some s => Some (z :: s) | _, _ => None end end.
Definition idx_in_pcell (l : list point) : res (list Z) perr :=
  match l with
  | [] => Err NoReducedTo                         (* crystal['points'][0]: IndexError *)
  | p :: _ => match pt_reduced p with
              | Some _ => match all_reduced l with Some s => Ok s | None => Err NoReducedTo end
              | None => Ok (map Z.of_nat (seq 0 (length l)))
              end
  end.
(** np.unique(x, return_inverse=True) *)
Fixpoint zinsert (z : Z) (l : list Z) : list Z :=
  match l with [] => [z] | x :: r => if (z <? x)%Z then z :: l else if (z =? x)%Z then l else x :: zinsert z r end.
Definition zunique (l : list Z) : list Z := fold_right zinsert [] l.
Fixpoint position (z : Z) (l : list Z) : nat := match l with [] => 0%nat | x :: r => if (z =? x)%Z then 0%nat else S (position z r) end.
(** An index of a NumPy array of length n *)
Definition py_index (n : nat) (z : Z) : nat := Z.to_nat (if (z <? 0)%Z then z + Z.of_nat n else z).
(** 546-549 *)
Definition pc_to_sc (n : nat) (idx : list Z) : list nat := map (py_index n) (zunique (map (fun z => z - 1)%Z idx)).
Definition sc_to_pc (idx : list Z) : list nat := let l := map (fun z => z - 1)%Z idx in map (fun z => position z (zunique l)) l.

(** matmul *)
Definition mmul (a b : M3) : M3 := let '(r1, r2, r3) := a in (vmul r1 b, vmul r2 b, vmul r3 b).
Definition mrint (m : M3) : Z3 * Z3 * Z3 := let '(r1, r2, r3) := m in (vrint r1, vrint r2, vrint r3).
(** 526-536 *)
Definition p_to_sc_matrix (s : summary) : Z3 * Z3 * Z3 :=
  match s_primitive_matrix s with
  | Some p => mrint (mmul (zrows (s_supercell_matrix s)) (transpose (inv3 p)))
  | None => s_supercell_matrix s
  end.
(** 542 *)
Definition sc_atom_r (s : summary) : list V3 := map (fun p => vmul (pt_r p) (zrows (p_to_sc_matrix s))) (s_sc_points s).

(** 394-406 [_check_fc_shape] *)
Definition shape_ok (n_atoms n_cells r c : nat) : bool :=
  ((Nat.eqb r n_atoms || Nat.eqb r (n_cells * n_atoms)) && Nat.eqb c (n_cells * n_atoms))%bool.
(** 365-376: the header as integers, the lines after it as numbers.  A header of more than two
    numbers is an error here. *)
Definition extract_force_constants (n_atoms n_cells : nat) (header : list Z) (lines : list (list R)) : res fcarr perr :=
  match (match header with [a] => Some (a, a) | [a; b] => Some (a, b) | _ => None end) with
  | None => Err BadFile
  | Some (a, b) =>
      if ((a <? 0)%Z || (b <? 0)%Z || negb (shape_ok n_atoms n_cells (Z.to_nat a) (Z.to_nat b)))%bool then Err ShapeMismatch else
      let r := Z.to_nat a in let c := Z.to_nat b in
      let rows := firstn (4 * (n_atoms * n_cells) ^ 2) (map (firstn 3) (filter (fun l => Nat.leb 3 (length l)) lines)) in
      if negb (Nat.eqb (length rows) (r * c * 3)) then Err BadFile
      else Ok (mkFA r c (fun i j a b => nth b (nth ((i * c + j) * 3 + a) rows []) 0))
  end.
(** 379-391 *)
Definition extract_force_constants_hdf5 (n_atoms n_cells : nat) (fc : fcarr) : res fcarr perr :=
  if shape_ok n_atoms n_cells (fa_rows fc) (fa_cols fc) then Ok fc else Err ShapeMismatch.

(** os.path.splitext(name)[1].strip('.'): what follows the last dot of the last path component,
    leading dots of the component not counted *)
Fixpoint chars (s : string) : list ascii := match s with EmptyString => [] | String a r => a :: chars r end.
Fixpoint unchars (l : list ascii) : string := match l with [] => EmptyString | a :: r => String a (unchars r) end.
Fixpoint until (a : ascii) (l : list ascii) : option (list ascii) :=   (* the part before the first a *)
  match l with [] => None | x :: r => if Ascii.eqb x a then Some [] else option_map (cons x) (until a r) end.
Fixpoint drop_dots (l : list ascii) : list ascii := match l with x :: r => if Ascii.eqb x "."%char then drop_dots r else l | [] => [] end.
Definition basename (l : list ascii) : list ascii := let rl := rev l in rev (match until "/"%char rl with Some b => b | None => rl end).
Definition extension (name : string) : string :=
  match until "."%char (rev (drop_dots (basename (chars name)))) with Some e => unchars (rev e) | None => EmptyString end.
Definition hdf5_exts := ["hdf5"; "hd5"; "h5"]%string.
Definition mem (s : string) (l : list string) : bool := existsb (String.eqb s) l.
(** s in t, for strings *)
Definition substring_of (s t : string) : bool := match String.index 0 s t with Some _ => true | None => false end.
Inductive fc_kind := Text | Hdf5.
(** 711-733 *)
Definition fc_file_kind (fc_format : option string) (fc_name : string) : res fc_kind perr :=
  let f := match fc_format with
           | Some f => f
           | None => let e := extension fc_name in if mem e hdf5_exts then e else "phonopy"%string
           end in
  if String.eqb f "phonopy" then Ok Text else if substring_of f "hdf5" then Ok Hdf5 else Err BadFormat.
(** 707-733: [text] and [hdf5] are the contents of the file *)
Definition the_force_constants (s : summary) (fc_format : option string) (fc_name : string) (text : list Z * list (list R)) (hdf5 : fcarr) : res fcarr perr :=
  match s_fc s with
  | Some fc => Ok fc
  | None =>
      match fc_file_kind fc_format fc_name with
      | Err e => Err e
      | Ok k =>
          let n_atoms := length (s_points s) in
          let n_cells := (length (s_sc_points s) / n_atoms)%nat in
          match k with
          | Text => extract_force_constants n_atoms n_cells (fst text) (snd text)
          | Hdf5 => extract_force_constants_hdf5 n_atoms n_cells hdf5
          end
      end
  end.

(** 409-450 [_extract_born], comment lines removed; a line must have nine numbers *)
Definition to_m3 (l : list R) : option M3 :=
  match l with [a; b; c; d; e; f; g; h; i] => Some ((a, b, c), (d, e, f), (g, h, i)) | _ => None end.
Fixpoint all_some {A} (l : list (option A)) : option (list A) :=
  match l with [] => Some [] | Some x :: r => match all_some r with Some s => Some (x :: s) | None => None end | None :: _ => None end.
Definition extract_born (lines : list (list R)) : res (option R * M3 * list M3) perr :=
  let '(nac, rest) := match lines with [x] :: r => (Some x, r) | _ => (None, lines) end in
  match rest with
  | [] => Err BadFile
  | d :: bs => match to_m3 d, all_some (map to_m3 bs) with Some d, Some bs => Ok (nac, d, bs) | _, _ => Err BadFile end
  end.
(** 735-759: what is known of factor, dielectric tensor and Born charges.  [born_file] is None
    without born_name, otherwise the lines of the file. *)
Definition dipole_data (s : summary) (born_file : option (list (list R))) : res (option R * option M3 * option (list M3)) perr :=
  let merged :=
    match born_file with
    | None => Ok (s_nac s, s_diel s, s_born s)
    | Some lines =>
        match s_born s, s_diel s, s_nac s with
        | Some _, Some _, Some _ => Ok (s_nac s, s_diel s, s_born s)
        | _, _, _ => match extract_born lines with
                     | Err e => Err e
                     | Ok (nac, d, b) => Ok (match nac with Some _ => nac | None => s_nac s end, Some d, Some b)
                     end
        end
    end in
  match merged with
  | Err e => Err e
  | Ok (nac, d, b) => match b, nac with Some _, None => Err NoFactor | _, _ => merged end
  end.

(** Conversion factors: ulength to cell_vectors_unit, umass to atom_mass_unit, ufc to
    force_constants_unit, e to born_unit, e**2/(ulength**3 ufc) to dielectric_unit *)
Record factors := mkF { k_len : R; k_mass : R; k_fc : R; k_born : R; k_diel : R }.
Definition mscal (k : R) (m : M3) : M3 := let '(a, b, c) := m in (vscal k a, vscal k b, vscal k c).
Definition vfloor (v : V3) : Z3 := let '(x, y, z) := v in (Int_part x, Int_part y, Int_part z).
Record result := mkRes { r_cell : M3; r_atoms : list V3; r_types : list string; r_masses : list R;
  r_fc : nat -> nat -> nat -> R; r_sc : Z3 * Z3 * Z3; r_origins : list Z3; r_born : option (list M3); r_diel : option M3 }.
(** 703-795; [N] is the chunk length of convert_fc_phases, tol its 1e-5.  A missing dielectric
    tensor leaves the key out (793).  Force constants of the summary are not checked (551-554), but
    convert_fc_phases fails (util.py 421-425) unless they have a column for every supercell atom
    and a row for every primitive atom. *)
Definition read_interpolation_data (N : nat) (tol : R) (k : factors) (s : summary) (fc_format : option string) (fc_name : string)
    (text : list Z * list (list R)) (hdf5 : fcarr) (born_file : option (list (list R))) : res result perr :=
  match idx_in_pcell (s_points s), idx_in_pcell (s_sc_points s) with
  | Err e, _ => Err e
  | _, Err e => Err e
  | Ok _, Ok idx =>
      match the_force_constants s fc_format fc_name text hdf5 with
      | Err e => Err e
      | Ok fc =>
          match dipole_data s born_file with
          | Err e => Err e
          | Ok (nac, diel, born) =>
              let atom_r := map pt_r (s_points s) in
              if negb (Nat.eqb (fa_cols fc) (length idx) && Nat.leb (length (pc_to_sc (length idx) idx)) (fa_rows fc)) then Err (Conversion IndexErr) else
              match convert_fc_phases N (fa_rows fc) (fa_val fc) atom_r (sc_atom_r s) (pc_to_sc (length idx) idx) (sc_to_pc idx) (p_to_sc_matrix s) tol with
              | Err e => Err (Conversion e)
              | Ok (out, origins) =>
                  Ok (mkRes (mscal (k_len k) (s_lattice s)) (map (fun r => vsub r (zvec (vfloor r))) atom_r) (map pt_symbol (s_points s))
                        (map (fun p => pt_mass p * k_mass k) (s_points s)) (fun n a b => out n a b * k_fc k) (p_to_sc_matrix s) origins
                        (option_map (map (mscal (k_born k))) born)
                        (match born, diel, nac with Some _, Some d, Some f => Some (mscal (k_diel k) (mscal (/ f) d)) | _, _, _ => None end))
              end
          end
      end
  end.
