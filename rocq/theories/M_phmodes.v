(** Model of the reader of Phonopy modes: /repo/euphonic/readers/phonopy.py 27-314.
    - The YAML and HDF5 parsers are not modelled: a file is the record of what its keys hold,
      optional keys as options, and reading a file in the other format is [BadFile].
    - pint: factors of the unit conversions are arguments ([mfactors]).
    - HDF5 arrays are lists of lists and have a shape (are not ragged); ragged YAML lists make
      np.array raise ([Ragged]).
    - convert_eigenvector_phases is M_phase, [_convert_weights] is in M_phonon. *)
From Coq Require Import String.
From Verif Require Import Base Cpx Vec3 M_phonon M_phonopy M_phase.
Open Scope R_scope.

Definition bind {A B E} (r : res A E) (f : A -> res B E) : res B E := match r with Ok a => f a | Err e => Err e end.
Local Notation "r >>= f" := (bind r f) (at level 60, right associativity).

(** mesh.yaml, band.yaml, qpoints.yaml; an eigenvector has for each atom three pairs *)
Record yband := { yb_freq : R; yb_evec : option (list (list (R * R))) }.
Record yphonon := { yp_q : V3; yp_band : list yband; yp_weight : option R }.
Record yatom := { ya_r : V3; ya_mass : option R; ya_symbol : option string }.
Record yfile := { y_phonon : list yphonon; y_lattice : option M3; y_points : option (list yatom) }.
(** mesh.hdf5 and qpoints.hdf5 have a key 'qpoint', band.hdf5 has 'path' *)
Inductive h5file :=
  | H5points (qpoint : list V3) (frequency : list (list R)) (eigenvector : option (list (list (list C)))) (weight : option (list R))
  | H5band (path : list (list V3)) (frequency : list (list (list R))) (eigenvector : option (list (list (list (list C))))).
Inductive contents := Yaml (y : yfile) | HDF5 (h : h5file).

Inductive merr := BadExt | BadContents | Ragged | NoEvec | NotCommensurate | BadShape | NoQpts.

Record cryst := { c_cell : M3; c_r : list V3; c_mass : list R; c_type : list string }.
(** phonon_dict *)
Record pdict := { p_q : list V3; p_freq : list (list R); p_ev : option (list C); p_w : option (list R); p_cry : option cryst }.

(** A list in which some key is missing: KeyError. *)
Fixpoint all_of {A B} (f : A -> option B) (l : list A) : option (list B) :=
  match l with [] => Some [] | a :: l => match f a, all_of f l with Some b, Some bs => Some (b :: bs) | _, _ => None end end.
Definition same_len {A} (l : list (list A)) : bool := match l with [] => true | a :: r => forallb (fun x => Nat.eqb (length x) (length a)) r end.
Definition cpx (p : R * R) : C := mkC (fst p) (snd p).

(** 45-118 [_extract_phonon_data_yaml]; the eigenvectors are one array that is only reshaped
    afterwards, so it is kept as the list of its elements *)
Definition extract_yaml (read_eigenvectors : bool) (y : yfile) : res pdict merr :=
  let phonons := y_phonon y in
  let freqs := map (fun p => map yb_freq (yp_band p)) phonons in
  if negb (same_len freqs) then Err Ragged else
  let ev := if read_eigenvectors then all_of (fun p => all_of yb_evec (yp_band p)) phonons else None in
  match ev with
  | Some e => if negb (same_len (List.concat e) && same_len (List.concat (List.concat e)))%bool then Err Ragged else Ok tt
  | None => Ok tt
  end >>= fun _ =>
  Ok {| p_q := map yp_q phonons; p_freq := freqs;
        p_ev := option_map (fun e => map cpx (List.concat (List.concat (List.concat e)))) ev;
        p_w := all_of yp_weight phonons;
        p_cry := match y_lattice y, y_points y with
                 | Some l, Some ps => match all_of ya_mass ps, all_of ya_symbol ps with
                                      | Some m, Some s => Some {| c_cell := l; c_r := map ya_r ps; c_mass := m; c_type := s |}
                                      | _, _ => None end
                 | _, _ => None end |}.

(** .transpose([0, 2, 1]) of one square block *)
Definition transposed (m : list (list C)) : list (list C) :=
  map (fun j => map (fun r => nth j r Czero) m) (seq 0 (length (hd [] m))).
(** 121-186 [_extract_phonon_data_hdf5] *)
Definition extract_hdf5 (read_eigenvectors : bool) (h : h5file) : pdict :=
  match h with
  | H5points q f ev w =>
      {| p_q := q; p_freq := f; p_ev := if read_eigenvectors then option_map (fun e => List.concat (List.concat e)) ev else None; p_w := w; p_cry := None |}
  | H5band path f ev =>
      {| p_q := List.concat path; p_freq := List.concat f;
         p_ev := option_map (fun e => List.concat (List.concat (map transposed (List.concat e)))) ev; p_w := None; p_cry := None |}
  end.

(** 241-258 *)
Definition yaml_exts := ["yaml"; "yml"; "yl"]%string.
Inductive kind := KHdf5 | KYaml.
Definition modes_kind (phonon_format : option string) (phonon_name : string) : res kind merr :=
  let f := match phonon_format with Some f => f | None => extension phonon_name end in
  if mem f hdf5_exts then Ok KHdf5 else if mem f yaml_exts then Ok KYaml else Err BadExt.

(** Factors from angstrom and amu, from the units of the summary file, and from THz *)
Record mfactors := { k_angstrom : R; k_amu : R; k_sum_len : R; k_sum_mass : R; k_thz : R }.
Record modes := { m_cry : cryst; m_q : list V3; m_freq : list (list R); m_ev : option (nat -> nat -> nat -> nat -> C); m_w : option (list R) }.
Definition summary_crystal (s : summary) : cryst :=
  {| c_cell := s_lattice s; c_r := map pt_r (s_points s); c_mass := map pt_mass (s_points s); c_type := map pt_symbol (s_points s) |}.
Definition in_units (kl km : R) (c : cryst) : cryst :=
  {| c_cell := mscal kl (c_cell c); c_r := c_r c; c_mass := map (fun m => m * km) (c_mass c); c_type := c_type c |}.

(** 188-314 [read_phonon_data] *)
Definition read_modes (k : mfactors) (phonon_format : option string) (phonon_name : string) (file : contents) (s : summary) (read_eigenvectors : bool) : res modes merr :=
  modes_kind phonon_format phonon_name >>= fun kd =>
  match kd, file with
  | KHdf5, HDF5 h => Ok (extract_hdf5 read_eigenvectors h)
  | KYaml, Yaml y => extract_yaml read_eigenvectors y
  | _, _ => Err BadContents
  end >>= fun d =>
  if (read_eigenvectors && match p_ev d with None => true | Some _ => false end)%bool then Err NoEvec else
  match p_cry d with
  | Some c => Ok (in_units (k_angstrom k) (k_amu k) c)
  | None =>
      let c := summary_crystal s in
      match p_freq d with
      | [] => Err NoQpts                                          (* IndexError *)
      | f :: _ => if Nat.eqb (3 * length (c_r c)) (length f) then Ok (in_units (k_sum_len k) (k_sum_mass k) c) else Err NotCommensurate
      end
  end >>= fun c =>
  let n := length (c_r c) in
  match (if read_eigenvectors then p_ev d else None) with
  | Some e =>
      if Nat.eqb (length e) (length (p_q d) * (3 * n) * (3 * n)) then
        Ok (Some (convert_eigenvector_phases (fun a => nth a (c_r c) vzero) (fun i => nth i (p_q d) vzero)
                    (fun i b j => nth ((i * (3 * n) + b) * (3 * n) + j) e Czero)))
      else Err BadShape
  | None => Ok None
  end >>= fun ev =>
  Ok {| m_cry := c; m_q := p_q d; m_freq := map (map (fun x => x * k_thz k)) (p_freq d); m_ev := ev; m_w := option_map convert_weights (p_w d) |}.
