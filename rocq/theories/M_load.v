(** Model of loading a file in the command line tools: /repo/euphonic/cli/utils.py 21-139.
    - The CASTEP readers are arguments (they are modelled in M_phonon and M_castepbin), JSON
      files are M_json, Phonopy files are M_phonopy and M_phmodes.
    - A directory is what Phonopy files it holds.  YAML and HDF5 parsers are not modelled: a
      file is a file of modes, a summary file or a file of force constants, and each has the
      keys of its kind, so that reading it as another kind is a KeyError.
    - Constructors called on the data read (M_valid) are left out. *)
From Coq Require Import String Ascii.
From Verif Require Import Base Cpx Vec3 M_phonopy M_phmodes M_json.
Open Scope string_scope.

(** pathlib.PurePath.suffix: from the last dot of the last component, which must be neither its
    first nor its last character *)
Definition suffix (name : string) : string :=
  let c := rev (basename (chars name)) in
  match until "."%char c with
  | Some e => if Nat.eqb (length e) 0 then "" else if Nat.eqb (S (length e)) (length c) then "" else String "." (unchars (rev e))
  | None => ""
  end.

Inductive lerr :=
  | NotRecognised               (* ValueError, 130-136 *)
  | NotEuphonicData             (* ValueError, 36 *)
  | NeedsSummary                (* ValueError, 73-74 *)
  | NoFile                      (* FileNotFoundError *)
  | MissingKey                  (* KeyError *)
  | NoEigenvectors              (* RuntimeError *)
  | ModesErr (e : merr) | ForceErr (e : M_phonopy.perr) | JsonErr (e : jerr) | CastepErr.

Inductive pfile := ModesFile (c : contents) | SummaryFile (s : summary) | ForceFile (f : fcarr).
Record directory := { d_file : string -> option pfile;
                      d_text : option (list Z * list (list R));        (* FORCE_CONSTANTS *)
                      d_born : option (list (list R)) }.               (* BORN *)
Definition is_file (d : directory) (name : string) : bool := match d_file d name with Some _ => true | None => false end.

(** The class of the object and the data it is made of *)
Inductive class := CModes | CFrequencies | CForce.
Inductive data (U A : Type) := FromCastep (a : A) | FromJson (d : list (string * pyv U)) | FromPhonopyModes (m : modes) | FromPhonopyForce (r : result).
Arguments FromCastep {U A}. Arguments FromJson {U A}. Arguments FromPhonopyModes {U A}. Arguments FromPhonopyForce {U A}.

Section Load.
Context {U A : Type}.
Variable parse : string -> option U.
Variables (N : nat) (tol : R) (kf : factors) (km : mfactors).
Notation loaded := (class * data U A)%type.

(** 21-36 [_load_euphonic_json] *)
Definition load_euphonic_json (frequencies_only : bool) (j : json) : res loaded lerr :=
  let get c k := match from_json_file parse k j with Ok d => Ok (c, FromJson d) | Err e => Err (JsonErr e) end in
  match loads (U := U) j with
  | PDict d =>
      let has k := match lookup k d with Some _ => true | None => false end in
      if has "force_constants" then get CForce ForceConstants
      else if has "frequencies" then
        if (has "eigenvectors" && negb frequencies_only)%bool then get CModes QpointPhononModes else get CFrequencies QpointFrequencies
      else Err NotEuphonicData
  | _ => Err NotEuphonicData
  end.

(** Whether the crystal is in a file of modes (M_phmodes) *)
Definition has_crystal (evecs : bool) (c : contents) : bool :=
  match c with
  | HDF5 _ => false
  | Yaml y => match extract_yaml evecs y with Ok d => match p_cry d with Some _ => true | None => false end | Err _ => true end
  end.
Definition no_summary : summary := mkSum ((0, 0, 0), (0, 0, 0), (0, 0, 0))%R [] [] ((0, 0, 0), (0, 0, 0), (0, 0, 0))%Z None None None None None.
(** QpointPhononModes.from_phonopy, QpointFrequencies.from_phonopy *)
Definition from_phonopy_modes (dir : directory) (name : string) (evecs : bool) : res modes lerr :=
  match d_file dir name with
  | None => Err NoFile
  | Some (ModesFile c) =>
      let read s := match read_modes km None name c s evecs with Ok m => Ok m | Err NoEvec => Err NoEigenvectors | Err e => Err (ModesErr e) end in
      match d_file dir "phonopy.yaml" with
      | Some (SummaryFile s) => read s
      | o => match read no_summary with
             | Err NoEigenvectors => Err NoEigenvectors
             | r => if has_crystal evecs c then r else match o with None => Err NoFile | Some _ => Err MissingKey end
             end
      end
  | Some _ => Err MissingKey
  end.
(** ForceConstants.from_phonopy *)
Definition from_phonopy_force (dir : directory) (summary_name fc_name : string) (born : option (list (list R))) : res result lerr :=
  match d_file dir summary_name with
  | None => Err NoFile
  | Some (SummaryFile s) =>
      let read text hdf5 := match read_interpolation_data N tol kf s None fc_name text hdf5 born with Ok r => Ok r | Err e => Err (ForceErr e) end in
      let none := mkFA 0 0 (fun _ _ _ _ => 0%R) in
      match s_fc s, fc_file_kind None fc_name with
      | Some _, _ => read ([], []) none
      | None, Err e => Err (ForceErr e)
      | None, Ok Text => match d_text dir with Some t => read t none | None => Err NoFile end
      | None, Ok Hdf5 => match d_file dir fc_name with Some (ForceFile f) => read ([], []) f | Some _ => Err MissingKey | None => Err NoFile end
      end
  | Some _ => Err MissingKey
  end.

(** 39-89 [_load_phonopy_file]; [name] is path.name *)
Definition load_phonopy_file (dir : directory) (name : string) (frequencies_only : bool) : res loaded lerr :=
  let first := if frequencies_only then Ok None else
    match from_phonopy_modes dir name true with
    | Ok m => Ok (Some (CModes, FromPhonopyModes m))
    | Err MissingKey | Err NoEigenvectors => Ok None
    | Err e => Err e
    end in
  match first with
  | Err e => Err e
  | Ok (Some x) => Ok x
  | Ok None =>
      match from_phonopy_modes dir name false with
      | Ok m => Ok (CFrequencies, FromPhonopyModes m)
      | Err MissingKey =>
          let force s f := match from_phonopy_force dir s f (d_born dir) with Ok r => Ok (CForce, FromPhonopyForce r) | Err e => Err e end in
          if String.eqb (suffix name) ".hdf5" then
            if is_file dir "phonopy.yaml" then force "phonopy.yaml" name else Err NeedsSummary
          else force name (if is_file dir "force_constants.hdf5" then "force_constants.hdf5" else "FORCE_CONSTANTS")
      | Err e => Err e
      end
  end.

(** 92-139 [load_data_from_file]; [castep_modes evecs], [castep_force] and [json] read the file *)
Definition mem_suffix (s : string) (l : list string) : bool := existsb (String.eqb s) l.
Definition load_data_from_file (name : string) (frequencies_only : bool)
  (castep_modes : bool -> res A lerr) (castep_force : res A lerr) (json_file : res json lerr) (dir : directory) : res loaded lerr :=
  let castep c r := match r with Ok a => Ok (c, FromCastep a) | Err e => Err e end in
  let s := suffix name in
  if mem_suffix s [".phonon"] then
    if frequencies_only then castep CFrequencies (castep_modes false) else castep CModes (castep_modes true)
  else if mem_suffix s [".castep_bin"; ".check"] then castep CForce castep_force
  else if String.eqb s ".json" then match json_file with Ok j => load_euphonic_json frequencies_only j | Err e => Err e end
  else if mem_suffix s [".hdf5"; ".yaml"] then load_phonopy_file dir (unchars (basename (chars name))) frequencies_only
  else Err NotRecognised.
End Load.
