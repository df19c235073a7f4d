(** Model of the euphonic-dos command line tool: /repo/euphonic/cli/dos.py 19-136 [main]
    and the helpers of /repo/euphonic/cli/utils.py it uses: [_grid_spec_from_args] 346-356,
    [_get_pdos_weighting] 376-388, [_arrange_pdos_groups] 391-410.
    Simplifications: what [load_data_from_file] returned is an argument; frequencies and
    mode widths are in hartree, [k] is the value of one hartree in --energy-unit (units
    proportional to energy); printing, plotting and the JSON output are left out.  The
    cross sections of calculate_pdos are those of its default data set, an argument. *)
From Coq Require Import String Ascii.
From Verif Require Import Base Cpx Vec3 M_cell M_qpts M_path M_broad M_dos M_bins M_coll M_fixed.
Open Scope R_scope.
Open Scope string_scope.

(** ** The lines of a PDOS *)

Inductive pderr :=
  | NoLineData         (* KeyError 'line_data', utils.py:403 *)
  | NoSpeciesKey       (* KeyError 'species', utils.py:404 *)
  | CollErr (e : cerr).
Definition lift_c {A} (r : res A cerr) : res A pderr := match r with Ok a => Ok a | Err e => Err (CollErr e) end.

(** qpoint_phonon_modes.py:596-604: the collection calculate_pdos returns, one line per
    atom; [types] is crystal.atom_type. *)
Definition atom_line (i : nat) (symbol : string) : dict := [("species", VStr symbol); ("index", VInt (Z.of_nat i))].
Definition pdos_collection (bins : list R) (lines : list (list R)) (types : list string) (weighting : option string) : coll :=
  mkColl [bins] lines None
    (mkM (match weighting with None => [] | Some w => [("weighting", VStr w)] end)
         (Some (map (fun i => atom_line i (nth i types "")) (seq 0 (length types))))).

(** utils.py:403-404 *)
Definition label_line (d : dict) : res dict pderr :=
  match lookup "species" d with Some v => Ok (dict_set d ("label", v)) | None => Err NoSpeciesKey end.
Definition label_lines (c : coll) : res coll pderr :=
  match line_data (c_meta c) with
  | None => Err NoLineData
  | Some ds =>
    match mapE label_line ds with
    | Err e => Err e
    | Ok ds' => Ok (mkColl (c_axes c) (c_lines c) (c_ticks c) (mkM (top (c_meta c)) (Some ds')))
    end
  end.

Inductive lines_out := OneSpectrum (s : spec) | Several (c : coll).

(** utils.py:391-410; [arg] is --pdos: absent, or the species listed after it. *)
Definition arrange_pdos (pdos : coll) (arg : option (list string)) : res lines_out pderr :=
  match csum pdos with
  | Err e => Err (CollErr e)
  | Ok dos =>
    match arg with
    | None => Ok (OneSpectrum dos)
    | Some names =>
      let total := mkS (s_axes dos) (s_data dos) (s_ticks dos) (dict_set (s_meta dos) ("label", VStr "Total")) in
      match lift_c (group_by pdos ["species"]) with
      | Err e => Err e
      | Ok g =>
        match label_lines g with
        | Err e => Err e
        | Ok g' =>
          match names with
          | [] =>
            match lift_c (bind (elements g') (fun l => from_spectra (total :: l))) with
            | Err e => Err e | Ok c => Ok (Several c) end
          | _ =>
            match lift_c (select g' [("species", map VStr names)]) with
            | Err e => Err e | Ok c => Ok (Several c) end
          end
        end
      end
    end
  end.

(** ** The options *)

Inductive clierr :=
  | NeedEigenvectors       (* TypeError, dos.py:27-29 *)
  | NeedForceConstants     (* TypeError, dos.py:30-33 *)
  | ScaleTwice             (* ValueError, dos.py:38-42 *)
  | WidthTwice             (* ValueError, dos.py:46-49 *)
  | NoGrid                 (* zero spacing: OverflowError in math.ceil *)
  | BadWeighting           (* ValueError, utils.py:384-385 *)
  | EnergyRange (e : bins_err)
  | DosErr (e : derr)
  | PdosErr (e : pderr)
  | BroadenErr (e : fwerr).

(** str.rfind('-') and the part before it, utils.py:383-386 *)
Fixpoint before_last_dash (s : string) : option string :=
  match s with
  | "" => None
  | String c s' =>
    match before_last_dash s' with
    | Some p => Some (String c p)
    | None => if Ascii.eqb c "-"%char then Some "" else None
    end
  end.
Definition pdos_weighting (arg : string) : res (option string) clierr :=
  if String.eqb arg "dos" then Ok None
  else match before_last_dash arg with None => Err BadWeighting | Some p => Ok (Some p) end.

(** The names calculate_pdos accepts, qpoint_phonon_modes.py:539-548; argparse admits
    only the choices of utils.py:497-498. *)
Definition weighting_of (s : string) : res weighting clierr :=
  if String.eqb s "coherent" then Ok Coherent
  else if String.eqb s "incoherent" then Ok Incoherent
  else if String.eqb s "coherent-plus-incoherent" then Ok Both
  else Err BadWeighting.

Record dargs := mkArgs {
  a_weighting : string;               (* --weighting *)
  a_pdos : option (list string);      (* --pdos *)
  a_grid : option (Z * Z * Z);        (* --grid *)
  a_spacing : R;                      (* --grid-spacing, in the unit of the reciprocal cell *)
  a_adaptive : bool;                  (* --adaptive *)
  a_method : method;                  (* --adaptive-method, -error, -fit *)
  a_error : R;                        (* --adaptive-error *)
  a_ascale : option R;                (* --adaptive-scale *)
  a_inst : option (list R);           (* --instrument-broadening, non-empty *)
  a_eb : option (list R);             (* --energy-broadening, non-empty *)
  a_shape : string;                   (* --shape *)
  a_ebins : nat; a_emin : option R; a_emax : option R;
  a_scale : option R }.               (* --scale *)

(** dos.py:35-50: (adaptive scale, instrument broadening) after the aliases. *)
Definition resolve (a : dargs) : res (option R * option (list R)) clierr :=
  match a_eb a with
  | Some (w :: rest) =>
    if (a_adaptive a && Nat.eqb (length (w :: rest)) 1)%bool then
      match a_ascale a with Some _ => Err ScaleTwice | None => Ok (Some w, a_inst a) end
    else
      match a_inst a with Some _ => Err WidthTwice | None => Ok (a_ascale a, Some (w :: rest)) end
  | _ => Ok (a_ascale a, a_inst a)
  end.

(** numpy.polynomial.Polynomial(coefficients)(x) *)
Definition polynomial (c : list R) (x : R) : R := fold_right (fun a acc => a + x * acc) 0 c.

(** What was loaded: frequencies only, modes, or force constants.  Force constants give
    modes and the widths of mode_gradients_to_widths on any grid. *)
Inductive loaded :=
  | Frequencies (t : ftable)
  | Modes (e : etable)
  | ForceConsts (cell : M3) (on_grid : Z * Z * Z -> etable) (widths : Z * Z * Z -> nat -> nat -> R).

(** utils.py:346-356 *)
Definition grid_spec (cell : M3) (grid : option (Z * Z * Z)) (spacing : R) : option (Z * Z * Z) :=
  match grid with Some g => Some g | None => get_mp_grid_spec cell spacing end.

(** dos.py:72-84; widths in hartree. *)
Definition with_scale (s : option R) (w : R) : R :=
  match s with Some s => if Reqb s 0 then w else w * s | None => w end.
Definition combined_width (k : R) (s : option R) (inst : option (list R)) (shape : string) (t : ftable)
  (w : nat -> nat -> R) (q m : nat) : R :=
  let w1 := with_scale s (w q m) in
  match inst with
  | Some c => if String.eqb shape "gauss" then sqrt (w1 ^ 2 + (polynomial c (freq t q m * k) / k) ^ 2) else w1
  | None => w1
  end.

(** The modes and their widths, dos.py:56-91. *)
Definition has_evecs (d : loaded) : bool := match d with Frequencies _ => false | _ => true end.
Definition is_force (d : loaded) : bool := match d with ForceConsts _ _ _ => true | _ => false end.
Definition no_evecs (t : ftable) : etable := mkE t 0 (fun _ _ _ _ => Czero).
Definition modes_of (k : R) (a : dargs) (s : option R) (inst : option (list R)) (d : loaded)
  : res (etable * option (nat -> nat -> R)) clierr :=
  match d with
  | Frequencies t => Ok (no_evecs t, None)
  | Modes e => Ok (e, None)
  | ForceConsts cell on_grid widths =>
    match grid_spec cell (a_grid a) (a_spacing a) with
    | None => Err NoGrid
    | Some g =>
      let e := on_grid g in
      Ok (e, if a_adaptive a then Some (combined_width k s inst (a_shape a) (et e) (widths g)) else None)
    end
  end.

(** Lines, each [None] if NaN. *)
Definition lines_of (o : lines_out) : list (list R) :=
  match o with OneSpectrum s => [s_data s] | Several c => c_lines c end.

(** dos.py:93-108: energy bins and the (P)DOS lines. *)
Record sources := mkSrc { coherent_cs : nat -> option R; incoherent_cs : nat -> option R;
                          element : nat -> nat; mass : nat -> R; symbol : nat -> string }.
Definition all_freqs (k : R) (t : ftable) : list R := map (fun p => freq t (fst p) (snd p) * k) (pairs t).
Definition energy_bins (k room : R) (a : dargs) (t : ftable) : res (list R) bins_err :=
  match all_freqs k t with
  | [] => Err EmptyRange    (* np.min of an empty array raises *)
  | f0 :: fs => get_energy_bins f0 fs (a_ebins a + 1) (a_emin a) (a_emax a) (105 / 100) room
  end.
Definition dos_lines (k wmin : R) (src : sources) (a : dargs) (e : etable) (w : option (nat -> nat -> R)) (bins : list R)
  : res lines_out clierr :=
  if (String.eqb (a_weighting a) "dos" && match a_pdos a with None => true | _ => false end)%bool then
    match calculate_dos k bins (et e) w wmin (a_method a) with
    | Err er => Err (DosErr er)
    | Ok y => Ok (OneSpectrum (mkS [bins] y None []))
    end
  else
    match pdos_weighting (a_weighting a) with
    | Err er => Err er
    | Ok wo =>
      match match wo with None => Ok None | Some n => match weighting_of n with Ok x => Ok (Some x) | Err er => Err er end end with
      | Err er => Err er
      | Ok ww =>
        match calculate_pdos_weighted k bins e (element src) (mass src) w wmin (a_method a) ww
                (Dataset (coherent_cs src) (incoherent_cs src)) with
        | Err er => Err (DosErr er)
        | Ok ls =>
          match arrange_pdos (pdos_collection bins ls (map (symbol src) (seq 0 (n_atoms e))) wo) (a_pdos a) with
          | Err er => Err (PdosErr er)
          | Ok o => Ok o
          end
        end
      end
    end.

(** dos.py:110-131: broadening of the lines (Spectrum1D.broaden is the case of one line). *)
Definition broaden_stage (coeffs : R -> list R) (a : dargs) (inst : option (list R)) (bins : list R) (ls : list (list R))
  : res (list (option (list R))) clierr :=
  let run := fun wd m fit => match broaden_lines coeffs bins ls wd (a_shape a) m None Fwhm (a_error a) fit with
                             | Err e => Err (BroadenErr e) | Ok (_, out) => Ok out end in
  match inst with
  | Some (c0 :: rest) =>
    if (String.eqb (a_shape a) "gauss" && a_adaptive a)%bool then Ok (map Some ls)
    else if Nat.ltb 1 (length (c0 :: rest)) then run (Varying (polynomial (c0 :: rest))) (Some "convolve") ChebyLog
    else run (Fixed c0) None ChebyLog
  | _ => Ok (map Some ls)
  end.

Definition scaled (s : option R) (l : option (list R)) : option (list R) :=
  match s, l with Some x, Some y => Some (map (fun v => v * x) y) | _, _ => l end.

(** dos.py:19-136 [main], up to plotting: the energy bins and the lines drawn.
    [wmin] is mode_widths_min, 0.01 meV in hartree; [room] is 1e-5 meV in --energy-unit. *)
Definition dos_tool (coeffs : R -> list R) (k wmin room : R) (src : sources) (a : dargs) (d : loaded)
  : res (list R * list (option (list R))) clierr :=
  let frequencies_only := (String.eqb (a_weighting a) "dos" && match a_pdos a with None => true | _ => false end)%bool in
  if (negb frequencies_only && negb (has_evecs d))%bool then Err NeedEigenvectors
  else if (a_adaptive a && negb (is_force d))%bool then Err NeedForceConstants
  else
    match resolve a with
    | Err e => Err e
    | Ok (s, inst) =>
      match modes_of k a s inst d with
      | Err e => Err e
      | Ok (e, w) =>
        match energy_bins k room a (et e) with
        | Err er => Err (EnergyRange er)
        | Ok bins =>
          match dos_lines k wmin src a e w bins with
          | Err er => Err er
          | Ok o =>
            match broaden_stage coeffs a inst bins (lines_of o) with
            | Err er => Err er
            | Ok ls => Ok (bins, map (scaled (a_scale a)) ls)
            end
          end
        end
      end
    end.
