(** Model of the constructors' input checks: /repo/euphonic/validate.py 9-55, 93-102 and the
    __init__ methods of Crystal, QpointFrequencies, QpointPhononModes, StructureFactor,
    DebyeWaller, ForceConstants, Spectrum1D, Spectrum2D, the two collections and
    BrilleInterpolator.
    A Python value is reduced to what the checks look at: its class, its shape if it has one,
    its unit.  A Quantity whose magnitude is a plain number has no shape attribute.
    pint: [conv u v] says whether u can be converted to v, [umul] multiplies units.  The value
    of np.linalg.det(sc_matrix) is an argument. *)
From Coq Require Import String.
From Verif Require Import Base M_qpts.
Open Scope Z_scope.

Inductive obj (U : Type) :=
  | Arr (s : list Z)                          (* numpy.ndarray *)
  | Qty (s : option (list Z)) (u : U)         (* Quantity; None: scalar *)
  | Cry (n_atoms : Z)                         (* Crystal *)
  | Lst (n : Z)                               (* list *)
  | Dct (line_data : option Z)                (* dict; the length of its 'line_data' *)
  | Non                                       (* None *)
  | Oth.                                      (* anything else *)
Arguments Arr {U}. Arguments Qty {U}. Arguments Cry {U}. Arguments Lst {U}. Arguments Dct {U}. Arguments Non {U}. Arguments Oth {U}.

Inductive cls := KArray | KQuantity | KCrystal | KList | KDict | KNone.
Inductive verr :=
  | BadType (name : string)        (* TypeError, validate.py:46 *)
  | BadShape (name : string)       (* ValueError, validate.py:52 *)
  | NoLen                          (* TypeError: object has no len() *)
  | NoAttr                         (* AttributeError *)
  | NoIndex                        (* IndexError, or TypeError for a scalar *)
  | Dimension                      (* pint.DimensionalityError *)
  | LineData.                      (* ValueError, spectra.py:1031 *)

Section Checks.
Context {U : Type}.
Variables (conv : U -> U -> bool).
Variables (bohr me hartree bohr2 kelvin fcu e diel : U).

Definition isinstance (o : obj U) (k : cls) : bool :=
  match o, k with
  | Arr _, KArray | Qty _ _, KQuantity | Cry _, KCrystal | Lst _, KList | Dct _, KDict | Non, KNone => true
  | _, _ => false
  end.
Definition shape_of (o : obj U) : option (list Z) := match o with Arr s => Some s | Qty s _ => s | _ => None end.
(** len(o) *)
Definition len_of (o : obj U) : option Z :=
  match o with Arr (n :: _) => Some n | Qty (Some (n :: _)) _ => Some n | Lst n => Some n | _ => None end.

Fixpoint zeqb (a b : list Z) : bool := match a, b with [], [] => true | x :: a, y :: b => ((x =? y) && zeqb a b)%bool | _, _ => false end.
(** validate.py:93-102 [_replace_dim] *)
Definition replace_dim (expected actual : list Z) : list Z :=
  if (negb (existsb (fun x => x =? -1) expected) || negb (Nat.eqb (length expected) (length actual)))%bool then expected
  else map (fun p => if fst p =? -1 then snd p else fst p) (combine expected actual).
(** One entry of the zipped lists: classes, shapes ([] when any shape will do), name. *)
Record check := { c_obj : obj U; c_types : list cls; c_shapes : list (list Z); c_name : string }.
(** validate.py:9-55 [_check_constructor_inputs] *)
Fixpoint check_inputs (cs : list check) : res unit verr :=
  match cs with
  | [] => Ok tt
  | c :: cs =>
      if negb (existsb (isinstance (c_obj c)) (c_types c)) then Err (BadType (c_name c)) else
      match shape_of (c_obj c), c_shapes c with
      | Some s, _ :: _ => if negb (existsb (fun e => zeqb s (replace_dim e s)) (c_shapes c)) then Err (BadShape (c_name c)) else check_inputs cs
      | _, _ => check_inputs cs
      end
  end.
Definition chk o ts ss n : check := {| c_obj := o; c_types := ts; c_shapes := ss; c_name := n |}.
(** q.to(unit) *)
Definition to (o : obj U) (u : U) : res unit verr := match o with Qty _ v => if conv v u then Ok tt else Err Dimension | _ => Err NoAttr end.
Definition andthen {A B} (x : res A verr) (f : A -> res B verr) : res B verr := match x with Ok a => f a | Err e => Err e end.
Notation "'do' x <- a ;; b" := (andthen a (fun x => b)) (at level 200, x name, a at level 99, b at level 200).
Notation "a ;; b" := (andthen a (fun _ => b)) (at level 100, b at level 200, right associativity).
Definition len (o : obj U) : res Z verr := match len_of o with Some n => Ok n | None => Err NoLen end.
Definition n_atoms_of (o : obj U) : res Z verr := match o with Cry n => Ok n | _ => Err NoAttr end.

(** crystal.py:38-79 *)
Definition new_crystal (cell_vectors atom_r atom_type atom_mass : obj U) : res unit verr :=
  do n <- len atom_r ;;
  do r <- (if n =? 0 then match shape_of atom_r with None => Err NoAttr | Some s => Ok (if zeqb s [0] then Arr [0; 3] else atom_r) end else Ok atom_r) ;;
  do t <- (if n =? 0 then match shape_of atom_type with None => Err NoAttr | Some s => Ok (if zeqb s [0] then Arr [0] else atom_type) end else Ok atom_type) ;;
  check_inputs [chk cell_vectors [KQuantity] [[3; 3]] "cell_vectors"; chk r [KArray] [[n; 3]] "atom_r";
                chk t [KArray] [[n]] "atom_type"; chk atom_mass [KQuantity] [[n]] "atom_mass"] ;;
  to cell_vectors bohr ;; to atom_mass me.

(** qpoint_frequencies.py:40-78 *)
Definition new_qpoint_frequencies (crystal qpts frequencies weights : obj U) : res unit verr :=
  check_inputs [chk crystal [KCrystal] [] "crystal"; chk qpts [KArray] [[-1; 3]] "qpts"] ;;
  do n <- len qpts ;;
  check_inputs [chk frequencies [KQuantity] [[n; -1]] "frequencies"; chk weights [KArray; KNone] [[n]] "weights"] ;;
  to frequencies hartree.
(** qpoint_phonon_modes.py:45-79 *)
Definition new_qpoint_phonon_modes (crystal qpts frequencies eigenvectors weights : obj U) : res unit verr :=
  new_qpoint_frequencies crystal qpts frequencies weights ;;
  do n <- len qpts ;; do a <- n_atoms_of crystal ;;
  check_inputs [chk frequencies [KQuantity] [[n; 3 * a]] "frequencies"; chk eigenvectors [KArray] [[n; 3 * a; a; 3]] "eigenvectors"].
(** structure_factor.py:44-90 *)
Definition new_structure_factor (crystal qpts frequencies structure_factors weights temperature : obj U) : res unit verr :=
  new_qpoint_frequencies crystal qpts frequencies weights ;;
  do n <- len qpts ;; do a <- n_atoms_of crystal ;;
  check_inputs [chk frequencies [KQuantity] [[n; 3 * a]] "frequencies"; chk structure_factors [KQuantity] [[n; 3 * a]] "structure_factors";
                chk temperature [KQuantity; KNone] [] "temperature"] ;;
  to structure_factors bohr2 ;; (match temperature with Non => Ok tt | _ => to temperature kelvin end).
(** debye_waller.py:30-58 *)
Definition new_debye_waller (crystal debye_waller temperature : obj U) : res unit verr :=
  check_inputs [chk crystal [KCrystal] [] "crystal"] ;;
  do a <- n_atoms_of crystal ;;
  check_inputs [chk debye_waller [KQuantity] [[a; 3; 3]] "debye_waller"; chk temperature [KQuantity] [] "temperature"] ;;
  to debye_waller bohr2 ;; to temperature kelvin.

(** What is kept in self._dielectric: nothing, converted numbers (with the unit to show them
    in), or the Quantity itself. *)
Inductive kept := Nothing | Numbers (shown : U) | Whole (own shown : U).
Record fc_obj := { f_ncells : Z; f_born : kept; f_diel : kept }.
(** force_constants.py:64-120 *)
Definition new_force_constants (det : R) (crystal force_constants sc_matrix cell_origins born dielectric : obj U) : res fc_obj verr :=
  check_inputs [chk crystal [KCrystal] [] "crystal"; chk sc_matrix [KArray] [[3; 3]] "sc_matrix"] ;;
  do a <- n_atoms_of crystal ;;
  let n := rint (Rabs det) in
  check_inputs [chk force_constants [KQuantity] [[n; 3 * a; 3 * a]] "force_constants"; chk cell_origins [KArray] [[n; 3]] "cell_origins";
                chk born [KQuantity; KNone] [[a; 3; 3]] "born"; chk dielectric [KQuantity; KNone] [[3; 3]] "dielectric"] ;;
  to force_constants fcu ;;
  match born with
  | Non => Ok {| f_ncells := n; f_born := Nothing; f_diel := match dielectric with Qty _ u => Whole u diel | _ => Nothing end |}
  | _ => to born e ;; to dielectric diel ;;
      Ok {| f_ncells := n; f_born := match born with Qty _ u => Numbers u | _ => Nothing end; f_diel := match dielectric with Qty _ u => Numbers u | _ => Nothing end |}
  end.
(** The unit of what the properties born and dielectric return, force_constants.py:134-156:
    numbers * (1 internal).to(shown). *)
Variable umul : U -> U -> U.
Definition get_kept (k : kept) : option U := match k with Nothing => None | Numbers u => Some u | Whole own shown => Some (umul own shown) end.

(** force_constants.py:142-145 and 155-158: the setters of born and dielectric *)
Definition set_born (o : fc_obj) (value : obj U) : res fc_obj verr :=
  match value with
  | Qty _ u => to value e ;; Ok {| f_ncells := f_ncells o; f_born := Numbers u; f_diel := f_diel o |}
  | _ => Err NoAttr
  end.
Definition set_dielectric (o : fc_obj) (value : obj U) : res fc_obj verr :=
  match value with
  | Qty _ u => to value diel ;; Ok {| f_ncells := f_ncells o; f_born := f_born o; f_diel := Numbers u |}
  | _ => Err NoAttr
  end.

(** spectra.py:421-456 *)
Definition new_spectrum1d (x_data y_data x_tick_labels metadata : obj U) : res unit verr :=
  check_inputs [chk y_data [KQuantity] [[-1]] "y_data"; chk x_tick_labels [KList; KNone] [] "x_tick_labels"; chk metadata [KDict; KNone] [] "metadata"] ;;
  do n <- len y_data ;;
  check_inputs [chk x_data [KQuantity] [[n]; [n + 1]] "x_data"].
(** spectra.py:1452-1493 *)
Definition new_spectrum2d (x_data y_data z_data x_tick_labels metadata : obj U) : res unit verr :=
  check_inputs [chk z_data [KQuantity] [[-1; -1]] "z_data"; chk x_tick_labels [KList; KNone] [] "x_tick_labels"; chk metadata [KDict; KNone] [] "metadata"] ;;
  match shape_of z_data with
  | Some [nx; ny] => check_inputs [chk x_data [KQuantity] [[nx]; [nx + 1]] "x_data"; chk y_data [KQuantity] [[ny]; [ny + 1]] "y_data"]
  | _ => Err NoAttr
  end.
(** spectra.py:1017-1034 [_check_metadata] *)
Definition check_metadata (metadata : obj U) (n : Z) : res unit verr :=
  match metadata with Dct (Some k) => if k =? n then Ok tt else Err LineData | _ => Ok tt end.
(** spectra.py:1148-1193 *)
Definition new_collection1d (x_data y_data x_tick_labels metadata : obj U) : res unit verr :=
  check_inputs [chk y_data [KQuantity] [[-1; -1]] "y_data"; chk x_tick_labels [KList; KNone] [] "x_tick_labels"; chk metadata [KDict; KNone] [] "metadata"] ;;
  match shape_of y_data with
  | Some [k; n] => if k =? 0 then Err NoIndex else check_inputs [chk x_data [KQuantity] [[n]; [n + 1]] "x_data"] ;; check_metadata metadata k
  | _ => Err NoIndex
  end.
(** spectra.py:1876-1900 *)
Definition new_collection2d (x_data y_data z_data x_tick_labels metadata : obj U) : res unit verr :=
  check_inputs [chk z_data [KQuantity] [[-1; -1; -1]] "z_data"; chk x_tick_labels [KList; KNone] [] "x_tick_labels"; chk metadata [KDict; KNone] [] "metadata"] ;;
  match shape_of z_data with
  | Some [k; nx; ny] => check_inputs [chk x_data [KQuantity] [[nx]; [nx + 1]] "x_data"; chk y_data [KQuantity] [[ny]; [ny + 1]] "y_data"] ;; check_metadata metadata k
  | _ => Err NoAttr
  end.

(** force_constants.py:1716-1722 [from_dict]: the optional keys born and dielectric, with
    their units; a missing key is None.  A unit that is missing raises KeyError (NoAttr here). *)
Definition optional_quantity (v : option (list Z)) (u : option U) : res (obj U) verr :=
  match v with None => Ok Non | Some s => match u with None => Err NoAttr | Some u => Ok (Qty (Some s) u) end end.
Definition force_constants_from_dict (det : R) (crystal fc sc origins : obj U) (born dielectric : option (list Z)) (born_unit dielectric_unit : option U) : res fc_obj verr :=
  do b <- optional_quantity born born_unit ;; do d <- optional_quantity dielectric dielectric_unit ;;
  new_force_constants det crystal fc sc origins b d.
End Checks.
