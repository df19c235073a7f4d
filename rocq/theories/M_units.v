(** Model of displayed units: stored arrays, [*_unit] attributes, getters, setters and
    scaling.  /repo/euphonic/validate.py 58-90, spectra.py 39-91, 1495-1514, 1911-1922,
    1925-1968, 483-488, 1691-1697, crystal.py 81-104, qpoint_frequencies.py 80-92,
    force_constants.py 122-160, structure_factor.py 92-119, debye_waller.py 60-83,
    data/reciprocal_spectroscopy_definitions.txt.
    pint is outside the model; what it does is described here: a unit has a dimension
    and a positive factor to base units, [.to] multiplies by the ratio of the factors
    within a dimension, and contexts relate the spectroscopic dimensions.  pint composes
    context rules along a path of dimensions; every rule equates a quantity with the
    photon energy it stands for ([to_energy]), so a composition is written here as going
    through the photon energy.  Simplifications: real numbers; units with an offset
    (degree_Celsius) and unknown unit names are not covered; division by zero, which
    gives inf in numpy, is avoided in the theorems. *)
From Coq Require Import String.
From Verif Require Import Base.
Open Scope R_scope.

(** Dimensions of the contexts 'spectroscopy' (enabled for the whole package,
    __init__.py) and 'reciprocal_spectroscopy', and all other dimensions. *)
Inductive kind := Energy | Freq | Wavenum | Length | Time | InvEnergy | Other (n : nat).
Definition kind_eqb (a b : kind) : bool :=
  match a, b with
  | Energy, Energy | Freq, Freq | Wavenum, Wavenum | Length, Length | Time, Time | InvEnergy, InvEnergy => true
  | Other n, Other m => Nat.eqb n m
  | _, _ => false
  end.
Record unit_ := mkU { uname : string; ukind : kind; ufac : R }.

Section Units.
Variables h c : R.   (* planck_constant, speed_of_light in base units *)

(** Photon energy of a quantity of each dimension, in base units, and back:
    rules [frequency] -> [energy]: h v; [length] <-> [frequency]: c / v;
    [wavenumber] <-> [length]: 1 / v; 1/[frequency] <-> 1/[length]: 1 / v / c;
    1/[energy] -> 1/[frequency]: h v; [length] -> 1/[energy]: v / (h c); 1/[length] -> [energy]: v h c *)
Definition to_energy (k : kind) (v : R) : R :=
  match k with
  | Energy => v | Freq => h * v | Wavenum => h * c * v
  | Length => h * c / v | Time => h / v | InvEnergy => / v
  | Other _ => v
  end.
Definition from_energy (k : kind) (e : R) : R :=
  match k with
  | Energy => e | Freq => e / h | Wavenum => e / (h * c)
  | Length => h * c / e | Time => h / e | InvEnergy => / e
  | Other _ => e
  end.

(** Dimensions connected without / with the reciprocal_spectroscopy context. *)
Definition in_plain (k : kind) : bool := match k with Energy | Freq | Wavenum | Length => true | _ => false end.
Definition in_recip (k : kind) : bool := match k with Other _ => false | _ => true end.

(** Quantity(x, u).to(v): None is DimensionalityError *)
Definition convert (connected : kind -> bool) (u v : unit_) (x : R) : option R :=
  if kind_eqb (ukind u) (ukind v) then Some (x * ufac u / ufac v)
  else if (connected (ukind u) && connected (ukind v))%bool
  then Some (from_energy (ukind v) (to_energy (ukind u) (x * ufac u)) / ufac v)
  else None.
Definition to_plain := convert in_plain.
Definition to_recip := convert in_recip.

Inductive uerr := BadUnit (* ValueError, validate.py:87-89 *) | Dimensionality (* pint.DimensionalityError *).

(** numpy arrays, element by element *)
Fixpoint all_some (l : list (option R)) : option (list R) :=
  match l with
  | [] => Some []
  | None :: _ => None
  | Some x :: l' => match all_some l' with Some r => Some (x :: r) | None => None end
  end.
Definition conv_array (f : R -> option R) (l : list R) : res (list R) uerr :=
  match all_some (map f l) with Some r => Ok r | None => Err Dimensionality end.

(** One array attribute: values, unit they are stored in, unit they are shown in. *)
Record attr := mkA { raw : list R; stored : unit_; shown : unit_ }.
(** A pint Quantity *)
Record quantity := mkQ { qmag : list R; qunit : unit_ }.

(** validate.py:58-90 through __setattr__: 'obj.x_unit = u' checks conversion from the
    unit shown so far with the reciprocal_spectroscopy context *)
Definition set_unit (a : attr) (u : unit_) : attr * option uerr :=
  match to_recip (shown a) u 1 with
  | Some _ => (mkA (raw a) (stored a) u, None)
  | None => (a, Some BadUnit)
  end.

(** 'col.z_data_unit = u' on a Spectrum2DCollection: its __setattr__ (the base class's,
    spectra.py:39-42) does not check this attribute *)
Definition set_unit_unchecked (a : attr) (u : unit_) : attr * option uerr := (mkA (raw a) (stored a) u, None).

(** Spectra: x_data, y_data, z_data getters, spectra.py:51-66, 1495-1504 *)
Definition get_spectral (a : attr) : res quantity uerr :=
  match conv_array (to_recip (stored a) (shown a)) (raw a) with
  | Ok r => Ok (mkQ r (shown a)) | Err e => Err e end.
(** All other objects: crystal.py:82-84, 93-94, qpoint_frequencies.py:81-82,
    force_constants.py 122-155, ...: self._x*ureg(stored).to(self.x_unit), that is,
    the stored values times the converted unit *)
Definition get_plain (a : attr) : res quantity uerr :=
  match to_plain (stored a) (shown a) 1 with
  | Some f => Ok (mkQ (map (fun x => x * f) (raw a)) (shown a)) | None => Err Dimensionality end.

(** The setters, the same everywhere (spectra.py:55-58, crystal.py:87-89, ...): first the
    unit, then the values *)
Definition assign (a : attr) (q : quantity) : attr * option uerr :=
  match set_unit a (qunit q) with
  | (a', Some e) => (a', Some e)
  | (a', None) =>
      match conv_array (to_plain (qunit q) (stored a')) (qmag q) with
      | Ok r => (mkA r (stored a') (shown a'), None)
      | Err e => (a', Some e)
      end
  end.

(** spectra.py:44-49 [_set_data] *)
Definition set_data (q : quantity) : attr := mkA (qmag q) (qunit q) (qunit q).

(** ** Scaling (spectra.py 68-82, 1506-1509) *)
Inductive class := One | OneColl | Two | TwoColl.   (* Spectrum1D, Spectrum1DCollection, Spectrum2D, Spectrum2DCollection *)
(** 1-D classes have no z array: [sz] is then unused. *)
Record spectrum := mkSp { scls : class; sx : attr; sy : attr; sz : attr }.

Definition scale_raw (a : attr) (k : R) : attr := mkA (map (fun x => x * k) (raw a)) (stored a) (shown a).
Definition scale_q (q : quantity) (k : R) : quantity := mkQ (map (fun x => x * k) (qmag q)) (qunit q).
(** [__imul__]: Spectrum2D overrides the base class, Spectrum2DCollection does not *)
Definition imul (s : spectrum) (k : R) : spectrum * option uerr :=
  match scls s with
  | Two => match get_spectral (sz s) with
           | Err e => (s, Some e)
           | Ok q => let '(z, e) := assign (sz s) (scale_q q k) in (mkSp (scls s) (sx s) (sy s) z, e)
           end
  | _ => (mkSp (scls s) (sx s) (scale_raw (sy s) k) (sz s), None)
  end.
(** [copy], 483-488, 872-874, 1691-1697: a new object from the shown arrays *)
Definition copy (s : spectrum) : res spectrum uerr :=
  match get_spectral (sx s), get_spectral (sy s) with
  | Ok x, Ok y =>
      match scls s with
      | One | OneColl => Ok (mkSp (scls s) (set_data x) (set_data y) (sz s))
      | Two | TwoColl => match get_spectral (sz s) with
                         | Ok z => Ok (mkSp (scls s) (set_data x) (set_data y) (set_data z))
                         | Err e => Err e end
      end
  | Err e, _ => Err e
  | _, Err e => Err e
  end.
(** [__mul__] *)
Definition mul (s : spectrum) (k : R) : res spectrum uerr :=
  match copy s with
  | Err e => Err e
  | Ok t => match imul t k with (t', None) => Ok t' | (_, Some e) => Err e end
  end.

(** ** Intensity arrays of a collection built from spectra.
    spectra.py:1216-1230: Spectrum1DCollection.from_spectra takes the shown values of
    every spectrum, in a common shown unit (the assertion compares the units of the
    shown quantities). *)
Fixpoint map_res {A B} (f : A -> res B uerr) (l : list A) : res (list B) uerr :=
  match l with
  | [] => Ok []
  | a :: l' => match f a with
               | Err e => Err e
               | Ok b => match map_res f l' with Err e => Err e | Ok r => Ok (b :: r) end end
  end.
Inductive cerr2 := NoSpectra2 | Different2 | Unit_ (e : uerr).
Definition same_unit (u v : unit_) : bool := String.eqb (uname u) (uname v).
Definition lines_1d (ys : list attr) : res (list (list R) * unit_) cerr2 :=
  match ys with
  | [] => Err NoSpectra2
  | y0 :: rest =>
      if forallb (fun y => same_unit (shown y) (shown y0)) rest then
        match map_res get_spectral ys with
        | Ok qs => Ok (map qmag qs, shown y0)
        | Err e => Err (Unit_ e) end
      else Err Different2
  end.
(** spectra.py:1941-1962: Spectrum2DCollection.from_spectra takes the shown values of the
    first spectrum and the stored values of the others *)
Definition lines_2d (zs : list attr) : res (list (list R) * unit_) cerr2 :=
  match zs with
  | [] => Err NoSpectra2
  | z0 :: rest =>
      match get_spectral z0 with
      | Err e => Err (Unit_ e)
      | Ok q0 => if forallb (fun z => same_unit (shown z) (shown z0)) rest
                 then Ok (qmag q0 :: map raw rest, shown z0) else Err Different2
      end
  end.
End Units.
