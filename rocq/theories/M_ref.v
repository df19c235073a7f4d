(** Model of get_reference_data: /repo/euphonic/util.py 170-261.
    A data file is the tree of JSON values json.load makes; the keys of one object are
    distinct (json.load keeps the last of several).  Lists are left out: neither shipped file
    has one.  A number written without point and exponent becomes int, otherwise float.
    ureg(...) is the argument [unit_of]: None is UndefinedUnitError. *)
From Coq Require Import String.
From Verif Require Import Base Cpx.
Open Scope R_scope.

Inductive jval :=
  | JFloat (x : R) | JInt (z : Z) | JStr (s : string) | JNull | JBool (b : bool)
  | JObj (l : list (string * jval)).
(** What the object_hook turns it into *)
Inductive dval :=
  | DFloat (x : R) | DInt (z : Z) | DStr (s : string) | DNull | DBool (b : bool)
  | DComplex (z : C) | DDict (l : list (string * dval)).
Inductive rerr :=
  | UnknownCollection    (* ValueError, 223-226 *)
  | NoPropertyKey        (* AttributeError, 228-230 *)
  | NoSuchProperty       (* ValueError, 233-237 *)
  | NoUnits              (* ValueError, 240-242 *)
  | BadUnits             (* ValueError, 246-250 *)
  | Malformed.           (* any other exception: a value of the wrong type *)

Fixpoint find {A} (k : string) (l : list (string * A)) : option A :=
  match l with [] => None | (k', v) :: r => if String.eqb k k' then Some v else find k r end.
(** complex(real, imag): numbers and booleans are accepted *)
Definition real_of (v : dval) : option R :=
  match v with DFloat x => Some x | DInt z => Some (IZR z) | DBool b => Some (if b then 1 else 0) | _ => None end.
(** util.py:211-214 [custom_decode] *)
Definition custom_decode (l : list (string * dval)) : res dval rerr :=
  match find "__complex__" l with
  | None => Ok (DDict l)
  | Some _ =>
      match find "real" l, find "imag" l with
      | Some a, Some b => match real_of a, real_of b with Some x, Some y => Ok (DComplex (mkC x y)) | _, _ => Err Malformed end
      | _, _ => Err Malformed
      end
  end.
(** json.load(fd, object_hook=custom_decode): the hook is called on every object, innermost
    first *)
Fixpoint load (v : jval) : res dval rerr :=
  match v with
  | JFloat x => Ok (DFloat x) | JInt z => Ok (DInt z) | JStr s => Ok (DStr s) | JNull => Ok DNull | JBool b => Ok (DBool b)
  | JObj l =>
      match (fix go (l : list (string * jval)) : res (list (string * dval)) rerr :=
        match l with
        | [] => Ok []
        | (k, x) :: r => match load x with Err e => Err e | Ok y => match go r with Err e => Err e | Ok r' => Ok ((k, y) :: r') end end
        end) l with
      | Ok l' => custom_decode l'
      | Err e => Err e
      end
  end.

Section Reference.
Context {U : Type}.
Variable unit_of : string -> option U.
(** value * unit for values that are float or complex, 252-254 *)
Definition quantity (u : U) (p : string * dval) : list (string * (C * U)) :=
  match snd p with DFloat x => [(fst p, (RtoC x, u))] | DComplex z => [(fst p, (z, u))] | _ => [] end.
(** 228-254, once the file is loaded *)
Definition extract (file : dval) (property : string) : res (list (string * (C * U))) rerr :=
  match file with
  | DDict top =>
      match find "physical_property" top with
      | None => Err NoPropertyKey
      | Some (DDict props) =>
          match find property props with
          | None | Some DNull => Err NoSuchProperty
          | Some (DDict data) =>
              match find "__units__" data with
              | None | Some DNull => Err NoUnits
              | Some (DStr s) => match unit_of s with None => Err BadUnits | Some u => Ok (flat_map (quantity u) data) end
              | Some _ => Err Malformed
              end
          | Some _ => Err Malformed
          end
      | Some _ => Err Malformed
      end
  | _ => Err Malformed
  end.
(** 206-226.  [shipped] are the two files of euphonic/data, [disk] the files a path names. *)
Definition get_reference_data (shipped disk : string -> option jval) (collection property : string) : res (list (string * (C * U))) rerr :=
  match (match shipped collection with Some f => Some f | None => disk collection end) with
  | None => Err UnknownCollection
  | Some f => match load f with Err e => Err e | Ok d => extract d property end
  end.
End Reference.
