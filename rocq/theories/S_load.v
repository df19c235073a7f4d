(** Words for loading files (C81). *)
From Coq Require Import String Ascii.
From Verif Require Import Base.
Open Scope string_scope.

Definition has_char (s : string) (c : ascii) : Prop := exists a b, s = a ++ String c b.
(** What stands before the extension in the name of a file: not empty, no folder, no leading dot *)
Definition stem (s : string) : Prop := ~ has_char s "/" /\ exists c r, s = String c r /\ c <> "."%char.
(** A file of this name here or in a folder *)
Definition located (path name : string) : Prop := path = name \/ exists folder, path = folder ++ "/" ++ name.
Definition known_extensions : list string := [".phonon"; ".castep_bin"; ".check"; ".json"; ".hdf5"; ".yaml"].
