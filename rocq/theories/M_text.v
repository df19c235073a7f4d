(** Model of writing spectra to text files: /repo/euphonic/spectra.py Spectrum1D.to_text_file
    502-519 and Spectrum1DCollection.to_text_file 1239-1270.
    Simplifications: the file is what np.savetxt is given, the header as the values put into
    it (the version line and json.dumps are left out) and the rows as numbers; [fmt] only
    says how these are printed.  A collection has at least one line. *)
From Coq Require Import String.
From Verif Require Import Base M_qpts M_path M_bins M_coll.
Open Scope R_scope.

(** A column of the header: its number, the number of its line, the metadata of the line only *)
Record textfile := mkTF {
  tf_xunit : string; tf_yunit : string; tf_common : dict; tf_columns : list (nat * nat * dict); tf_rows : list (list R) }.
Inductive txterr := TxAxis (e : binerr) | TxColl (e : M_coll.cerr).

(** np.hstack((centres[:, np.newaxis], y_data.transpose())) *)
Definition hstack_columns (centres : list R) (lines : list (list R)) : list (list R) :=
  map (fun i => nth i centres 0 :: map (fun l => nth i l 0) lines) (seq 0 (List.length centres)).
(** 1255-1270 *)
Definition to_text_file (xunit yunit : string) (c : coll) : res textfile txterr :=
  let line := match line_data (c_meta c) with Some l => l | None => map (fun _ => []) (c_lines c) end in
  match get_bin_centres (width (c_lines c)) (hd [] (c_axes c)) with
  | Err e => Err (TxAxis e)
  | Ok b => Ok (mkTF xunit yunit (top (c_meta c)) (map (fun p => ((fst p + 2)%nat, fst p, snd p)) (combine (seq 0 (List.length line)) line)) (hstack_columns b (c_lines c)))
  end.
(** 518-519 *)
Definition to_text_file_1d (xunit yunit : string) (s : spec) : res textfile txterr :=
  match from_spectra [s] with Err e => Err (TxColl e) | Ok c => to_text_file xunit yunit c end.
