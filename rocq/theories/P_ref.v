(** C66: reference data. *)
From Coq Require Import String.
From Verif Require Import Base Cpx M_ref S_ref M_refdata M_dos L_ref L_ref2.
Open Scope R_scope.

(** C66.  The dictionary returned has exactly the entries written with a decimal point or as a
    complex number, once each, in the unit the file names.  Partial: the property speaks of every
    number; whole numbers are missing, see below. *)
Theorem C66_entries_partial : forall (U : Type) (unit_of : string -> option U) shipped disk collection property file data s u,
  (match shipped collection with Some f => Some f | None => disk collection end) = Some file ->
  well_formed file -> property_table file property data -> In ("__units__"%string, JStr s) data -> unit_of s = Some u ->
  exists d, get_reference_data unit_of shipped disk collection property = Ok d /\ NoDup (map fst d) /\
    forall k z u', In (k, (z, u')) d <-> u' = u /\ exists v, In (k, v) data /\ decimal_or_complex v z.
Proof. exact @entries. Qed.
Print Assumptions C66_entries_partial.

(** C66.  From the shipped files every scattering length and every coherent cross section that
    is a number is available. *)
Theorem C66_shipped : forall (U : Type) (unit_of : string -> option U) disk fm barn,
  unit_of "fm"%string = Some fm -> unit_of "barn"%string = Some barn ->
  (exists d, get_reference_data unit_of shipped disk "Sears1992" "coherent_scattering_length" = Ok d /\
     forall k v z, In (k, v) sears_coherent_scattering_length -> number v z -> In (k, (z, fm)) d) /\
  (exists d, get_reference_data unit_of shipped disk "BlueBook" "coherent_cross_section" = Ok d /\
     forall k v z, In (k, v) bluebook_coherent_cross_section -> number v z -> In (k, (z, barn)) d).
Proof. intros U unit_of disk fm barn Hf Hb. split; [exact (sears_all unit_of disk fm Hf)|exact (blue_all unit_of disk barn Hb)]. Qed.
Print Assumptions C66_shipped.

Example C66_nonvacuous : well_formed sears /\ well_formed bluebook /\
  property_table sears "coherent_scattering_length" sears_coherent_scattering_length /\
  In ("Cd"%string, JObj [("__complex__"%string, JBool true); ("real"%string, M_refdata.d 487 2); ("imag"%string, M_refdata.d (-70) 2)]) sears_coherent_scattering_length.
Proof. split; [exact sears_wf|]. split; [exact bluebook_wf|]. split; [exact sears_table|]. apply find_in. reflexivity. Qed.

(** C66, refuted.  A number written without a decimal point is left out, whatever the file. *)
Theorem C66_whole_numbers_refuted : forall (U : Type) (unit_of : string -> option U) shipped disk collection property file data s u k n,
  (match shipped collection with Some f => Some f | None => disk collection end) = Some file ->
  well_formed file -> property_table file property data -> In ("__units__"%string, JStr s) data -> unit_of s = Some u ->
  In (k, JInt n) data ->
  exists d, get_reference_data unit_of shipped disk collection property = Ok d /\ ~ In k (map fst d).
Proof.
  intros U unit_of sh disk coll prop file data s u k n Hf W T Hs Hu Hk.
  exact (dropped unit_of sh disk coll prop file data s u k (JInt n) Hf W T Hs Hu Hk (int_not_decimal n)).
Qed.
Print Assumptions C66_whole_numbers_refuted.

(** C66, refuted.  The shipped BlueBook file writes the incoherent cross sections of Sm, Th, Xe
    and Yb as 39, 0, 0 and 4: they are not returned, and an incoherent or combined neutron-weighted
    DOS of any crystal with one of these atoms raises an error. *)
Theorem C66_bluebook_refuted : forall (U : Type) (unit_of : string -> option U) disk u, unit_of "barn"%string = Some u ->
  exists d, get_reference_data unit_of shipped disk "BlueBook" "incoherent_cross_section" = Ok d /\
    (forall k, In k ["Sm"; "Th"; "Xe"; "Yb"]%string -> ~ In k (map fst d) /\ exists n, In (k, JInt n) bluebook_incoherent_cross_section) /\
    forall name element a coh k bins e mass widths wmin meth,
      (a < M_dos.n_atoms e)%nat -> In (name (element a)) ["Sm"; "Th"; "Xe"; "Yb"]%string ->
      let incoh := fun el => match find (name el) d with Some (z, _) => Some (re z) | None => None end in
      calculate_pdos_weighted k bins e element mass widths wmin meth (Some Incoherent) (Dataset coh incoh) = Err MissingCrossSection /\
      calculate_pdos_weighted k bins e element mass widths wmin meth (Some Both) (Dataset coh incoh) = Err MissingCrossSection.
Proof.
  intros U unit_of disk u Hu. destruct (blue_dropped unit_of disk u Hu) as [d [E H]]. exists d. split; [exact E|]. split; [exact H|].
  destruct (blue_pdos unit_of disk u Hu) as [d' [E' H']]. rewrite E in E'. injection E' as <-. exact H'.
Qed.
Print Assumptions C66_bluebook_refuted.

(** C66.  The errors: no such collection, no such property, no unit, unknown unit. *)
Theorem C66_errors : forall (U : Type) (unit_of : string -> option U) shipped disk collection property,
  (shipped collection = None -> disk collection = None ->
   get_reference_data unit_of shipped disk collection property = Err UnknownCollection) /\
  forall file, (match shipped collection with Some f => Some f | None => disk collection end) = Some file -> well_formed file ->
  (forall top props, file = JObj top -> table top -> In ("physical_property"%string, JObj props) top -> table props ->
     ~ In property (map fst props) -> get_reference_data unit_of shipped disk collection property = Err NoSuchProperty) /\
  (forall data, property_table file property data ->
     (~ In "__units__"%string (map fst data) -> get_reference_data unit_of shipped disk collection property = Err NoUnits) /\
     (forall s, In ("__units__"%string, JStr s) data -> unit_of s = None -> get_reference_data unit_of shipped disk collection property = Err BadUnits)).
Proof.
  intros U unit_of sh disk coll prop. split; [exact (unknown unit_of sh disk coll prop)|]. intros file Hf W. split.
  - intros top props E Tt Ht Tp Hn. exact (no_property unit_of sh disk coll prop file top props Hf W E Tt Ht Tp Hn).
  - intros data T. exact (unit_errors unit_of sh disk coll prop file data Hf W T).
Qed.
Print Assumptions C66_errors.

(** Non-vacuity: asking the shipped scattering lengths for cross sections *)
Example C66_wrong_property : forall (U : Type) (unit_of : string -> option U) disk,
  get_reference_data unit_of shipped disk "Sears1992" "coherent_cross_section" = Err NoSuchProperty /\
  get_reference_data unit_of shipped (fun _ => None) "sears1992" "coherent_cross_section" = Err UnknownCollection.
Proof. intros. split; reflexivity. Qed.
