(** Lemmas for C81. *)
From Coq Require Import String Ascii.
From Verif Require Import Base Cpx Vec3 M_phonopy M_phmodes M_json S_json L_json L_json2 M_load S_load.
Open Scope string_scope.

Lemma chars_app a b : chars (a ++ b) = (chars a ++ chars b)%list.
Proof. induction a as [|c a IH]; [reflexivity|]. cbn. rewrite IH. reflexivity. Qed.
Lemma unchars_chars s : unchars (chars s) = s.
Proof. induction s as [|c s IH]; [reflexivity|]. cbn. rewrite IH. reflexivity. Qed.
Lemma chars_unchars l : chars (unchars l) = l.
Proof. induction l as [|c l IH]; [reflexivity|]. cbn. rewrite IH. reflexivity. Qed.
Lemma unchars_app a b : unchars (a ++ b) = unchars a ++ unchars b.
Proof. induction a as [|c a IH]; [reflexivity|]. cbn. rewrite IH. reflexivity. Qed.
Lemma until_some a l e : until a l = Some e -> exists r, l = (e ++ a :: r)%list /\ ~ In a e.
Proof.
  revert e. induction l as [|x l IH]; intros e; [discriminate|]. cbn. destruct (Ascii.eqb_spec x a) as [->|D].
  - intros H. injection H as <-. exists l. split; [reflexivity|intros []].
  - destruct (until a l) as [e'|]; [|discriminate]. cbn. intros H. injection H as <-. destruct (IH e' eq_refl) as (r & -> & NI). exists r. split; [reflexivity|].
    intros [E|I]; [exact (D E)|exact (NI I)].
Qed.
Lemma until_intro a e r : ~ In a e -> until a (e ++ a :: r) = Some e.
Proof.
  induction e as [|x e IH]; intros H; cbn; [rewrite Ascii.eqb_refl; reflexivity|].
  destruct (Ascii.eqb_spec x a) as [->|D]; [contradiction H; left; reflexivity|]. rewrite IH; [reflexivity|]. intros I. apply H. right. exact I.
Qed.
Lemma until_none a l : until a l = None <-> ~ In a l.
Proof.
  induction l as [|x l IH]; cbn; [split; [intros _ []|reflexivity]|]. destruct (Ascii.eqb_spec x a) as [->|D].
  - split; [discriminate|intros H; contradiction H; left; reflexivity].
  - destruct (until a l); cbn; split; intros H.
    + discriminate.
    + exfalso. assert (X : Some l0 = None) by (apply IH; intros I; apply H; right; exact I). discriminate.
    + intros [E|I]; [exact (D E)|]. apply (proj1 IH eq_refl I).
    + reflexivity.
Qed.
Lemma has_char_in s c : has_char s c <-> In c (chars s).
Proof.
  split.
  - intros (a & b & ->). rewrite chars_app. apply in_or_app. right. left. reflexivity.
  - intros I. apply in_split in I. destruct I as (l1 & l2 & E). exists (unchars l1), (unchars l2).
    rewrite <- (unchars_chars s), E, unchars_app. reflexivity.
Qed.

(** A file name [base ++ ext] whose part before the extension is not empty; the last part of a path *)
Definition file_base (base : string) : Prop := exists a c, base = a ++ String c "" /\ c <> "/"%char.
Definition last_part (path name : string) : Prop := ~ has_char name "/" /\ (path = name \/ exists d, path = d ++ String "/" name).
(** The last component *)
Lemma basename_last (l : list ascii) : ~ In "/"%char (basename l) /\ (l = basename l \/ exists d, l = (d ++ "/"%char :: basename l)%list).
Proof.
  unfold basename. destruct (until "/" (rev l)) as [e|] eqn:E.
  - apply until_some in E. destruct E as (r & E & NI). split; [rewrite <- in_rev; exact NI|]. right. exists (rev r).
    rewrite <- (rev_involutive l), E, rev_app_distr. cbn [rev]. rewrite <- app_assoc. reflexivity.
  - apply until_none in E. rewrite rev_involutive. split; [rewrite in_rev; exact E|left; reflexivity].
Qed.
Lemma basename_id l : ~ In "/"%char l -> basename l = l.
Proof. intros H. unfold basename. rewrite (proj2 (until_none _ _)); [apply rev_involutive|]. rewrite <- in_rev. exact H. Qed.
Lemma basename_app d l : ~ In "/"%char l -> basename (d ++ "/"%char :: l) = l.
Proof.
  intros H. unfold basename. rewrite rev_app_distr. cbn [rev]. rewrite <- app_assoc. cbn [app]. rewrite until_intro by (rewrite <- in_rev; exact H). apply rev_involutive.
Qed.
Lemma last_part_basename path name : last_part path name -> unchars (basename (chars path)) = name.
Proof.
  intros (H & E). rewrite has_char_in in H. destruct E as [-> | (d & ->)].
  - rewrite basename_id by exact H. apply unchars_chars.
  - rewrite chars_app. cbn [chars]. rewrite basename_app by exact H. apply unchars_chars.
Qed.
Lemma last_part_exists path : exists name, last_part path name.
Proof.
  destruct (basename_last (chars path)) as (H & E). exists (unchars (basename (chars path))). split.
  - rewrite has_char_in, chars_unchars. exact H.
  - destruct E as [E|(d & E)]; [left|right; exists (unchars d)]; rewrite <- (unchars_chars path) at 1; rewrite E at 1; [reflexivity|]. rewrite unchars_app. reflexivity.
Qed.

Lemma suffix_app base e : file_base base -> e <> "" -> ~ In "."%char (chars e) -> ~ In "/"%char (chars e) -> suffix (base ++ String "." e) = String "." e.
Proof.
  intros (a & c & -> & Hc) He Hd Hs. unfold suffix.
  assert (B : exists b, basename (chars ((a ++ String c "") ++ String "." e)) = (b ++ c :: "."%char :: chars e)%list).
  { rewrite !chars_app. cbn [chars]. destruct (basename_last (chars a)) as (Ns & [E|(d & E)]).
    - exists (basename (chars a)). rewrite <- app_assoc. cbn [app]. rewrite E at 1. apply basename_id. rewrite in_app_iff. intros [I|[I|[I|I]]]; [exact (Ns I)|exact (Hc I)|discriminate I|exact (Hs I)].
    - exists (basename (chars a)). rewrite E at 1. rewrite <- !app_assoc. cbn [app]. rewrite basename_app; [reflexivity|]. rewrite in_app_iff. intros [I|[I|[I|I]]]; [exact (Ns I)|exact (Hc I)|discriminate I|exact (Hs I)]. }
  destruct B as (b & ->). rewrite rev_app_distr. cbn [rev]. rewrite <- !app_assoc. cbn [app].
  rewrite until_intro by (rewrite <- in_rev; exact Hd).
  assert (L : length (rev (chars e)) <> 0%nat) by (rewrite rev_length; destruct e; [congruence|discriminate]).
  apply Nat.eqb_neq in L. rewrite L. rewrite app_length. cbn [length].
  destruct (Nat.eqb_spec (S (length (rev (chars e)))) (length (rev (chars e)) + S (S (length (rev b))))) as [X|_]; [lia|]. rewrite rev_involutive, unchars_chars. reflexivity.
Qed.
Lemma suffix_ends name : suffix name <> "" -> exists base, name = base ++ suffix name.
Proof.
  unfold suffix. destruct (until "." (rev (basename (chars name)))) as [e|] eqn:E; [|congruence]. destruct (Nat.eqb _ 0); [congruence|]. destruct (Nat.eqb _ _); [congruence|]. intros _.
  apply until_some in E. destruct E as (r & E & _). assert (B : basename (chars name) = (rev r ++ "."%char :: rev e)%list).
  { rewrite <- (rev_involutive (basename (chars name))), E, rev_app_distr. cbn [rev]. rewrite <- app_assoc. reflexivity. }
  destruct (basename_last (chars name)) as (_ & [X|(d & X)]); rewrite B in X.
  - exists (unchars (rev r)). rewrite <- (unchars_chars name) at 1. rewrite X, unchars_app. reflexivity.
  - exists (unchars (d ++ "/"%char :: rev r)). rewrite <- (unchars_chars name) at 1. rewrite X. rewrite app_comm_cons, app_assoc, unchars_app. reflexivity.
Qed.
Lemma last_char l : l <> [] -> exists a (c : ascii), l = (a ++ [c])%list.
Proof. intros H. destruct (exists_last H) as (a & c & E). exists a, c. exact E. Qed.
Lemma located_base s path ext : stem s -> ~ In "/"%char (chars ext) -> located path (s ++ ext) -> exists base, path = base ++ ext /\ file_base base /\ last_part path (s ++ ext).
Proof.
  intros (Hs & c & r & Es & Hc) He L. rewrite has_char_in in Hs.
  assert (Ns : ~ has_char (s ++ ext) "/") by (rewrite has_char_in, chars_app, in_app_iff; tauto).
  destruct (last_char (chars s)) as (a & x & Ex); [rewrite Es; discriminate|].
  assert (Xs : x <> "/"%char) by (intros ->; apply Hs; rewrite Ex; apply in_or_app; right; left; reflexivity).
  assert (Es' : s = unchars a ++ String x "") by (rewrite <- (unchars_chars s), Ex, unchars_app; reflexivity).
  destruct L as [-> | (d & ->)].
  - exists s. split; [reflexivity|]. split; [exists (unchars a), x; split; assumption|]. split; [exact Ns|left; reflexivity].
  - exists (d ++ String "/" s). assert (App : forall u v w : string, (u ++ v) ++ w = u ++ (v ++ w)).
    { induction u as [|y u IH]; intros; [reflexivity|]. cbn. rewrite IH. reflexivity. }
    split; [rewrite App; reflexivity|]. split.
    + exists (d ++ String "/" (unchars a)), x. split; [|exact Xs]. rewrite App. cbn. rewrite <- Es'. reflexivity.
    + split; [exact Ns|]. right. exists d. reflexivity.
Qed.
Lemma extension_stem s e : stem s -> ~ In "."%char (chars e) -> ~ In "/"%char (chars e) -> extension (s ++ String "." e) = e.
Proof.
  intros (Hs & c & r & Es & Hc) Hd He. rewrite has_char_in in Hs. unfold extension. rewrite basename_id.
  2: { rewrite chars_app, in_app_iff. cbn. intros [I|[I|I]]; [exact (Hs I)|discriminate I|exact (He I)]. }
  assert (D : drop_dots (chars (s ++ String "." e)) = chars (s ++ String "." e)).
  { rewrite Es. cbn. destruct (Ascii.eqb_spec c "."); [contradiction|reflexivity]. }
  rewrite D, chars_app, rev_app_distr. cbn [chars rev]. rewrite <- app_assoc. cbn [app]. rewrite until_intro by (rewrite <- in_rev; exact Hd).
  rewrite rev_involutive. apply unchars_chars.
Qed.
Lemma suffix_stem s e : stem s -> e <> "" -> ~ In "."%char (chars e) -> ~ In "/"%char (chars e) -> suffix (s ++ String "." e) = String "." e.
Proof.
  intros S H1 H2 H3. destruct (located_base s (s ++ String "." e) (String "." e) S) as (base & Eb & F & _).
  - cbn. intros [I|I]; [discriminate I|exact (H3 I)].
  - left. reflexivity.
  - rewrite Eb. apply suffix_app; assumption.
Qed.
Ltac suff := apply suffix_app; [assumption|discriminate|cbn; intuition discriminate|cbn; intuition discriminate].

Section L.
Context {U A : Type}.
Variables (print : U -> string) (parse : string -> option U) (N : nat) (tol : R) (kf : factors) (km : mfactors).
Hypothesis rt : forall u, parse (print u) = Some u.
Notation load := (@load_data_from_file U A parse N tol kf km).

Lemma load_phonon base fo cm cf jf dir : file_base base ->
  load (base ++ ".phonon") fo cm cf jf dir = match cm (negb fo) with Ok a => Ok (if fo then CFrequencies else CModes, FromCastep a) | Err e => Err e end.
Proof. intros H. unfold load_data_from_file. replace (suffix (base ++ ".phonon")) with ".phonon" by (symmetry; suff). destruct fo; reflexivity. Qed.
Lemma load_castep_bin base ext fo cm cf jf dir : file_base base -> In ext [".castep_bin"; ".check"] ->
  load (base ++ ext) fo cm cf jf dir = match cf with Ok a => Ok (CForce, FromCastep a) | Err e => Err e end.
Proof.
  intros H I. unfold load_data_from_file. replace (suffix (base ++ ext)) with ext by (symmetry; destruct I as [<- | [<- | []]]; suff).
  destruct I as [<- | [<- | []]]; reflexivity.
Qed.
Lemma load_json base fo cm cf j dir : file_base base -> load (base ++ ".json") fo cm cf (Ok j) dir = load_euphonic_json parse fo j.
Proof. intros H. unfold load_data_from_file. replace (suffix (base ++ ".json")) with ".json" by (symmetry; suff). reflexivity. Qed.
Lemma load_phonopy base ext fo cm cf jf dir name : file_base base -> In ext [".hdf5"; ".yaml"] -> last_part (base ++ ext) name ->
  load (base ++ ext) fo cm cf jf dir = load_phonopy_file N tol kf km dir name fo.
Proof.
  intros H I L. unfold load_data_from_file. rewrite (last_part_basename _ _ L). replace (suffix (base ++ ext)) with ext by (symmetry; destruct I as [<- | [<- | []]]; suff).
  destruct I as [<- | [<- | []]]; reflexivity.
Qed.
Lemma load_other name fo cm cf jf dir : (forall ext base, In ext known_extensions -> name <> base ++ ext) -> load name fo cm cf jf dir = Err NotRecognised.
Proof.
  intros H. unfold load_data_from_file.
  assert (X : forall ext, In ext known_extensions -> String.eqb (suffix name) ext = false).
  { intros ext I. apply String.eqb_neq. intros E. destruct (suffix_ends name) as (b & Eb); [intros Z; rewrite Z in E; rewrite <- E in I; cbn in I; intuition discriminate|].
    rewrite E in Eb. exact (H ext b I Eb). }
  unfold mem_suffix. cbn [existsb]. rewrite !X by (cbn; tauto). reflexivity.
Qed.

(** JSON files *)
Lemma to_json_keys (l l' : list (string * pyv U)) : to_json_entries l = Ok l' -> map fst l' = map fst l.
Proof.
  revert l'. induction l as [|[k v] l IH]; intros l'; cbn; [intros E; injection E as <-; reflexivity|].
  destruct (to_json_dict k v); [|discriminate]. destruct (to_json_entries l) as [r|]; [|discriminate]. intros E. injection E as <-. cbn. rewrite (IH r eq_refl). reflexivity.
Qed.
Lemma dump_keys (l : list (string * pyv U)) js : dump_dict l = Ok js -> map fst js = map fst l.
Proof.
  revert js. induction l as [|[k v] l IH]; intros js; cbn; [intros E; injection E as <-; reflexivity|].
  destruct (dump v); [|discriminate]. destruct (dump_dict l) as [r|]; [|discriminate]. intros E. injection E as <-. cbn. rewrite (IH r eq_refl). reflexivity.
Qed.
Lemma loads_keys js : map fst (@loads_dict U js) = map fst js.
Proof. induction js as [|[k v] l IH]; [reflexivity|]. cbn. rewrite IH. reflexivity. Qed.
Lemma file_keys cls version o l j : to_dict print o = PDict l -> to_json_file print cls version o = Ok j ->
  exists d, loads (U := U) j = PDict d /\ map fst d = (map fst l ++ ["__euphonic_class__"; "__euphonic_version__"])%list.
Proof.
  intros E. unfold to_json_file. rewrite E, to_json_PDict. cbn [String.eqb]. destruct (to_json_entries l) as [l'|] eqn:E1; [|discriminate].
  rewrite dump_PDict. destruct (dump_dict _) as [js|] eqn:E2; [|discriminate]. intros X. injection X as <-.
  rewrite loads_JDict. eexists. split; [reflexivity|]. rewrite loads_keys, (dump_keys _ _ E2), map_app, (to_json_keys _ _ E1). reflexivity.
Qed.
Lemma lookup_key (k : string) (d : list (string * pyv U)) : match lookup k d with Some _ => true | None => false end = existsb (String.eqb k) (map fst d).
Proof. induction d as [|[k' v] d IH]; [reflexivity|]. cbn. destruct (String.eqb k k'); [reflexivity|exact IH]. Qed.
Lemma json_dispatch cls version o l j fo : to_dict print o = PDict l -> to_json_file print cls version o = Ok j ->
  let has k := existsb (String.eqb k) (map fst l) in
  @load_euphonic_json U A parse fo j = 
    let get c k := match from_json_file parse k j with Ok d => Ok (c, FromJson d) | Err e => Err (JsonErr e) end in
    if has "force_constants" then get CForce ForceConstants
    else if has "frequencies" then
      if (has "eigenvectors" && negb fo)%bool then get CModes QpointPhononModes else get CFrequencies QpointFrequencies
    else Err NotEuphonicData.
Proof.
  intros E F has. destruct (file_keys cls version o l j E F) as (d & Ed & Ek). unfold load_euphonic_json. rewrite Ed. cbv zeta. rewrite !lookup_key, Ek. unfold has.
  rewrite !existsb_app. cbn [existsb]. change (String.eqb "force_constants" "__euphonic_class__") with false. change (String.eqb "force_constants" "__euphonic_version__") with false.
  change (String.eqb "frequencies" "__euphonic_class__") with false. change (String.eqb "frequencies" "__euphonic_version__") with false.
  change (String.eqb "eigenvectors" "__euphonic_class__") with false. change (String.eqb "eigenvectors" "__euphonic_version__") with false.
  cbn [orb]. rewrite !Bool.orb_false_r. reflexivity.
Qed.
End L.
