(** Lemmas for C78: the lines of the command line tools' PDOS. *)
From Coq Require Import String.
From Verif Require Import Base Cpx Vec3 M_cell M_qpts M_path M_broad M_dos M_bins M_coll M_fixed M_clidos S_coll S_clidos L_util L_qpts L_dos2 L_path2 L_bins2 L_coll L_coll2 L_coll3.
Open Scope R_scope.
Open Scope string_scope.

Lemma mapE_over_map {A B D X} (h : A -> B) (f : B -> res D X) l : mapE f (map h l) = mapE (fun x => f (h x)) l.
Proof. induction l as [|a l IH]; [reflexivity|]. cbn [map mapE]. now rewrite IH. Qed.

Section Pdos.
Variables (bins : list R) (lines : list (list R)) (types : list string) (wt : option string).
Notation P := (pdos_collection bins lines types wt).
Hypothesis Nt : types <> [].
Hypothesis Ll : length lines = length types.
Hypothesis Eq : forall l m, In l lines -> In m lines -> length l = length m.
Notation topd := (match wt with None => [] | Some w => [("weighting", VStr w)] end).
Notation ty i := (nth i types "").

Lemma atom_line_wf i x : wf_dict (atom_line i x).
Proof. unfold atom_line. split; cbn; [repeat constructor; cbn; intuition discriminate|intuition discriminate]. Qed.
Lemma top_wf : wf_dict topd.
Proof. destruct wt; split; cbn; [repeat constructor; intros []|intuition discriminate|constructor|intros []]. Qed.
Lemma pdos_wf : wf_coll P.
Proof.
  unfold wf_coll, pdos_collection. cbn [c_lines c_meta top line_data]. split; [intros E; apply Nt; destruct types; [reflexivity|rewrite E in Ll; discriminate]|].
  split; [exact Eq|]. split; [exact top_wf|]. rewrite map_length, seq_length. split; [symmetry; exact Ll|].
  intros d I. apply in_map_iff in I. destruct I as (i & <- & _). split; [apply atom_line_wf|].
  intros k Ik. destruct wt; cbn in *; intuition (subst; discriminate).
Qed.
Lemma pdos_len : clen P = length types.
Proof. exact Ll. Qed.
Lemma pdos_entry i kv : (i < length types)%nat ->
  (entry P i kv <-> In kv topd \/ kv = ("species", VStr (ty i)) \/ kv = ("index", VInt (Z.of_nat i))).
Proof.
  intros Hi. rewrite entry_iff by (try exact pdos_wf; rewrite pdos_len; exact Hi).
  destruct (iter_spec P pdos_wf) as [_ Is]. destruct (Is i ltac:(rewrite pdos_len; exact Hi)) as [_ Q].
  unfold pdos_collection at 1 in Q. cbn [c_meta line_data] in Q. rewrite Q. clear Q Is.
  unfold pdos_collection. cbn [c_meta top].
  rewrite (map_nth_indep _ _ _ 0%nat []) by (rewrite seq_length; exact Hi). rewrite seq_nth by exact Hi. cbn [plus].
  unfold atom_line. cbn [In]. intuition.
Qed.
Lemma pdos_species i x : (i < length types)%nat -> (entry P i ("species", VStr x) <-> ty i = x).
Proof.
  intros Hi. rewrite pdos_entry by exact Hi. split.
  - intros [I|[E|E]]; [|congruence|discriminate]. destruct wt; [destruct I as [I|[]]; discriminate|destruct I].
  - intros <-. right. left. reflexivity.
Qed.
Lemma pdos_no_label i v : (i < length types)%nat -> ~ entry P i ("label", v).
Proof.
  intros Hi. rewrite pdos_entry by exact Hi. intros [I|[E|E]]; [|discriminate|discriminate]. destruct wt; [destruct I as [I|[]]; discriminate|destruct I].
Qed.
Lemma pdos_agree i j : (i < length types)%nat -> (j < length types)%nat -> (agree P ["species"] i j <-> ty i = ty j).
Proof.
  intros Hi Hj. split.
  - intros A. pose proof (proj1 (A "species" (VStr (ty i)) (or_introl eq_refl)) (proj2 (pdos_species i (ty i) Hi) eq_refl)) as H.
    apply (pdos_species j _ Hj) in H. congruence.
  - intros E k v [<-|[]]. rewrite !pdos_entry by assumption. rewrite E.
    assert (N : forall n, ("species", v) <> ("index", VInt n)) by (intros n; discriminate).
    split; (intros [A|[A|A]]; [left; exact A|right; left; exact A|exfalso; exact (N _ A)]).
Qed.

Lemma Sum_same_members (l m : list nat) f : NoDup l -> NoDup m -> (forall i, In i l <-> In i m) -> Sum l f = Sum m f.
Proof. intros A B H. apply Sum_perm. now apply NoDup_Permutation. Qed.
Lemma in_atoms x i : In i (atoms_of types x) <-> (i < length types)%nat /\ ty i = x.
Proof. unfold atoms_of. rewrite filter_In, in_seq, String.eqb_eq. intuition lia. Qed.
Lemma nodup_atoms x : NoDup (atoms_of types x).
Proof. apply NoDup_filter, seq_NoDup. Qed.
Lemma in_types x : In x types <-> exists i, (i < length types)%nat /\ ty i = x.
Proof.
  split; [intros I; destruct (In_nth _ _ "" I) as (i & A & B); exists i; split; assumption|]. intros (i & A & <-). apply nth_In, A.
Qed.
Lemma width_all l : In l lines -> length l = M_coll.width lines.
Proof. intros I. destruct lines as [|a r]; [destruct I|]. cbn [M_coll.width]. apply Eq; [exact I|left; reflexivity]. Qed.

(** group_by('species'): one line per species. *)
Lemma grouped : exists g sp, group_by P ["species"] = Ok g /\ wf_coll g /\ species_order types sp /\ clen g = length sp /\
  c_axes g = [bins] /\ c_ticks g = None /\
  forall k, (k < length sp)%nat -> line_sum lines (atoms_of types (nth k sp "")) (nth k (c_lines g) []) /\
    entry g k ("species", VStr (nth k sp "")) /\ (forall v, ~ entry g k ("label", v)) /\
    forall w, wt = Some w -> entry g k ("weighting", VStr w).
Proof.
  destruct (group_spec P ["species"] pdos_wf) as (g & groups & Eg & Wg & Lg & Ax & Tk & Pm & Ne & Ag & Gs & Or).
  rewrite pdos_len in Pm.
  set (sp := map (fun l => ty (hd 0%nat l)) groups).
  assert (Lsp : length sp = length groups) by apply map_length.
  assert (Spn : forall k, (k < length groups)%nat -> nth k sp "" = ty (hd 0%nat (nth k groups []))).
  { intros k Hk. unfold sp. rewrite (map_nth_indep _ _ _ [] "") by exact Hk. reflexivity. }
  assert (Bd : forall k i, (k < length groups)%nat -> In i (nth k groups []) -> (i < length types)%nat).
  { intros k i Hk Ii. assert (I : In i (concat groups)) by (apply in_concat; exists (nth k groups []); split; [apply nth_In, Hk|exact Ii]).
    apply (Permutation_in _ Pm) in I. apply in_seq in I. lia. }
  assert (Hd : forall k, (k < length groups)%nat -> In (hd 0%nat (nth k groups [])) (nth k groups [])).
  { intros k Hk. pose proof (Ne _ (nth_In groups [] Hk)) as N. destruct (nth k groups []); [congruence|left; reflexivity]. }
  assert (Mem : forall k i, (k < length groups)%nat -> In i (nth k groups []) -> ty i = nth k sp "").
  { intros k i Hk Ii. rewrite Spn by exact Hk. apply pdos_agree; [apply (Bd k); assumption|apply (Bd k); [exact Hk|apply Hd, Hk]|].
    apply (Ag k k); try assumption; [apply Hd, Hk|reflexivity]. }
  assert (Cov : forall i, (i < length types)%nat -> exists k, (k < length groups)%nat /\ In i (nth k groups [])).
  { intros i Hi. assert (I : In i (concat groups)) by (apply (Permutation_in _ (Permutation_sym Pm)), in_seq; lia).
    apply in_concat in I. destruct I as (l & Il & Ii). destruct (In_nth _ _ [] Il) as (k & Hk & El). exists k. split; [exact Hk|]. rewrite El. exact Ii. }
  assert (Same : forall a b, (a < length groups)%nat -> (b < length groups)%nat -> nth a sp "" = nth b sp "" -> a = b).
  { intros a b Ha Hb E. apply (Ag a b (hd 0%nat (nth a groups [])) (hd 0%nat (nth b groups [])) Ha Hb (Hd a Ha) (Hd b Hb)).
    apply pdos_agree; [apply (Bd a); [exact Ha|apply Hd, Ha]|apply (Bd b); [exact Hb|apply Hd, Hb]|]. rewrite <- !Spn by assumption. exact E. }
  assert (Is : forall k i, (k < length groups)%nat -> (In i (nth k groups []) <-> In i (atoms_of types (nth k sp "")))).
  { intros k i Hk. rewrite in_atoms. split.
    - intros I. split; [apply (Bd k); assumption|apply Mem; assumption].
    - intros [Hi E]. destruct (Cov i Hi) as (k' & Hk' & I). assert (k' = k) as <-; [|exact I]. apply Same; [exact Hk'|exact Hk|].
      rewrite <- E. symmetry. apply Mem; assumption. }
  assert (Nd : forall k, (k < length groups)%nat -> NoDup (nth k groups [])).
  { intros k Hk. pose proof (Permutation_NoDup (Permutation_sym Pm) (seq_NoDup _ _)) as N. clear -N Hk. revert k Hk.
    induction groups as [|l gs IH]; intros k Hk; [cbn in Hk; lia|]. cbn [concat] in N.
    assert (NoDup l /\ NoDup (concat gs)) as [A B].
    { clear -N. induction l as [|a l IH]; [split; [constructor|exact N]|]. cbn [app] in N. inversion N; subst. destruct (IH H2) as [A B]. split; [|exact B].
      constructor; [|exact A]. intros I. apply H1. apply in_app_iff. left. exact I. }
    destruct k as [|k]; [exact A|]. cbn [nth]. apply IH; [exact B|cbn in Hk; lia]. }
  exists g, sp. split; [exact Eg|]. split; [exact Wg|]. split; [|split; [congruence|]].
  - split; [|split].
    + apply (NoDup_nth sp ""). rewrite Lsp. intros a b Ha Hb E. apply Same; assumption.
    + intros x. rewrite in_types. split.
      * intros I. destruct (In_nth _ _ "" I) as (k & Hk & <-). rewrite Lsp in Hk. exists (hd 0%nat (nth k groups [])).
        split; [apply (Bd k); [exact Hk|apply Hd, Hk]|]. symmetry. apply Spn, Hk.
      * intros (i & Hi & <-). destruct (Cov i Hi) as (k & Hk & I). rewrite (Mem k i Hk I). apply nth_In. lia.
    + intros a b j Hab Hb Hj. rewrite Lsp in Hb. assert (Lj : (j < length types)%nat) by (apply nth_error_Some; congruence).
      apply (nth_error_nth _ _ "") in Hj. destruct (Or a b j Hab Hb) as (i & Ii & Lt).
      { apply Is; [exact Hb|]. apply in_atoms. split; assumption. }
      exists i. split; [exact Lt|]. rewrite <- (Mem a i) by (try exact Ii; lia). apply nth_error_nth'. apply (Bd a); [lia|exact Ii].
  - split; [exact Ax|]. split; [exact Tk|]. intros k Hk. rewrite Lsp in Hk. destruct (Gs k Hk) as (s & As & Ls & Ss & Me).
    assert (Hg : (k < clen g)%nat) by lia. pose proof (proj1 (at_pos_iff g k s Wg Hg) As) as Es.
    assert (En : forall kv, entry g k kv <-> forall i, In i (nth k groups []) -> entry P i kv).
    { intros kv. rewrite <- Me. rewrite (entry_iff g k kv Wg Hg). rewrite Es. reflexivity. }
    split; [|split; [|split]].
    + split.
      * intros l Il. rewrite (width_all l Il). rewrite Es in Ls. exact Ls.
      * intros j. specialize (Ss j). rewrite Es in Ss. cbn [s_data] in Ss. rewrite Ss. unfold pdos_collection. cbn [c_lines].
        apply Sum_same_members; [apply Nd, Hk|apply nodup_atoms|]. intros i. apply Is, Hk.
    + apply En. intros i Ii. apply pdos_species; [apply (Bd k); assumption|]. apply Mem; assumption.
    + intros v Ev. apply (pdos_no_label (hd 0%nat (nth k groups [])) v); [apply (Bd k); [exact Hk|apply Hd, Hk]|].
      apply (proj1 (En _) Ev). apply Hd, Hk.
    + intros w Ew. apply En. intros i Ii. apply pdos_entry; [apply (Bd k); assumption|]. left. rewrite Ew. left. reflexivity.
Qed.

(** Adding the labels *)
Lemma labelled g sp : wf_coll g -> clen g = length sp -> (2 <= length sp)%nat -> NoDup sp ->
  (forall k, (k < length sp)%nat -> entry g k ("species", VStr (nth k sp "")) /\ forall v, ~ entry g k ("label", v)) ->
  exists g', label_lines g = Ok g' /\ wf_coll g' /\ c_axes g' = c_axes g /\ c_lines g' = c_lines g /\ c_ticks g' = c_ticks g /\
  forall k kv, (k < length sp)%nat -> (entry g' k kv <-> entry g k kv \/ kv = ("label", VStr (nth k sp ""))).
Proof.
  intros W Lg L2 Nd H. pose proof W as (Wl & Weq & Wt & Wd). destruct (iter_spec g W) as [Li Is].
  assert (Diff : forall a b, (a < length sp)%nat -> (b < length sp)%nat -> entry g b ("species", VStr (nth a sp "")) -> a = b).
  { intros a b Ha Hb E. pose proof (entry_unique g b _ _ _ W ltac:(lia) E (proj1 (H b Hb))) as V. injection V as V.
    exact (proj1 (NoDup_nth sp "") Nd a b Ha Hb V). }
  unfold label_lines. destruct (line_data (c_meta g)) as [ds|] eqn:Ed.
  2:{ exfalso. assert (0 = 1)%nat; [|discriminate]. apply Diff; [lia|lia|]. apply entry_iff; [exact W|lia|].
      rewrite (proj2 (Is 1%nat ltac:(lia))), <- (proj2 (Is 0%nat ltac:(lia))). apply entry_iff; [exact W|lia|]. apply H. lia. }
  destruct Wd as [Ldl Wd]. fold (clen g) in Ldl.
  assert (Top : forall k v, (k < length sp)%nat -> ~ In ("species", v) (top (c_meta g))).
  { intros k v Hk I. assert (E : forall j, (j < length sp)%nat -> entry g j ("species", v)).
    { intros j Hj. apply entry_iff; [exact W|lia|]. apply (proj2 (Is j ltac:(lia))). left. exact I. }
    assert (V : v = VStr (nth 0 sp "")) by (apply (entry_unique g 0 "species" _ _ W ltac:(lia)); [apply E; lia|apply H; lia]). subst v.
    assert (0 = 1)%nat; [|discriminate]. apply Diff; [lia|lia|]. apply E. lia. }
  assert (NoL : forall d, In d ds -> ~ In "label" (map fst d)).
  { intros d Id I. apply in_map_iff in I. destruct I as ([k v] & Ek & I). cbn in Ek. subst k. destruct (In_nth _ _ [] Id) as (i & Hi & Ei).
    apply (proj2 (H i ltac:(lia)) v). apply entry_iff; [exact W|lia|]. apply (proj2 (Is i ltac:(lia))). right. rewrite Ei. exact I. }
  assert (NoT : ~ In "label" (map fst (top (c_meta g)))).
  { intros I. apply in_map_iff in I. destruct I as ([k v] & Ek & I). cbn in Ek. subst k. apply (proj2 (H 0%nat ltac:(lia)) v).
    apply entry_iff; [exact W|lia|]. apply (proj2 (Is 0%nat ltac:(lia))). left. exact I. }
  assert (Sp : forall i, (i < length ds)%nat -> lookup "species" (nth i ds []) = Some (VStr (nth i sp ""))).
  { intros i Hi. destruct (Wd (nth i ds []) (nth_In _ _ Hi)) as [[Wn _] _]. apply (lookup_iff _ _ _ Wn).
    pose proof (proj1 (entry_iff g i _ W ltac:(lia)) (proj1 (H i ltac:(lia)))) as I. apply (proj2 (Is i ltac:(lia))) in I.
    destruct I as [I|I]; [exfalso; apply (Top i _ ltac:(lia) I)|exact I]. }
  set (ds' := map (fun i => nth i ds [] ++ [("label", VStr (nth i sp ""))])%list (seq 0 (length ds))).
  assert (Em : mapE label_line ds = Ok ds').
  { rewrite <- (map_nth_seq' ds []) at 1. rewrite mapE_over_map. unfold ds'. apply mapE_list. intros i Hi. apply in_seq in Hi.
    unfold label_line. rewrite Sp by lia. f_equal. apply dict_set_new. cbn [fst]. apply NoL, nth_In. lia. }
  rewrite Em. eexists. split; [reflexivity|].
  assert (Ld' : length ds' = length ds) by (unfold ds'; rewrite map_length, seq_length; reflexivity).
  assert (Nth' : forall i, (i < length ds)%nat -> nth i ds' [] = (nth i ds [] ++ [("label", VStr (nth i sp ""))])%list).
  { intros i Hi. unfold ds'. rewrite (map_nth_indep _ _ _ 0%nat []) by (rewrite seq_length; exact Hi). rewrite seq_nth by exact Hi. reflexivity. }
  set (g' := mkColl (c_axes g) (c_lines g) (c_ticks g) (mkM (top (c_meta g)) (Some ds'))).
  assert (W' : wf_coll g').
  { unfold wf_coll, g'. cbn [c_lines c_meta top line_data]. split; [exact Wl|]. split; [exact Weq|]. split; [exact Wt|].
    split; [fold (clen g); lia|]. intros d Id. destruct (In_nth _ _ [] Id) as (i & Hi & Ei). rewrite Ld' in Hi. rewrite Nth' in Ei by exact Hi. subst d.
    pose proof (nth_In ds [] Hi) as Io. destruct (Wd _ Io) as [[Wn Wl'] Wk]. split.
    - split.
      + rewrite map_app. apply NoDup_app_intro; [exact Wn|repeat constructor; intros []|]. cbn [map fst]. intros x Ix [<-|[]]. apply (NoL _ Io Ix).
      + rewrite map_app. intros I. apply in_app_iff in I. destruct I as [I|[I|[]]]; [contradiction|discriminate].
    - intros k Ik. rewrite map_app in Ik. apply in_app_iff in Ik. destruct Ik as [Ik|[<-|[]]]; [apply Wk, Ik|exact NoT]. }
  split; [exact W'|]. split; [reflexivity|]. split; [reflexivity|]. split; [reflexivity|]. intros k kv Hk.
  assert (Hg : (k < clen g)%nat) by lia. assert (Hg' : (k < clen g')%nat) by exact Hg.
  fold g'. rewrite (entry_iff g' k kv W' Hg'), (entry_iff g k kv W Hg). destruct (iter_spec g' W') as [_ Is'].
  rewrite (proj2 (Is' k Hg') kv). cbn [g' c_meta top]. rewrite Nth' by lia. rewrite (proj2 (Is k Hg) kv). rewrite in_app_iff. cbn [In]. intuition.
Qed.

(** No labels can be added to a single line. *)
Lemma one_line s c : from_spectra [s] = Ok c -> line_data (c_meta c) = None.
Proof.
  unfold from_spectra. cbn [forallb map]. unfold combine_metadata. destruct (existsb _ _); [discriminate|]. cbn [forallb].
  replace (filter (fun _ => true) (s_meta s)) with (s_meta s) by (induction (s_meta s) as [|a l IH]; [reflexivity|cbn; congruence]).
  cbn [map existsb]. replace (filter _ (s_meta s)) with (@nil (string * value)).
  2:{ symmetry. destruct (filter _ (s_meta s)) as [|kv r] eqn:E; [reflexivity|]. assert (I : In kv (kv :: r)) by (left; reflexivity). rewrite <- E in I.
      apply filter_In in I. destruct I as [I N]. rewrite (proj2 (has_key_iff _ _)) in N; [discriminate|]. apply in_map, I. }
  cbn [orb bind]. unfold mk_coll. cbn [line_data]. intros H. injection H as <-. reflexivity.
Qed.
Lemma one_group c keys g : group_by c keys = Ok g -> clen g = 1%nat -> line_data (c_meta g) = None.
Proof.
  unfold group_by. destruct (mapE _ _) as [l|]; cbn [bind]; [|discriminate]. intros E L.
  destruct l as [|s [|s' r]]; [discriminate|exact (one_line s g E)|]. exfalso.
  unfold from_spectra in E. destruct (forallb _ _); [|discriminate]. destruct (combine_metadata _) as [m|]; cbn [bind] in E; [|discriminate].
  unfold mk_coll in E. destruct (line_data m); [destruct (Nat.eqb _ _)|]; try discriminate; injection E as <-; cbn in L; discriminate.
Qed.
Lemma sum_all : exists s, csum P = Ok s /\ s_axes s = [bins] /\ s_ticks s = None /\ line_sum lines (seq 0 (length types)) (s_data s) /\ wf_dict (s_meta s) /\
  forall v, ~ In ("label", v) (s_meta s).
Proof.
  destruct (csum_ok P pdos_wf) as (s & E & A & T & L & S & W & M). exists s. split; [exact E|]. split; [exact A|]. split; [exact T|].
  split; [split; [intros l I; rewrite (width_all l I); exact L|rewrite pdos_len in S; exact S]|]. split; [exact W|].
  intros v I. apply (pdos_no_label 0 v); [destruct types; [congruence|cbn; lia]|]. apply (proj1 (M _) I). rewrite pdos_len. destruct types; [congruence|cbn; lia].
Qed.

Lemma elemental x arg : (forall y, In y types -> y = x) -> arrange_pdos P (Some arg) = Err NoLineData.
Proof.
  intros H. unfold arrange_pdos. destruct sum_all as (s & -> & _). destruct grouped as (g & sp & Eg & _ & (Nd & Sp & _) & Lg & _).
  rewrite Eg. cbn [lift_c]. unfold label_lines. rewrite (one_group P ["species"] g Eg); [reflexivity|].
  rewrite Lg. destruct sp as [|a [|b r]].
  - exfalso. destruct types as [|t ts]; [congruence|]. apply (proj2 (Sp t) (or_introl eq_refl)).
  - reflexivity.
  - exfalso. assert (a = x) by (apply H, Sp; left; reflexivity). assert (b = x) by (apply H, Sp; right; left; reflexivity). inversion Nd as [|? ? Na Nb]; subst. apply Na. left. reflexivity.
Qed.
Lemma no_option : exists s, arrange_pdos P None = Ok (OneSpectrum s) /\ s_axes s = [bins] /\ line_sum lines (seq 0 (length types)) (s_data s).
Proof. destruct sum_all as (s & E & A & _ & L & _). exists s. unfold arrange_pdos. rewrite E. split; [reflexivity|]. split; assumption. Qed.

Hypothesis Two : exists x y, In x types /\ In y types /\ x <> y.
Lemma two_species sp : species_order types sp -> (2 <= length sp)%nat.
Proof.
  intros (_ & Sp & _). destruct Two as (x & y & Ix & Iy & N). apply Sp in Ix, Iy. destruct sp as [|a [|b r]]; [destruct Ix| |cbn; lia].
  destruct Ix as [->|[]], Iy as [->|[]]. congruence.
Qed.
Lemma arranged : exists g sp, species_order types sp /\ wf_coll g /\ clen g = length sp /\ c_axes g = [bins] /\ c_ticks g = None /\
  (match lift_c (group_by P ["species"]) with Err e => Err e | Ok g0 => label_lines g0 end) = Ok g /\
  forall k, (k < length sp)%nat -> line_sum lines (atoms_of types (nth k sp "")) (nth k (c_lines g) []) /\
    entry g k ("species", VStr (nth k sp "")) /\ entry g k ("label", VStr (nth k sp "")) /\
    forall w, wt = Some w -> entry g k ("weighting", VStr w).
Proof.
  destruct grouped as (g0 & sp & Eg & Wg & So & Lg & Ax & Tk & Gs). pose proof (two_species sp So) as L2.
  destruct (labelled g0 sp Wg Lg L2 (proj1 So)) as (g & El & W & Ax' & Ln & Tk' & En).
  { intros k Hk. destruct (Gs k Hk) as (_ & A & B & _). split; assumption. }
  exists g, sp. split; [exact So|]. split; [exact W|]. split; [unfold clen; rewrite Ln; exact Lg|]. split; [congruence|]. split; [congruence|].
  split; [rewrite Eg; exact El|]. intros k Hk. destruct (Gs k Hk) as (A & B & C & D). rewrite Ln. split; [exact A|].
  split; [apply En; [exact Hk|left; exact B]|]. split; [apply En; [exact Hk|right; reflexivity]|]. intros w Ew. apply En; [exact Hk|left; apply D, Ew].
Qed.
Lemma arrange_unfold names g : (match lift_c (group_by P ["species"]) with Err e => Err e | Ok g0 => label_lines g0 end) = Ok g ->
  exists s, csum P = Ok s /\ arrange_pdos P (Some names) =
  let total := mkS (s_axes s) (s_data s) (s_ticks s) (dict_set (s_meta s) ("label", VStr "Total")) in
  match names with
  | [] => match lift_c (bind (elements g) (fun l => from_spectra (total :: l))) with Err e => Err e | Ok c => Ok (Several c) end
  | _ => match lift_c (select g [("species", map VStr names)]) with Err e => Err e | Ok c => Ok (Several c) end
  end.
Proof.
  intros E. destruct sum_all as (s & Es & _). exists s. split; [exact Es|]. unfold arrange_pdos. rewrite Es. destruct (lift_c (group_by P ["species"])) as [g0|]; [|discriminate].
  rewrite E. reflexivity.
Qed.

Lemma every_species : exists c sp, arrange_pdos P (Some []) = Ok (Several c) /\ species_order types sp /\ clen c = S (length sp) /\
  (exists d, drawn c 0 bins d "Total" /\ line_sum lines (seq 0 (length types)) d) /\
  forall k, (k < length sp)%nat -> exists d, drawn c (S k) bins d (nth k sp "") /\ line_sum lines (atoms_of types (nth k sp "")) d.
Proof.
  destruct arranged as (g & sp & So & W & Lg & Ax & Tk & E & Gs). destruct (arrange_unfold [] g E) as (s & Es & Ea). cbv zeta in Ea.
  destruct sum_all as (s' & Es' & Sa & St & Sl & Sw & Sn). assert (s' = s) by congruence. subst s'.
  set (tot := mkS (s_axes s) (s_data s) (s_ticks s) (dict_set (s_meta s) ("label", VStr "Total"))) in *.
  rewrite (elements_ok g W) in Ea. cbn [bind] in Ea.
  set (ss := tot :: map (elem g) (seq 0 (clen g))) in *.
  assert (Wn : M_coll.width lines = length (s_data s)).
  { destruct lines as [|l r] eqn:El; [exfalso; apply Nt; destruct types; [reflexivity|cbn in Ll; discriminate]|]. cbn [M_coll.width]. symmetry. apply (proj1 Sl). left. reflexivity. }
  assert (Le : forall k, (k < clen g)%nat -> length (nth k (c_lines g) []) = length (s_data s)).
  { intros k Hk. rewrite <- Wn. destruct lines as [|l r] eqn:El; [exfalso; apply Nt; destruct types; [reflexivity|cbn in Ll; discriminate]|].
    cbn [M_coll.width]. apply (proj1 (proj1 (Gs k ltac:(lia)))). left. reflexivity. }
  assert (Dn : dict_set (s_meta s) ("label", VStr "Total") = (s_meta s ++ [("label", VStr "Total")])%list).
  { apply dict_set_new. cbn [fst]. intros I. apply in_map_iff in I. destruct I as ([k v] & Ek & I). cbn in Ek. subst k. apply (Sn v I). }
  assert (Prop_ : forall a, In a ss -> s_axes a = [bins] /\ s_ticks a = None /\ length (s_data a) = length (s_data s) /\ wf_dict (s_meta a)).
  { intros a [<-|I].
    - cbn [tot s_axes s_ticks s_data s_meta]. split; [exact Sa|]. split; [exact St|]. split; [reflexivity|]. rewrite Dn. destruct Sw as [N L].
      split; rewrite map_app; cbn [map fst].
      + apply NoDup_app_intro; [exact N|repeat constructor; intros []|]. intros x Ix [<-|[]]. apply in_map_iff in Ix. destruct Ix as ([k v] & Ek & I). cbn in Ek. subst k. apply (Sn v I).
      + intros I. apply in_app_iff in I. destruct I as [I|[I|[]]]; [contradiction|discriminate].
    - apply in_map_iff in I. destruct I as (k & <- & I). apply in_seq in I. unfold elem. cbn [s_axes s_ticks s_data s_meta].
      split; [exact Ax|]. split; [exact Tk|]. split; [apply Le; lia|]. apply (proj2 (iter_spec g W) k). lia. }
  destruct (round_trip ss) as (c & Ec & Lc & Rt).
  { discriminate. }
  { split.
    - intros a b Ia Ib. destruct (Prop_ a Ia) as (A1 & A2 & A3 & _), (Prop_ b Ib) as (B1 & B2 & B3 & _). split; [congruence|split; congruence].
    - intros a Ia. apply Prop_, Ia. }
  rewrite Ec in Ea. cbn [lift_c] in Ea. exists c, sp. split; [exact Ea|]. split; [exact So|].
  split; [rewrite Lc; unfold ss; cbn [length]; rewrite map_length, seq_length; congruence|]. split.
  - destruct (Rt 0%nat tot eq_refl) as (s1 & A & B & _ & D & M). exists (s_data s). split; [|exact Sl]. exists s1. split; [exact A|]. split; [rewrite B; exact Sa|].
    split; [exact D|]. apply M. cbn [tot s_meta]. rewrite Dn. apply in_app_iff. right. left. reflexivity.
  - intros k Hk. assert (Hg : (k < clen g)%nat) by lia. destruct (Rt (S k) (elem g k)) as (s1 & A & B & _ & D & M).
    { cbn [ss nth_error]. rewrite (map_nth_error (elem g) k (seq 0 (clen g)) (d := k)); [reflexivity|].
      rewrite (nth_error_nth' (seq 0 (clen g)) 0%nat) by (rewrite seq_length; exact Hg). f_equal. apply seq_nth, Hg. }
    destruct (Gs k Hk) as (G1 & _ & G3 & _). exists (nth k (c_lines g) []). split; [|exact G1]. exists s1. split; [exact A|]. split; [rewrite B; exact Ax|]. split; [exact D|].
    apply M. unfold elem. cbn [s_meta]. apply (entry_iff g k _ W Hg). exact G3.
Qed.

Lemma only_member (l : list nat) i : NoDup l -> (forall j, In j l <-> j = i) -> l = [i].
Proof.
  intros N H. destruct l as [|a [|b r]].
  - exfalso. apply (proj2 (H i) eq_refl).
  - f_equal. apply H. left. reflexivity.
  - exfalso. assert (a = i) by (apply H; left; reflexivity). assert (b = i) by (apply H; right; left; reflexivity). inversion N as [|? ? Na Nb]; subst. apply Na. left. reflexivity.
Qed.
Lemma combos names : combinations [("species", map VStr names)] = map (fun n => [("species", VStr n)]) names.
Proof. cbn [combinations]. induction names as [|n ns IH]; [reflexivity|]. cbn [map flat_map app]. f_equal. exact IH. Qed.

Lemma chosen_indices g sp names : wf_coll g -> clen g = length sp -> NoDup sp ->
  (forall k, (k < length sp)%nat -> entry g k ("species", VStr (nth k sp ""))) ->
  exists is, flat_map (select_indices g) (combinations [("species", map VStr names)]) = is /\
    map (fun k => nth k sp "") is = filter (fun n => existsb (String.eqb n) sp) names /\ forall k, In k is -> (k < length sp)%nat.
Proof.
  intros W Lg Nd H. rewrite combos. induction names as [|n ns IH].
  - exists []. split; [reflexivity|]. split; [reflexivity|]. intros k [].
  - destruct IH as (is & E & M & B). cbn [map flat_map]. rewrite E. cbn [filter].
    assert (In_ : forall k, In k (select_indices g [("species", VStr n)]) <-> (k < length sp)%nat /\ nth k sp "" = n).
    { intros k. rewrite (in_select g _ k W), Lg. split.
      - intros [Hk A]. split; [exact Hk|]. pose proof (entry_unique g k _ _ _ W ltac:(lia) (A _ (or_introl eq_refl)) (H k Hk)) as V. congruence.
      - intros [Hk <-]. split; [exact Hk|]. intros kv [<-|[]]. apply H, Hk. }
    assert (NdS : NoDup (select_indices g [("species", VStr n)])) by (unfold select_indices; apply NoDup_filter, seq_NoDup).
    destruct (existsb (String.eqb n) sp) eqn:Ex.
    + apply existsb_exists in Ex. destruct Ex as (x & Ix & Ex). apply String.eqb_eq in Ex. subst x. destruct (In_nth _ _ "" Ix) as (k & Hk & Ek).
      rewrite (only_member _ k NdS).
      2:{ intros j. rewrite In_. split; [|intros ->; split; assumption]. intros [Hj Ej]. apply (proj1 (NoDup_nth sp "") Nd); congruence. }
      exists (k :: is). split; [reflexivity|]. split; [cbn [map]; congruence|]. intros j [<-|I]; [exact Hk|apply B, I].
    + destruct (select_indices g [("species", VStr n)]) as [|k r] eqn:Es.
      * exists is. split; [reflexivity|]. split; assumption.
      * exfalso. destruct (proj1 (In_ k) (or_introl eq_refl)) as [Hk Ek]. assert (T : existsb (String.eqb n) sp = true); [|congruence].
        apply existsb_exists. exists n. split; [rewrite <- Ek; apply nth_In, Hk|apply String.eqb_refl].
Qed.

Notation present := (S_clidos.present types).
Lemma present_sp sp names : species_order types sp -> filter (fun n => existsb (String.eqb n) sp) names = present names.
Proof.
  intros (_ & Sp & _). apply filter_ext. intros n. apply eq_true_iff_eq. rewrite !existsb_exists. split; intros (x & I & E); exists x; (split; [apply Sp, I|exact E]).
Qed.
Lemma chosen_species names : names <> [] ->
  (present names = [] -> arrange_pdos P (Some names) = Err (CollErr NoMatch)) /\
  (present names <> [] -> exists c, arrange_pdos P (Some names) = Ok (Several c) /\ clen c = length (present names) /\
     forall k, (k < length (present names))%nat -> exists d, drawn c k bins d (nth k (present names) "") /\ line_sum lines (atoms_of types (nth k (present names) "")) d).
Proof.
  intros Nn. destruct arranged as (g & sp & So & W & Lg & Ax & Tk & E & Gs). destruct (arrange_unfold names g E) as (s & Es & Ea). cbv zeta in Ea.
  destruct (chosen_indices g sp names W Lg (proj1 So)) as (is & Ei & Em & Bi); [intros k Hk; apply Gs, Hk|].
  rewrite (present_sp sp names So) in Em.
  replace (match names with [] => _ | _ => _ end) with (match lift_c (select g [("species", map VStr names)]) with Err e => Err e | Ok c => Ok (Several c) end) in Ea by (destruct names; [congruence|reflexivity]).
  unfold select in Ea. rewrite Ei in Ea. split.
  - intros Ep. rewrite Ep in Em. destruct is; [|discriminate]. exact Ea.
  - intros Ep. assert (Ni : is <> []) by (intros ->; apply Ep; rewrite <- Em; reflexivity).
    destruct (get_list_ok g is W Ni) as (r & Er & Wr & Pk & Lr & _); [intros k Ik; rewrite Lg; apply Bi, Ik|].
    exists r. replace (match is with [] => _ | _ => _ end) with (get_list g (map Z.of_nat is)) in Ea by (destruct is; [congruence|reflexivity]).
    rewrite Er in Ea. cbn [lift_c] in Ea. split; [exact Ea|]. destruct Pk as (P1 & P2 & P3 & P4). split; [rewrite P1, <- Em, map_length; reflexivity|].
    intros k Hk. rewrite <- Em in Hk. rewrite map_length in Hk. destruct (P4 k Hk) as (s1 & s2 & A & B & C1 & C2 & C3 & C4).
    pose proof (nth_In is 0%nat Hk) as Ik. pose proof (Bi _ Ik) as Hs. rewrite <- Em. rewrite (map_nth_indep _ _ _ 0%nat "") by exact Hk.
    destruct (Gs _ Hs) as (G1 & _ & G3 & _). pose proof (proj1 (at_pos_iff g (nth k is 0%nat) s1 W ltac:(lia)) A) as E1.
    exists (nth (nth k is 0%nat) (c_lines g) []). split; [|exact G1]. exists s2. split; [exact B|]. split; [rewrite C1, E1; exact Ax|]. split; [rewrite C3, E1; reflexivity|].
    apply C4. rewrite E1. cbn [s_meta]. apply (entry_iff g (nth k is 0%nat) _ W ltac:(lia)). exact G3.
Qed.
End Pdos.
