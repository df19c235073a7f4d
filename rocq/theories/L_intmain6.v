(** Lemmas for C102, continued: a file of modes or frequencies is mapped. *)
From Coq Require Import String Sorted.
From Verif Require L_bands2 L_path L_intmap2 L_intmap4.
From Verif Require Import Base Cpx Vec3 M_grid M_cell M_qpts M_dynmat M_dipole M_struct M_asr M_calc M_path M_broad M_dos M_clidos M_reorder M_bins M_bands M_intmap M_style M_dosmain M_powmain M_intmain
  S_qpts S_path S_broad S_dynmat S_dipole S_asr S_calc S_bins S_dos S_reorder S_powder S_intmap S_bands S_dosmain S_powmain S_intmain L_intmain L_intmain2 L_intmain3.
From Verif Require M_parser S_manual.
From Verif Require Import L_mainline.
Import M_parser (val(..), namespace).
Open Scope R_scope.
Open Scope string_scope.
Import S_manual.

Section Main.
Variables (int_of : string -> option Z) (float_of : string -> option R).
Context {E : Type}. Variable load : string -> bool -> res ddata E.
Variables (hartree angstrom : string -> option R) (room : string -> R) (pretty : string -> string).
Variable seekpath : M3 -> list V3 -> list nat -> R -> bpath.
Variables (erfc : R -> R) (reigh : real_eigh) (ceigh : complex_eigh) (argsort : list R -> list nat) (chunk : nat) (junk : nat -> nat -> nat -> R).
Variables (found : list V3 -> ticks) (kx ax wmin : R) (coeffs : R -> list R).
Variable coherent : ddata -> option asr_kind -> R -> option (Z * Z * Z) * R -> list V3 -> etable -> option R -> list R -> option (list (list R)).
Variables (inch : string -> option R) (sheets : string -> option sheet) (rc : string -> value).
Notation tool_args := (M_parser.tool_args int_of float_of M_parser.IntensityMap).
Notation main := (int_main int_of float_of load hartree angstrom room pretty seekpath erfc reigh ceigh argsort chunk junk found kx ax wmin coeffs coherent inch sheets rc).
Lemma file_runs line ns file u k lu l n lo hi cell qpts d t : tool_args line = Ok ns -> (forall o, In o not_plain_int -> o <> "--asr" -> ~ In o line) ->
  ns "filename" = Some (VStr file) -> load file true = Ok d -> ((exists e, d = DModes cell qpts e /\ t = et e) \/ d = DFreqs cell qpts t) ->
  0 <= kx -> (2 <= length qpts)%nat -> length qpts = nq t -> (0 < nm t)%nat -> (forall q, (q < nq t)%nat -> wt t q <> 0) ->
  ns "length_unit" = Some (VStr lu) -> angstrom lu = Some l -> ns "energy_unit" = Some (VStr u) -> hartree u = Some k -> 0 < k ->
  ns "ebins" = Some (VInt (Z.of_nat n)) -> (1 <= n)%nat -> ns "e_min" = Some (VFloat lo) -> ns "e_max" = Some (VFloat hi) -> lo < hi ->
  exists r, main line = Ok r.
Proof.
  intros T N Nf Hl Hd Hx H2 Hq Hm Hw Nl Ha Nu Hu Hk Nn Hn N0 N1 Hlh.
  assert (Nw : ns "weighting" = Some (VStr "dos")).
  { apply (row_default _ _ _ _ _ (mkRow ["--weighting"; "-w"] "weighting" (OneOf ["dos"; "coherent"]) (VStr "dos")) T); [in_manual|]. intros o Io. apply N; [cbn in Io |- *; tauto|]. intros ->. cbn in Io. destruct Io as [X|[X|[]]]; discriminate X. }
  assert (Nq : ns "q_broadening" = Some VNone).
  { apply (row_default _ _ _ _ _ (mkRow ["--q-broadening"; "--qb"] "q_broadening" (Optional (Exactly 1 Number)) VNone) T); [in_manual|]. intros o Io. apply N; [cbn in Io |- *; tauto|]. intros ->. cbn in Io. destruct Io as [X|[X|[]]]; discriminate X. }
  assert (Ne : ns "energy_broadening" = Some VNone).
  { apply (row_default _ _ _ _ _ (mkRow ["--energy-broadening"; "--eb"] "energy_broadening" (Optional (OneOrMore Number)) VNone) T); [in_manual|]. intros o Io. apply N; [cbn in Io |- *; tauto|]. intros ->. cbn in Io. destruct Io as [X|[X|[]]]; discriminate X. }
  destruct (all_settings int_of float_of line ns T) as (s0 & _ & _ & _ & Nt & _).
  destruct (main_settings int_of float_of load hartree angstrom room pretty seekpath erfc reigh ceigh argsort chunk junk found kx ax wmin coeffs coherent inch sheets rc line ns file "dos" _ _ lu l u k n T Nf Nw Nt Hl eq_refl Nl Ha Nu Hu Nn Hn)
    as (a & asr & param & sp & g & pl & lim & SA & _ & _ & _ & _ & _ & _ & ->).
  destruct (plain_args ns _ a SA Nw Nq Ne) as (B1 & B2 & B3 & _ & B5 & B6 & B7). specialize (B5 n Nn). specialize (B6 lo N0). specialize (B7 hi N1).
  assert (H0 : (0 < length qpts)%nat) by lia.
  assert (Q : exists p dd, int_path seekpath erfc reigh ceigh argsort chunk junk found kx coherent asr param (sp / l) g d = Ok p /\ plain_data p = dd /\ path_of dd = mkPd (calc_abscissa (reciprocal_cell cell) kx qpts) t (found qpts) (fun _ _ => None) /\ (forall l p, dd <> IForce l p)).
  { destruct Hd as [(e & -> & ->)| ->]; eexists; eexists; (split; [reflexivity|]); (split; [reflexivity|]); (split; [reflexivity|]); intros; discriminate. }
  destruct Q as (p & dd & -> & Ed & Ep & Nd). rewrite (dos_only coeffs k (room u) wmin a p B1), Ed.
  assert (PD : path_data (path_of dd)).
  { rewrite Ep. split; [cbn [pd_x pd_t]; rewrite L_path.abscissa_length by exact H0; exact Hq|]. split; [exact Hw|]. intros ? ? ? X. discriminate X. }
  assert (Eb : exists bins, i_bins k (room u) a t = Ok bins).
  { unfold i_bins. destruct (all_freqs k t) as [|f0 fs] eqn:Ef.
    - exfalso. assert (I : In (freq t 0 0 * k) (all_freqs k t)) by (apply L_intmap2.in_all_freqs; lia). rewrite Ef in I. destruct I.
    - unfold get_energy_bins. rewrite B6, B7. destruct (Rleb_spec hi lo); [lra|]. eexists. reflexivity. }
  destruct Eb as [bins Eb].
  destruct (L_intmap4.modes_map coeffs k (room u) wmin a dd bins Hk ltac:(lia) PD Nd) as (s' & segs' & idx & m & D' & _); try assumption.
  { rewrite Ep. exact (L_bands2.abscissa_climbs (reciprocal_cell cell) kx qpts Hx H0). } { rewrite Ep. cbn [pd_x]. rewrite L_path.abscissa_length by exact H0. exact H2. } { rewrite Ep. exact Eb. }
  rewrite D'. eexists. reflexivity.
Qed.
End Main.
