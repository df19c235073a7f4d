(** C83: the labels of the axis. *)
From Coq Require Import String.
From Verif Require Import Base M_path L_path2 M_dos M_bins M_intmap S_intmap L_intmap2.
Open Scope R_scope.

Lemma tick_axis coeffs k room wmin a d bins s segs : intensity_tool coeffs k room wmin a d = Ok (bins, s, segs) ->
  exists ts, xticks s = Some ts /\
  match d with
  | IForce labels p => ((exists i, (i < length labels)%nat /\ nth i labels ""%string <> ""%string) -> labels_of_path labels ts) /\
      ((forall i, (i < length labels)%nat -> nth i labels ""%string = ""%string) -> ts = pd_ticks p)
  | _ => ts = pd_ticks (path_of d)
  end.
Proof.
  intros E. destruct (tool_inv _ _ _ _ _ _ _ _ _ E) as (_ & _ & z & z1 & _ & _ & -> & _). exists (i_ticks d). split; [reflexivity|].
  destruct d as [labels p|p|p]; [|reflexivity|reflexivity]. destruct (tick_labels_spec labels) as [_ T]. unfold i_ticks.
  split.
  - intros (i & Hi & Ni). assert (I : In (i, gamma_label (nth i labels ""%string)) (cli_tick_labels labels)) by (apply T; split; [exact Hi|split; [exact Ni|reflexivity]]).
    destruct (cli_tick_labels labels) as [|h t] eqn:Et; [destruct I|]. intros zz name. rewrite in_map_iff. split.
    + intros ([i' n'] & Eq & J). cbn [fst snd] in Eq. apply T in J. destruct J as (J1 & J2 & J3). injection Eq as E1 E2. exists i'. split; [exact J1|]. split; [exact J2|]. split; [congruence|]. rewrite <- E2, J3. reflexivity.
    + intros (i' & J1 & J2 & -> & ->). exists (i', gamma_label (nth i' labels ""%string)). split; [reflexivity|]. apply T. split; [exact J1|split; [exact J2|reflexivity]].
  - intros N. destruct (cli_tick_labels labels) as [|[i n] t] eqn:Et; [reflexivity|]. exfalso. destruct (proj1 (T i n) (or_introl eq_refl)) as (A & B & _). exact (B (N i A)).
Qed.
