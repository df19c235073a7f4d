(** What a calculation does once and keeps, for C88 (force_constants.py 540-542, 581-586,
    588-592), said by what the object already has. *)
From Verif Require Import Base Vec3 M_qpts M_dynmat M_dipole M_calc.
Open Scope R_scope.

Inductive job := ImageSearch | EwaldSetup | SumRuleFit.
Definition does (x : fcobj) (o : options) (j : job) : Prop :=
  match j with
  | ImageSearch => o_images x = None
  | EwaldSetup => o_born x <> None /\ p_dipole o = true /\ (forall p dd, o_dip x = Some (p, dd) -> p <> p_param o)
  | SumRuleFit => p_asr o = Some Realspace /\ o_asr x = None
  end.
(** The q-points whose matrices are made and diagonalised. *)
Definition evaluated (x : fcobj) (o : options) : list V3 := fst (reduce_qpts (p_reduce o) (use_splitting x o) (the_qpts x o)).
