(** Words for the program euphonic-dispersion (C101). *)
From Coq Require Import String.
From Verif Require Import Base M_calc M_bands S_dosmain.
From Verif Require M_parser.
Import M_parser (val(..)).
Open Scope R_scope.
Open Scope string_scope.

(** The arguments of the bands *)
Definition says_bands (ns : string -> option val) (a : dargs) : Prop :=
  ns "reorder" = Some (VBool (da_reorder a)) /\ ns "length_unit" = Some (VStr (da_unit a)) /\ ns "q_spacing" = Some (VFloat (da_spacing a)) /\
  says_asr ns (da_asr a) /\ ns "dipole_parameter" = Some (VFloat (da_param a)) /\ ns "btol" = Some (VFloat (da_btol a)).
(** The limits of the energy axis *)
Definition says_range (ns : string -> option val) (l : option R * option R) : Prop :=
  ns "e_min" = Some (maybe VFloat (fst l)) /\ ns "e_max" = Some (maybe VFloat (snd l)).
(** The options that change the frequencies or their order *)
Definition not_plain_bands : list string := ["--reorder"; "--asr"].
