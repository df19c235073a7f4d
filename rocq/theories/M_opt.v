(** Model of euphonic-optimise-dipole-parameter:
    /repo/euphonic/cli/optimise_dipole_parameter.py 29-130.
    - The calculation is M_calc.v's [call]; its kept values are those of the one object.
    - time.time is an argument: reading number k of the clock.
    - What is loaded is an argument; anything but force constants is None.
    - Printing and the warning without Born charges are left out.
    - calc_modes_kwargs are the other fields of an [options]; reduce_qpts and
      dipole_parameter among them would be refused by Python as given twice. *)
From Verif Require Import Base Vec3 M_cell M_qpts M_dynmat M_dipole M_struct M_asr M_calc.
Open Scope R_scope.

Inductive opterr :=
  | StepZero           (* ZeroDivisionError from np.arange *)
  | NotForceConstants  (* TypeError, 77 *)
  | NegativeCount      (* ValueError from np.full, 105 *)
  | CountZero          (* ZeroDivisionError: the default weights of no q-points, or 113 *)
  | NoParameters       (* ValueError: argmin of an empty sequence, 117 *)
  | OptCalc (e : cerr).

(** np.arange(start, stop, step) of floats: ceil((stop - start)/step) values, none if negative *)
Definition arange (start stop step : R) : list R :=
  map (fun i => start + INR i * step) (seq 0 (Z.to_nat (Rceil ((stop - start) / step)))).
(** 70-73 *)
Definition dipole_parameters (lo hi step : R) : res (list R) opterr :=
  if Reqb step 0 then Err StepZero else Ok (arange lo (hi + step / 100) step).

(** np.full((k, 3), 0.5) *)
Definition half_qpts (k : nat) : list V3 := repeat (1 / 2, 1 / 2, 1 / 2) k.
(** 98-100 *)
Definition first_options (kw : options) (p : R) : options :=
  mkOpts (half_qpts 1) (p_weights kw) (p_asr kw) (p_dipole kw) p (p_splitting kw) (p_insert kw) true (p_grads kw).
(** 105-111 *)
Definition second_options (kw : options) (n : nat) (p : R) : options :=
  mkOpts (half_qpts n) (p_weights kw) (p_asr kw) (p_dipole kw) p (p_splitting kw) (p_insert kw) false (p_grads kw).

(** One parameter tested: its times, and the object before each of the two calls. *)
Record trial := mkTrial { tr_param : R; tr_init : R; tr_per : R; tr_before : fcobj; tr_between : fcobj }.

Section Opt.
Variable erfc : R -> R.
Variable reigh : real_eigh.
Variable ceigh : complex_eigh.
Variable argsort : list R -> list nat.
Variable chunk : nat.
Variable junk : nat -> nat -> nat -> nat -> R.   (* memory before the call, for call number k *)
Variable clock : nat -> R.

Definition fc_call (k : nat) := call erfc reigh ceigh argsort chunk (junk k).
(** 90-113: one turn of the loop, number [i] *)
Definition test_parameter (kw : options) (n : Z) (i : nat) (p : R) (x : fcobj) : res (fcobj * trial) opterr :=
  match fc_call (2 * i) (first_options kw p) x with
  | (_, (_, Err e)) => Err (OptCalc e)
  | (x1, (_, Ok _)) =>
      if (n <? 0)%Z then Err NegativeCount
      else if (n =? 0)%Z then Err CountZero
      else match fc_call (2 * i + 1) (second_options kw (Z.to_nat n) p) x1 with
      | (_, (_, Err e)) => Err (OptCalc e)
      | (x2, (_, Ok _)) =>
          Ok (x2, mkTrial p (clock (4 * i + 1) - clock (4 * i)) ((clock (4 * i + 3) - clock (4 * i + 2)) / IZR n) x x1)
      end
  end.
Fixpoint test_all (kw : options) (n : Z) (i : nat) (ps : list R) (x : fcobj) : res (list trial) opterr :=
  match ps with
  | [] => Ok []
  | p :: rest =>
      match test_parameter kw n i p x with
      | Err e => Err e
      | Ok (x', t) => match test_all kw n (S i) rest x' with Err e => Err e | Ok l => Ok (t :: l) end
      end
  end.
(** 70-130: the suggested parameter with its two times, and all trials *)
Definition optimise (loaded : option fcobj) (lo hi step : R) (n : Z) (kw : options) : res (R * R * R * list trial) opterr :=
  match dipole_parameters lo hi step with
  | Err e => Err e
  | Ok ps =>
      match loaded with
      | None => Err NotForceConstants
      | Some x =>
          match test_all kw n 0 ps x with
          | Err e => Err e
          | Ok [] => Err NoParameters
          | Ok (t0 :: l) =>
              let t := nth (argmin (map tr_per (t0 :: l))) (t0 :: l) t0 in
              Ok (tr_param t, tr_init t, tr_per t, t0 :: l)
          end
      end
  end.
End Opt.
