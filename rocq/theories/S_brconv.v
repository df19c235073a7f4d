(** Words for C93. *)
From Coq Require Import String.
From Verif Require Import Base Cpx Vec3 M_broad M_dos M_sf M_fixed M_calc M_brille M_brconv S_asr S_calc.
Open Scope R_scope.

(** The grid settings asked for, and the same call with other settings in their place. *)
Definition settings (a : bcargs) : option (list R) :=
  match bc_density a with
  | Some (PMany ps) => Some ps
  | Some (POne _) => None
  | None => match bc_bnpts a with PMany ps => Some ps | POne _ => None end
  end.
Definition with_settings (a : bcargs) (ps : list R) : bcargs :=
  mkBC (bc_npts a) (bc_grid a)
    (match bc_density a with Some _ => bc_bnpts a | None => PMany ps end)
    (match bc_density a with Some _ => Some (PMany ps) | None => None end)
    (bc_n a) (bc_eb a) (bc_ebins a) (bc_emin a) (bc_emax a) (bc_shape a) (bc_threads a) (bc_kwargs a).
(** What the command line always gives. *)
Definition from_command_line (a : bcargs) : Prop :=
  settings a <> None /\ bc_threads a <> None /\ i_grads (bc_kwargs a) = None /\ i_insert (bc_kwargs a) = None.

(** Entry of mode m at q-point i in a flattened array with nm modes. *)
Definition entry (l : list R) (nm i m : nat) : R := nth (i * nm + m) l 0.
(** No residual anywhere: every number is zero. *)
Definition all_zero (l : option (list R)) : Prop := match l with Some l => forall x, In x l -> x = 0 | None => True end.
(** At every q-point the interpolated modes are modes of the matrix whose modes were calculated
    (kM is one hartree in meV). *)
Definition same_modes (n : nat) (mass : nat -> R) (kM : R) (ms : list modes) (b : bmodes) : Prop :=
  forall i md, nth_error ms i = Some md -> exists D, modes_of (3 * n) mass D md /\
    modes_of (3 * n) mass D (mkModes (fun m => b_freq b i m / kM) (fun m j => b_evec b i m (j / 3)%nat (j mod 3)%nat) None).

(** The spectrum y after --energy-broadening and --shape. *)
Definition as_broadened (coeffs : R -> list R) (a : bcargs) (bins y : list R) (y' : option (list R)) : Prop :=
  match bc_eb a with
  | None => y' = Some y
  | Some w => exists v warned, (w = POne v \/ w = PMany [v]) /\
      M_fixed.broaden1d coeffs bins y (M_fixed.Fixed v) (bc_shape a) None None M_broad.Fwhm (1 / 100) M_broad.ChebyLog = Ok (warned, y')
  end.
(** b - a, number by number; NaNs if either is. *)
Definition difference (b a r : option (list R)) : Prop :=
  match b, a with
  | Some b, Some a => exists l, r = Some l /\ length l = Nat.min (length b) (length a) /\ forall j, (j < length l)%nat -> nth j l 0 = nth j b 0 - nth j a 0
  | _, _ => r = None
  end.

(** What is asked of Brille for a number of threads: nothing if none is given (Brille's own
    choice), and parallel work for more than one. *)
Definition asks_threads (threads : option (option R)) (kw : list (string * bval)) : Prop :=
  match threads with
  | None => False
  | Some None => kw = []
  | Some (Some t) => exists b, kw = [("useparallel"%string, BFlag b); ("threads"%string, BNum t)] /\ (b = true <-> 1 < t)
  end.
(** Point i of the sequence of fractional parts of i/phi, i/phi^2 and i/phi^3 *)
Definition quasirandom (phi : R) (i : nat) (q : V3) : Prop := forall d, (d < 3)%nat ->
  let x := match d, q with O, (a, _, _) => a | S O, (_, b, _) => b | _, (_, _, c) => c end in
  0 <= x < 1 /\ exists k, x = INR i * (1 / phi) ^ (d + 1) - IZR k.
