(** Model of the euphonic-powder-map command line tool: /repo/euphonic/cli/powder_map.py
    79-113 [_get_broaden_kwargs] and 116-241 [main] up to plotting, with
    /repo/euphonic/powder.py:86-97 [sample_sphere_dos] for --weighting dos.
    Simplifications: q-points, frequencies and spectra are real numbers; [k] is the value
    of one hartree in --energy-unit; lengths are in --length-unit; numbers of points are
    not negative, and --npts-density is a number of points per square of a |q|.  The function that computes the row of one shell is an argument; see
    M_weight for the choice made by --weighting and --pdos.  Loading, Brille, printing, plotting, JSON output
    are left out.  A q-point that is nan is an error here (it would give nan intensities). *)
From Coq Require Import String.
From Verif Require Import Base Cpx Vec3 M_cell M_qpts M_path M_broad M_dos M_bins M_sample M_kin M_fixed M_clidos M_sphere.
Open Scope R_scope.

Inductive perr :=
  | ZeroSpacing                 (* ZeroDivisionError, powder_map.py:146 *)
  | NoShells                    (* no |q| bins: UnboundLocalError, 219; negative number: ValueError, 147 or 181 *)
  | EnergyErr (e : bins_err)
  | RowErr (e : derr)
  | SamplingErr (e : M_sample.serr)
  | NotFinite
  | MapErr (e : fwerr)
  | KinErr (e : kinerr)
  | PdosNeedsDos                (* ValueError 128-130 *)
  | ShellErr (e : sphere_err)
  | ArrangeErr (e : pderr)
  | OptionErr (e : clierr)
  | RowShape.                   (* ValueError 217 *)

Record pargs := mkPA {
  q_min : R; q_max : R; q_spacing : R;
  p_npts : nat; npts_density : option R; npts_min : nat; npts_max : nat;
  p_ebins : nat; p_emin : option R; p_emax : option R;
  p_ei : option R; p_ef : option R; p_angles : R * R;
  p_qb : option (list R);            (* --q-broadening, non-empty *)
  p_eb : option (list R);            (* --energy-broadening, non-empty *)
  p_shape : string; p_scale : option R }.

(** 146-149 *)
Definition n_q_bins (a : pargs) : Z := Rceil ((q_max a - q_min a) / q_spacing a).
Definition q_edges (a : pargs) : list R := linspace (q_min a) (q_max a) (Z.to_nat (n_q_bins a) + 1).
Definition q_centres (a : pargs) : list R := map (fun p => (fst p + snd p) / 2) (combine (q_edges a) (tl (q_edges a))).

(** 157-164; [f0 :: fs] are the frequencies at the q-point (0, 0, 1/2) in the energy unit *)
Definition p_energy_bins (a : pargs) (f0 : R) (fs : list R) (room : R) : res (list R) bins_err :=
  let emax := match p_ei a, p_emax a with Some e, None => Some e | _, m => m end in
  get_energy_bins f0 fs (p_ebins a + 1) (p_emin a) emax (12 / 10) room.

(** 186-191 *)
Definition shell_npts (a : pargs) (q : R) : nat :=
  match npts_density a with
  | Some d => Nat.max (npts_min a) (Nat.min (npts_max a) (Z.to_nat (Rceil (d * q ^ 2))))
  | None => p_npts a
  end.

(** 91-113 *)
Definition width_arg (l : option (list R)) : width :=
  match l with
  | Some (c :: r) => if Nat.ltb 1 (length (c :: r)) then Varying (polynomial (c :: r)) else Fixed c
  | _ => NoWidth
  end.

(** 224-230 *)
Definition p_broaden (coeffs : R -> list R) (a : pargs) (edges bins : list R) (z : list (list R)) : res (option (list (list R))) perr :=
  match p_eb a, p_qb a with
  | None, None => Ok (Some z)
  | _, _ =>
    match broaden2d coeffs [mk2 edges bins (Some z)] 0 (width_arg (p_qb a)) (width_arg (p_eb a)) (p_shape a) None None None Fwhm (1 / 100) ChebyLog with
    | Err e => Err (MapErr e)
    | Ok (st, r) => Ok (sz (get st r))
    end
  end.
(** 232-238: [None] entries are nan. *)
Definition entries (z : option (list (list R))) (i j : nat) : option R := option_map (fun z => nth j (nth i z []) 0) z.
Definition p_constrain (hm : R) (a : pargs) (edges bins : list R) (nx ny : nat) (z : nat -> nat -> option R) : res (nat -> nat -> option R) perr :=
  match p_ei a, p_ef a with
  | None, None => Ok z
  | _, _ =>
    match apply_kinematic_constraints hm (p_ei a) (p_ef a) (p_angles a) nx ny edges bins (fun _ _ => 0) with
    | Err e => Err (KinErr e)
    | Ok mask => Ok (fun i j => match mask i j with None => None | Some _ => z i j end)
    end
  end.
(** 240-241 *)
Definition p_scaled (s : option R) (z : nat -> nat -> option R) (i j : nat) : option R :=
  match s with None => z i j | Some x => option_map (fun v => v * x) (z i j) end.

(** 116-241; [row bins q n] is the spectrum of the shell of radius q sampled with n points *)
Definition powder_tool (coeffs : R -> list R) (hm room : R) (row : list R -> R -> nat -> res (list R) perr) (f0 : R) (fs : list R) (a : pargs)
  : res (list R * list R * (nat -> nat -> option R)) perr :=
  if Reqb (q_spacing a) 0 then Err ZeroSpacing
  else if (n_q_bins a <=? 0)%Z then Err NoShells
  else
    match p_energy_bins a f0 fs room with
    | Err e => Err (EnergyErr e)
    | Ok bins =>
      match mapE (fun q => row bins q (shell_npts a q)) (q_centres a) with
      | Err e => Err e
      | Ok z =>
        match p_broaden coeffs a (q_edges a) bins z with
        | Err e => Err e
        | Ok z1 =>
          match p_constrain hm a (q_edges a) bins (length (q_centres a)) (length bins - 1) (entries z1) with
          | Err e => Err e
          | Ok z2 => Ok (q_edges a, bins, p_scaled (p_scale a) z2)
          end
        end
      end
    end.

(** powder.py:86-97 [sample_sphere_dos] with given bins, for force constants whose
    frequency of mode m (of nm) at q-point p is [omega p m]; q-points have equal weights. *)
Definition dos_row (solve : M3 -> V3 -> V3) (recip : M3) (omega : V3 -> nat -> R) (nm : nat) (k wmin : R) (sampling : string)
  (rnd : option (nat -> R * R)) (rnd2 : option (nat -> nat -> R * R)) (always : nat -> R * R) (bins : list R) (q : R) (n : nat)
  : res (list R) perr :=
  match powder_qpts solve recip q n sampling rnd rnd2 always with
  | Err e => Err (SamplingErr e)
  | Ok qs =>
    match mapE (fun o => match o with Some p => Ok p | None => Err NotFinite end) qs with
    | Err e => Err e
    | Ok ps =>
      match calculate_dos k bins (mkF (length ps) nm (fun i m => omega (nth i ps vzero) m) (fun _ => 1 / INR (length ps))) None wmin Reference with
      | Err e => Err (RowErr e)
      | Ok d => Ok d
      end
    end
  end.
