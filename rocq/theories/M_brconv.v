(** Model of the euphonic-brille-convergence command line tool:
    /repo/euphonic/cli/brille_convergence.py 27-190 [check_brille_settings], with
    /repo/euphonic/cli/utils.py 435-449 [_brille_calc_modes_kwargs].
    - Everything Brille and spglib do, the eigensolvers and the uninitialised memory of each
      calculation are arguments, as in M_brille; [junk] 0 is for the direct calculation and
      [junk] (i + 1) for grid number i.
    - [k] and [kM] are one hartree in --energy-unit and in meV, [c] one bohr**2 in the unit of
      the structure factors, [room] is 1e-5 meV in the energy unit, [phi] is what fmin returns,
      [qaxis] the x axis of a map over q-points, [xt] and [sl] the crystal and its scattering
      lengths.
    - What is drawn is the result: titles, axis labels and colours are left out, and so is
      --use-brille, which is accepted and not used.  use_c and n_threads, which do not change
      the direct results (C12), are not among the keyword arguments here.
    - A width given as an array (the command line gives a list) acts as its entry if there is
      one, and NumPy raises ValueError or similar if there are more (truth value of an array,
      254-271 of spectra.py; shapes that do not match in _lorentzian). *)
From Coq Require Import String.
From Verif Require Import Base Cpx Vec3 M_path M_broad M_dos M_sf M_bins M_sample M_fixed M_grid M_qpts M_dynmat M_dipole M_struct M_asr M_calc M_brille.
Open Scope R_scope.

(** A number or a list of numbers. *)
Inductive pyarg := POne (x : R) | PMany (l : list R).
(** What was loaded: a new force constants object or anything else. *)
Inductive loaded := LoadedForce (d : fcdata) (mass : nat -> R) (born : option (nat -> M3)) (diel : M3) | LoadedOther.

Inductive bcerr :=
  | NeedForceConstants            (* TypeError 45-46 *)
  | NoThreadsAttribute            (* AttributeError, utils.py:440 *)
  | NoSamples                     (* ValueError: nothing to take the minimum of *)
  | DirectError (e : cerr)
  | DirectTuple                   (* AttributeError 56: the result is a tuple *)
  | FactorError (e : M_sf.serr)
  | EnergyError (e : bins_err)
  | SpectrumError (e : M_sf.serr)
  | ArrayWidth                    (* more than one width *)
  | WidthError (e : fwerr)
  | SliceOutside                  (* IndexError 99 *)
  | NotIterable                   (* TypeError 115 *)
  | GridError (e : brerr)
  | ResidualShape.                (* ValueError 140 *)

Record bcargs := mkBC {
  bc_npts : nat; bc_grid : string; bc_bnpts : pyarg; bc_density : option pyarg; bc_n : Z;
  bc_eb : option pyarg; bc_ebins : nat; bc_emin : option R; bc_emax : option R; bc_shape : string;
  bc_threads : option (option R);   (* None: no such keyword; Some None: not specified *)
  bc_kwargs : idict }.

(** 48-49 and utils.py:440-449 *)
Definition brille_kwargs (threads : option (option R)) : res kwargs bcerr :=
  match threads with
  | None => Err NoThreadsAttribute
  | Some None => Ok []
  | Some (Some t) => Ok [("useparallel"%string, BFlag (Rltb 1 t)); ("threads"%string, BNum t)]
  end.
(** 50-51: reshape(-1, 3) *)
Definition sample_qpts (phi : R) (npts : nat) : list V3 :=
  map (fun l => (nth 0 l 0, nth 1 l 0, nth 2 l 0)) (recurrence_sequence phi npts 3).
(** 60-61: the width multiplied by the unit *)
Definition the_width (eb : option pyarg) : res (option R) bcerr :=
  match eb with
  | None => Ok None
  | Some (POne w) => Ok (Some w)
  | Some (PMany [w]) => Ok (Some w)
  | Some (PMany _) => Err ArrayWidth
  end.

(** The arrays of modes: from a calculation, and from Brille (frequencies in meV). *)
Definition direct_table (n : nat) (ms : list modes) : etable :=
  let none := mkModes (fun _ => 0) (fun _ _ => Czero) None in
  mkE (mkF (List.length ms) (3 * n) (fun i m => m_freq (nth i ms none) m) (fun _ => 1 / INR (List.length ms))) n
    (fun i m a l => m_evec (nth i ms none) m (3 * a + l)%nat).
Definition brille_table (kM : R) (n : nat) (b : bmodes) : etable :=
  let nq := List.length (b_qpts b) in
  mkE (mkF nq (3 * n) (fun i m => b_freq b i m / kM) (fun _ => 1 / INR nq)) n (b_evec b).

(** One grid: points and density in the legend, the curves, and the residuals. *)
Record curve := mkCurve { cu_n : nat; cu_density : R; cu_avg : option (list R); cu_slices : list (option (list R));
  cu_dfreq : list R; cu_dsf : list R; cu_davg : option (list R); cu_dslices : list (option (list R)) }.
Record report := mkReport { re_qpts : list V3; re_freq : list R; re_sf : list R; re_bins : list R;
  re_avg : option (list R); re_slices : list (option (list R)); re_curves : list curve }.

Definition minus (a b : list R) : list R := map (fun p => fst p - snd p) (combine a b).
Definition minus_nan (a b : option (list R)) : option (list R) :=
  match a, b with Some x, Some y => Some (minus x y) | _, _ => None end.

Section Tool.
Context {Zn : Type}.
Variables (zone : M3 -> list V3 -> list nat -> Zn) (volume : Zn -> R) (points : gkind -> Zn -> kwargs -> res (list V3) brerr).
Variables (erfc : R -> R) (reigh : real_eigh) (ceigh : complex_eigh) (argsort : list R -> list nat) (chunk : nat).
Variable interpolate : grid -> list V3 -> kwargs -> (nat -> nat -> nat -> R) * (nat -> nat -> nat -> C).
Variables (coeffs : R -> list R) (kB k kM c cpus room phi u : R) (types : list nat) (qaxis : list V3 -> list R).
Variables (xt : xtal) (sl : nat -> R).

(** 57 and 123: no Debye-Waller factor *)
Definition factors (e : etable) (qpts : list V3) : res sfactor bcerr :=
  match calculate_structure_factor e xt sl None (fun i => nth i qpts vzero) with
  | Err er => Err (FactorError er)
  | Ok s => Ok s
  end.
(** 59-62 and 124-127 *)
Definition averaged (a : bcargs) (bins : list R) (s : sfactor) : res (option (list R)) bcerr :=
  match calculate_1d_average kB k c bins s true None None with
  | Err e => Err (SpectrumError e)
  | Ok y =>
    match the_width (bc_eb a) with
    | Err e => Err e
    | Ok None => Ok (Some y)
    | Ok (Some w) =>
      match broaden1d coeffs bins y (Fixed w) (bc_shape a) None None Fwhm (1 / 100) ChebyLog with
      | Err e => Err (WidthError e)
      | Ok (_, y') => Ok y'
      end
    end
  end.
(** 91-94 and 155-158 *)
Definition mapped (a : bcargs) (bins : list R) (qpts : list V3) (s : sfactor) : res (option (list (list R))) bcerr :=
  match sqw_map kB k c bins s true None with
  | Err e => Err (SpectrumError e)
  | Ok z =>
    match the_width (bc_eb a) with
    | Err e => Err e
    | Ok None => Ok (Some z)
    | Ok (Some w) =>
      match broaden2d coeffs [mk2 (qaxis qpts) bins (Some z)] 0 NoWidth (Fixed w) (bc_shape a) None None None Fwhm (1 / 100) ChebyLog with
      | Err e => Err (WidthError e)
      | Ok (st, r) => Ok (sz (get st r))
      end
    end
  end.
(** 95-98 and 159-161: z_data[idx + 1]; [nq] rows *)
Definition slice (nq : nat) (z : option (list (list R))) (idx : nat) : res (option (list R)) bcerr :=
  if Nat.ltb (S idx) nq then Ok (option_map (fun z => nth (S idx) z []) z) else Err SliceOutside.
(** 88-104 and 153-161 *)
Definition sliced (a : bcargs) (bins : list R) (qpts : list V3) (s : sfactor) : res (list (option (list R))) bcerr :=
  if (0 <? bc_n a)%Z then
    match mapped a bins qpts s with
    | Err e => Err e
    | Ok z => mapE (slice (nq (sft s)) z) (seq 0 (Z.to_nat (bc_n a)))
    end
  else Ok [].

(** All frequencies in the energy unit, and all structure factors, flattened. *)
Definition flat_freq (e : etable) : list R := map (fun p => freq (et e) (fst p) (snd p) * k) (pairs (et e)).
Definition flat_sf (s : sfactor) : list R := map (fun p => sf_val s (fst p) (snd p) * c) (pairs (sft s)).

(** 54-104: the direct calculation *)
Definition direct (a : bcargs) (n : nat) (qpts : list V3) (ms : list modes)
  : res (etable * sfactor * list R * option (list R) * list (option (list R))) bcerr :=
  let e := direct_table n ms in
  match factors e qpts with
  | Err er => Err er
  | Ok s =>
    match flat_freq e with
    | [] => Err NoSamples
    | f0 :: fs =>
      match get_energy_bins f0 fs (bc_ebins a + 1) (bc_emin a) (bc_emax a) (105 / 100) room with
      | Err er => Err (EnergyError er)
      | Ok bins =>
        match averaged a bins s with
        | Err er => Err er
        | Ok avg => match sliced a bins qpts s with Err er => Err er | Ok sls => Ok (e, s, bins, avg, sls) end
        end
      end
    end
  end.

(** 117-161: one grid.  [x] and [d] are the force constants object and the dictionary of keyword
    arguments as the earlier grids left them. *)
Definition one_grid (a : bcargs) (bkw : kwargs) (n : nat) (qpts : list V3) (e : etable) (s : sfactor) (bins : list R) (avg : option (list R))
  (sls : list (option (list R))) (junk : nat -> nat -> nat -> R) (density : bool) (p : R) (d : idict) (x : fcobj) : res (curve * idict * fcobj) bcerr :=
  match from_force_constants zone volume points erfc reigh ceigh argsort chunk junk u types x (bc_grid a)
          (if density then 1000 else p) (if density then Some p else None) None (Some d) with
  | Err er => Err (GridError er)
  | Ok (g, d', x') =>
    let be := brille_table kM n (interpolated interpolate kM cpus g qpts bkw) in
    match factors be qpts with
    | Err er => Err er
    | Ok bs =>
      match averaged a bins bs with
      | Err er => Err er
      | Ok bavg =>
        match div (INR (List.length (g_rlu g))) (volume (zone (spglib_cell u (f_cell (o_d x))) (f_atom_r (o_d x)) types)) with
        | Err er => Err (GridError er)
        | Ok dens =>
          if Nat.eqb (nq (et e)) (nq (et be)) then
            match sliced a bins qpts bs with
            | Err er => Err er
            | Ok bsls =>
              Ok (mkCurve (List.length (g_rlu g)) (py_int dens) bavg bsls (minus (flat_freq be) (flat_freq e)) (minus (flat_sf bs) (flat_sf s))
                    (minus_nan bavg avg) (map (fun q => minus_nan (fst q) (snd q)) (combine bsls sls)), given d' d, x')
            end
          else Err ResidualShape
        end
      end
    end
  end.

(** 114-161 *)
Fixpoint all_grids (a : bcargs) (bkw : kwargs) (n : nat) (qpts : list V3) (e : etable) (s : sfactor) (bins : list R) (avg : option (list R))
  (sls : list (option (list R))) (junk : nat -> nat -> nat -> nat -> R) (density : bool) (i : nat) (ps : list R) (d : idict) (x : fcobj) : res (list curve) bcerr :=
  match ps with
  | [] => Ok []
  | p :: ps' =>
    match one_grid a bkw n qpts e s bins avg sls (junk (S i)) density p d x with
    | Err er => Err er
    | Ok (cv, d', x') =>
      match all_grids a bkw n qpts e s bins avg sls junk density (S i) ps' d' x' with
      | Err er => Err er
      | Ok cvs => Ok (cv :: cvs)
      end
    end
  end.

(** 106-111 *)
Definition grid_params (a : bcargs) : bool * pyarg :=
  match bc_density a with Some p => (true, p) | None => (false, bc_bnpts a) end.

(** 27-190 *)
Definition check_brille_settings (junk : nat -> nat -> nat -> nat -> R) (l : loaded) (a : bcargs) : res report bcerr :=
  match l with
  | LoadedOther => Err NeedForceConstants
  | LoadedForce d mass born diel =>
    match brille_kwargs (bc_threads a) with
    | Err e => Err e
    | Ok bkw =>
      let qpts := sample_qpts phi (bc_npts a) in
      let o := with_kwargs qpts (bc_kwargs a) in
      let x0 := new_fc d mass born diel in
      let '(x1, (_, r)) := call erfc reigh ceigh argsort chunk (junk 0%nat) o x0 in
      match r with
      | Err e => Err (DirectError e)
      | Ok (qs, _, ms) =>
        if p_grads o then Err DirectTuple else
        let n := M_dynmat.n_atoms d in
        match direct a n qs ms with
        | Err e => Err e
        | Ok (e, s, bins, avg, sls) =>
          match grid_params a with
          | (_, POne _) => Err NotIterable
          | (density, PMany ps) =>
            match all_grids a bkw n qpts e s bins avg sls junk density 0 ps (bc_kwargs a) x1 with
            | Err er => Err er
            | Ok cvs => Ok (mkReport qpts (flat_freq e) (flat_sf s) bins avg sls cvs)
            end
          end
        end
      end
    end
  end.
End Tool.
