(** Model of structure factors, Debye-Waller factors and S(q,w) maps:
    /repo/euphonic/qpoint_phonon_modes.py [calculate_structure_factor] 168-296,
    [calculate_debye_waller] 298-423; /repo/euphonic/structure_factor.py
    [calculate_1d_average] 122-162, [calculate_sqw_map] 164-222,
    [_bose_corrected_structure_factor] 224-289, [_bose_factor] 291-339.
    All quantities in hartree atomic units.  A division by zero, which numpy turns
    into inf or nan with a warning, is the error [NonFinite]: the model gives up on the
    whole call even where numpy would leave the other elements usable. *)
From Verif Require Import Base Cpx Vec3 M_qpts M_path M_broad M_dos.
Open Scope R_scope.

Inductive serr :=
  | NonFinite            (* an inf or nan in the result *)
  | AtomCountMismatch    (* qpoint_phonon_modes.py:272-277 ValueError *)
  | TemperatureMismatch  (* structure_factor.py:317-324 ValueError *)
  | BadBins (e : derr)   (* np.digitize ValueError *)
  | ZeroWeightSum.       (* np.average ZeroDivisionError *)

(** Parts of Crystal used here: masses, fractional positions, reciprocal cell. *)
Record xtal := mkX { mass : nat -> R; pos : nat -> V3; recip : M3 }.
(** A DebyeWaller object: number of atoms, 3x3 exponent per atom, temperature. *)
Record dwaller := mkDW { dw_n : nat; dw_w : nat -> nat -> nat -> R; dw_t : R }.
(** A StructureFactor object: frequencies and weights, values, temperature. *)
Record sfactor := mkSF { sft : ftable; sf_val : nat -> nat -> R; sf_temp : option R }.

(** |z| for a complex number. *)
Definition Cabs (z : C) : R := sqrt (Cnorm2 z).

(** qpoint_phonon_modes.py:262 *)
Definition Qvec (x : xtal) (q : V3) : V3 := vmul q (recip x).
(** 257-258, 269-281: phase and Debye-Waller factor of atom a. *)
Definition exp_factor (x : xtal) (dw : option dwaller) (q : V3) (a : nat) : C :=
  let ph := cis (2 * PI * dot q (pos x a)) in
  match dw with
  | None => ph
  | Some d => Cscal (exp (- Sum (seq 0 3) (fun k => Sum (seq 0 3) (fun l =>
                dw_w d a k l * comp (Qvec x q) k * comp (Qvec x q) l)))) ph
  end.
(** 266 *)
Definition evec_dot_q (e : etable) (x : xtal) (qpt : nat -> V3) (q m a : nat) : C :=
  Csum (seq 0 3) (fun l => Cscal (comp (Qvec x (qpt q)) l) (Cconj (evec e q m a l))).
(** 284, with norm_factor of 252-253 *)
Definition sf_term (e : etable) (x : xtal) (sl : nat -> R) (dw : option dwaller) (qpt : nat -> V3) (q m : nat) : C :=
  Csum (seq 0 (n_atoms e)) (fun a =>
    Cscal (sl a / sqrt (mass x a)) (Cmul (evec_dot_q e x qpt q m a) (exp_factor x dw (qpt q) a))).
(** 287-289 *)
Definition sf_mode (e : etable) (x : xtal) (sl : nat -> R) (dw : option dwaller) (qpt : nat -> V3) (q m : nat) : R :=
  let t := sf_term e x sl dw qpt q m in
  Cabs (Cmul t (Cconj t)) / Rabs (freq (et e) q m) / (2 * INR (n_atoms e)).
Definition has_zero (t : ftable) : bool := existsb (fun qm => Reqb (freq t (fst qm) (snd qm)) 0) (pairs t).
(** 168-296.  The StructureFactor is built without weights, so it gets equal ones
    (qpoint_frequencies.py:66-68). *)
Definition calculate_structure_factor (e : etable) (x : xtal) (sl : nat -> R) (dw : option dwaller) (qpt : nat -> V3)
  : res sfactor serr :=
  match dw with
  | Some d => if Nat.eqb (dw_n d) (n_atoms e) then
      if has_zero (et e) then Err NonFinite else
      Ok (mkSF (mkF (nq (et e)) (nm (et e)) (freq (et e)) (fun _ => 1 / INR (nq (et e)))) (sf_mode e x sl dw qpt) (Some (dw_t d)))
      else Err AtomCountMismatch
  | None => if has_zero (et e) then Err NonFinite else
      Ok (mkSF (mkF (nq (et e)) (nm (et e)) (freq (et e)) (fun _ => 1 / INR (nq (et e)))) (sf_mode e x sl dw qpt) None)
  end.

(** qpoint_phonon_modes.py:381-389: kB in hartree/K. *)
Definition tanh_term (kB temp f : R) : R :=
  if Rltb 0 temp then 1 / (f * tanh (f / (2 * kB * temp))) else 1 / f.
Definition freq_mask (freq_min f : R) : R := if Rltb f freq_min then 0 else 1.
(** 398-404: real part of e_l conj(e_m) *)
Definition evec_term (e : etable) (q m a l l' : nat) : R := re (Cmul (evec e q m a l) (Cconj (evec e q m a l'))).
(** 396-404: contribution of q-points qi .. qf-1 *)
Definition dw_chunk (e : etable) (x : xtal) (kB temp freq_min : R) (qi qf : nat) (a l l' : nat) : R :=
  Sum (seq qi (qf - qi)) (fun q => Sum (seq 0 (nm (et e))) (fun m =>
    wt (et e) q * (1 / (4 * mass x a)) * tanh_term kB temp (freq (et e) q m) * freq_mask freq_min (freq (et e) q m)
    * evec_term e q m a l l')).
(** 391-404: chunks of [chunk] q-points (1000 in the code). *)
Definition dw_raw (chunk : nat) (e : etable) (x : xtal) (kB temp freq_min : R) (a l l' : nat) : R :=
  let n := nq (et e) in
  fold_left (fun acc i => acc + dw_chunk e x kB temp freq_min (i * chunk) (Nat.min ((i + 1) * chunk) n) a l l')
    (seq 0 ((n - 1) / chunk + 1)) 0.
(** Symmetry operations: Cartesian rotation (411-412) and image of every atom. *)
Record symop := mkOp { rotc : nat -> nat -> R; image : nat -> nat }.
(** 411-412: rot_cart = cell^T rot recip / 2 pi *)
Definition rot_cart (rot : nat -> nat -> R) (cell rec : M3) (l m : nat) : R :=
  Sum (seq 0 3) (fun j => Sum (seq 0 3) (fun k => rot j k * comp (row cell j) l * comp (row rec k) m)) / (2 * PI).
(** 414: R dw R^T *)
Definition conjugate (r : nat -> nat -> R) (w : nat -> nat -> R) (i m : nat) : R :=
  Sum (seq 0 3) (fun j => Sum (seq 0 3) (fun l => r i j * w j l * r m l)).
(** 413-415: [dw_tmp[eq_atoms[s]] += ...] is a buffered update: when an atom occurs
    twice in eq_atoms[s] only its last occurrence counts. *)
Definition last_source (n : nat) (im : nat -> nat) (j : nat) : option nat :=
  fold_left (fun acc k => if Nat.eqb (im k) j then Some k else acc) (seq 0 n) None.
Definition sym_step (n : nat) (w : nat -> nat -> nat -> R) (acc : nat -> nat -> nat -> R) (o : symop) : nat -> nat -> nat -> R :=
  fun j i m => match last_source n (image o) j with
               | Some k => acc j i m + conjugate (rotc o) (w k) i m
               | None => acc j i m end.
Definition symmetrise (n : nat) (ops : list symop) (w : nat -> nat -> nat -> R) (j i m : nat) : R :=
  fold_left (sym_step n w) ops (fun _ _ _ => 0) j i m / INR (length ops).
(** 298-423.  [ops] is None when symmetrise=False. *)
Definition calculate_debye_waller (chunk : nat) (e : etable) (x : xtal) (kB temp freq_min : R) (ops : option (list symop))
  : res dwaller serr :=
  let total := Sum (seq 0 (nq (et e))) (wt (et e)) in
  if (has_zero (et e) || Reqb total 0)%bool then Err NonFinite else
  let w a l l' := dw_raw chunk e x kB temp freq_min a l l' / total in
  match ops with
  | None => Ok (mkDW (n_atoms e) w temp)
  | Some [] => Err NonFinite
  | Some os => Ok (mkDW (n_atoms e) (symmetrise (n_atoms e) os w) temp)
  end.

(** structure_factor.py:315-339 [_bose_factor]; [Ok None] is NoTemperatureError. *)
Definition bose_temperature (stored given : option R) : res (option R) serr :=
  match stored, given with
  | Some s, Some g => if isclose (1 / 10 ^ 8) g s then Ok (Some s) else Err TemperatureMismatch
  | Some s, None => Ok (Some s)
  | None, g => Ok g
  end.
Definition bose_factor (kB temp f : R) : R :=
  if Rltb 0 temp then 1 / (exp (Rabs f / (kB * temp)) - 1) else 0.
(** 254-264: intensities at +f and at -f. *)
Definition intensities (kB : R) (calc_bose : bool) (temp : option R) (sf f : R) : R * R :=
  match calc_bose, temp with
  | true, Some t => ((1 + bose_factor kB t f) * sf, bose_factor kB t f * sf)
  | _, _ => (sf, sf)
  end.
(** 266-289; [k] = value of one hartree in the bin unit, [c] = bohr**2 in the output unit. *)
Definition sqw_row (kB k c : R) (bin : R -> nat) (bc : list R) (s : sfactor) (calc_bose : bool) (temp : option R) (q : nat) : list R :=
  let modes := seq 0 (nm (sft s)) in
  let f m := freq (sft s) q m in
  let pn m := intensities kB calc_bose temp (sf_val s q m) (f m) in
  let zero := repeat 0 (length bc + 1) in
  let r1 := add_at1 zero (map (fun m => (bin (f m), fst (pn m))) modes) in
  let r2 := add_at1 r1 (map (fun m => (bin (- f m), snd (pn m))) modes) in
  map (fun x => x * c / k) (interior (map (fun p => fst p / snd p) (combine r2 (padded_widths bc)))).
Definition sqw_map (kB k c : R) (bins : list R) (s : sfactor) (calc_bose : bool) (given : option R) : res (list (list R)) serr :=
  let bc := map (fun b => b / k) bins in
  match (if calc_bose then bose_temperature (sf_temp s) given else Ok None) with
  | Err e => Err e
  | Ok temp =>
    if (match temp with Some t => Rltb 0 t | None => false end && has_zero (sft s))%bool then Err NonFinite else
    match digitize bc with
    | Err e => Err (BadBins e)
    | Ok bin => Ok (map (sqw_row kB k c bin bc s calc_bose temp) (seq 0 (nq (sft s))))
    end
  end.
(** 122-162: np.average(axis=0, weights). *)
Definition calculate_1d_average (kB k c : R) (bins : list R) (s : sfactor) (calc_bose : bool) (given : option R)
  (weights : option (nat -> R)) : res (list R) serr :=
  let w := match weights with Some w => w | None => wt (sft s) end in
  match sqw_map kB k c bins s calc_bose given with
  | Err e => Err e
  | Ok m =>
    let total := Sum (seq 0 (nq (sft s))) w in
    if Reqb total 0 then Err ZeroWeightSum else
    Ok (map (fun i => Sum (seq 0 (nq (sft s))) (fun q => w q * nth i (nth q m []) 0) / total) (seq 0 (length bins - 1)))
  end.
