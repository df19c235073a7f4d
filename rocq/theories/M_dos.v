(** Model of the densities of states: /repo/euphonic/qpoint_frequencies.py
    [_calculate_dos] 160-249, [calculate_dos_map] 251-289 and
    /repo/euphonic/qpoint_phonon_modes.py [calculate_pdos] 425-604.
    Tables are functions of indices together with their extents.  Frequencies and
    widths are in hartree; [k] is the value of one hartree in the unit of the bins
    (the model covers units proportional to energy). *)
From Verif Require Import Base Cpx Vec3 M_qpts M_broad.
Open Scope R_scope.

Inductive derr :=
  | BinsNotMonotonic         (* np.digitize ValueError *)
  | ZeroTotalWeight          (* dos/np.sum(weights) is nan or inf *)
  | Broadening (e : berr)
  | MissingCrossSection.     (* KeyError, qpoint_phonon_modes.py:563-566 *)

(** A table of frequencies (n_qpts x n_modes) with q-point weights. *)
Record ftable := mkF { nq : nat; nm : nat; freq : nat -> nat -> R; wt : nat -> R }.

(** np.digitize (right=False): for increasing bins the number of edges <= x, for
    decreasing bins the number of edges > x. *)
Definition nonincreasing (l : list R) : bool := forallb (fun p => Rleb (snd p) (fst p)) (combine l (tl l)).
Definition digitize (bins : list R) : res (R -> nat) derr :=
  if nondecreasing bins then Ok (fun x => length (filter (fun e => Rleb e x) bins))
  else if nonincreasing bins then Ok (fun x => length (filter (fun e => Rltb x e) bins))
  else Err BinsNotMonotonic.

(** np.add.at on a 1-D array, one element. *)
Definition add_to (l : list R) (iv : nat * R) : list R := set_nth l (fst iv) (nth (fst iv) l 0 + snd iv).
Definition add_at1 (l : list R) (ivs : list (nat * R)) : list R := fold_left add_to ivs l.

(** qpoint_frequencies.py:235-236 *)
Definition padded_widths (bins : list R) : list R := 1 :: np_diffR bins ++ [1].
(** spectra.py:306-308 [_bin_edges_to_centres] *)
Definition edges_to_centres (e : list R) : list R :=
  map (fun p => fst p + 5/10 * snd p) (combine (removelast e) (np_diffR e)).

Definition pairs (t : ftable) : list (nat * nat) := list_prod (seq 0 (nq t)) (seq 0 (nm t)).

(** How [mode_widths] are used: [Reference] 215-223, [Fast] 224-231. *)
Inductive method := Reference | Fast (coeffs : R -> list R) (error : R) (fit : kfit).

(** qpoint_frequencies.py:232-243: histogram branch. *)
Definition dos_hist (t : ftable) (mw : nat -> nat -> R) (bins : list R) : res (list R) derr :=
  match digitize bins with
  | Err e => Err e
  | Ok bin =>
    let contrib qm := let '(q, m) := qm in
      let b := bin (freq t q m) in (b, wt t q * mw q m / nth b (padded_widths bins) 0) in
    Ok (removelast (tl (add_at1 (repeat 0 (length bins + 1)) (map contrib (pairs t)))))
  end.

(** 215-223: one Gaussian per mode, evaluated at the bin centres. *)
Definition dos_reference (t : ftable) (mw widths : nat -> nat -> R) (bins : list R) : list R :=
  let centres := edges_to_centres bins in
  fold_left (fun dos qm => let '(q, m) := qm in
      map (fun dc => fst dc + norm_pdf (widths q m) (snd dc - freq t q m) * wt t q * mw q m) (combine dos centres))
    (pairs t) (repeat 0 (length centres)).

(** 224-231 *)
Definition dos_fast (coeffs : R -> list R) (error : R) (fit : kfit) (t : ftable) (mw widths : nat -> nat -> R)
  (bins : list R) : res (list R) derr :=
  match interpolated_broadening coeffs bins
          (map (fun qm => (freq t (fst qm) (snd qm), widths (fst qm) (snd qm), mw (fst qm) (snd qm) * wt t (fst qm))) (pairs t))
          error Gauss fit with
  | Ok y => Ok y | Err e => Err (Broadening e)
  end.

(** qpoint_frequencies.py:160-249; [mode_weights] defaults to 3/n_modes (206-208). *)
Definition calculate_dos_data (k : R) (bins : list R) (t : ftable) (mode_weights mode_widths : option (nat -> nat -> R))
  (width_min : R) (meth : method) : res (list R) derr :=
  let bins_calc := map (fun b => b / k) bins in
  let mw := match mode_weights with Some w => w | None => fun _ _ => 3 / INR (nm t) end in
  let raw := match mode_widths with
    | None => dos_hist t mw bins_calc
    | Some w =>
      let w' q m := Rmax (w q m) width_min in
      match meth with
      | Reference => Ok (dos_reference t mw w' bins_calc)
      | Fast coeffs error fit => dos_fast coeffs error fit t mw w' bins_calc
      end
    end in
  match raw with
  | Err e => Err e
  | Ok d =>
    let total := Sum (seq 0 (nq t)) (wt t) in
    if Reqb total 0 then Err ZeroTotalWeight else Ok (map (fun x => x / total / k) d)   (* 245-249 *)
  end.

(** qpoint_frequencies.py:98-158 [calculate_dos] *)
Definition calculate_dos k bins t mode_widths width_min meth :=
  calculate_dos_data k bins t None mode_widths width_min meth.

(** q_idx: one row of the table (190-195). *)
Definition row_table (t : ftable) (i : nat) : ftable :=
  mkF 1 (nm t) (fun _ m => freq t i m) (fun _ => wt t i).
(** qpoint_frequencies.py:251-289 [calculate_dos_map]: always the reference method. *)
Definition calculate_dos_map (k : R) (bins : list R) (t : ftable) (mode_widths : option (nat -> nat -> R)) (width_min : R)
  : res (list (list R)) derr :=
  mapE (fun i => calculate_dos_data k bins (row_table t i) None
                   (match mode_widths with Some w => Some (fun _ m => w i m) | None => None end) width_min Reference)
       (seq 0 (nq t)).

(** qpoint_phonon_modes.py:577-596: PDOS of one atom.  [evec q m a] is the complex
    3-vector of atom a in mode m.  [cs] is [Some (sigma, mass)] for neutron
    weighting (cross sections and masses per atom). *)
Record etable := mkE { et : ftable; n_atoms : nat; evec : nat -> nat -> nat -> nat -> C }.
Definition evec_weight (e : etable) (a : nat) (q m : nat) : R :=
  re (Csum (seq 0 3) (fun x => Cmul (evec e q m a x) (Cconj (evec e q m a x)))) / INR (n_atoms e).
Definition pdos_scale (e : etable) (cs : option ((nat -> R) * (nat -> R))) (a : nat) : R :=
  match cs with
  | None => 1
  | Some (sigma, mass) => sigma a * (Sum (seq 0 (n_atoms e)) mass / INR (n_atoms e)) / mass a
  end.
Definition calculate_pdos (k : R) (bins : list R) (e : etable) mode_widths width_min meth cs
  : res (list (list R)) derr :=
  mapE (fun a => match calculate_dos_data k bins (et e) (Some (evec_weight e a)) mode_widths width_min meth with
                 | Ok d => Ok (map (fun x => x * pdos_scale e cs a) d)
                 | Err er => Err er end)
       (seq 0 (n_atoms e)).

(** qpoint_phonon_modes.py:539-575: choice of the cross sections.  Datasets are
    functions from element to an optional cross section (in one area unit). *)
Inductive weighting := Coherent | Incoherent | Both.
Inductive cs_source := Dataset (coh incoh : nat -> option R) | Explicit (sigma : nat -> option R).
Definition choose_cross_sections (w : option weighting) (src : cs_source) : option (nat -> option R) :=
  match src, w with
  | Explicit s, _ => Some s
  | Dataset _ _, None => None
  | Dataset c _, Some Coherent => Some c
  | Dataset _ i, Some Incoherent => Some i
  | Dataset c i, Some Both =>
    Some (fun el => match c el, i el with Some x, Some y => Some (x + y) | _, _ => None end)
  end.

(** 563-575: one cross section per atom; a missing element is a KeyError. *)
Definition resolve_cs (n : nat) (element : nat -> nat) (s : nat -> option R) : res (nat -> R) derr :=
  if forallb (fun a => match s (element a) with Some _ => true | None => false end) (seq 0 n)
  then Ok (fun a => match s (element a) with Some x => x | None => 0 end) else Err MissingCrossSection.
Definition calculate_pdos_weighted (k : R) (bins : list R) (e : etable) (element : nat -> nat) (mass : nat -> R)
  mode_widths width_min meth (w : option weighting) (src : cs_source) : res (list (list R)) derr :=
  match choose_cross_sections w src with
  | None => calculate_pdos k bins e mode_widths width_min meth None
  | Some s => match resolve_cs (n_atoms e) element s with
              | Ok sigma => calculate_pdos k bins e mode_widths width_min meth (Some (sigma, mass))
              | Err er => Err er end
  end.
