(** Model of the whole of ForceConstants._calculate_phonons_at_qpts, with the values it keeps on
    the object between calls: /repo/euphonic/force_constants.py 429-736 (and 738-856), for
    calculate_qpoint_phonon_modes 388-398 and calculate_qpoint_frequencies 400-427.
    - Python evaluation only (use_c=False); the C evaluation is the subject of C12 and C14.
    - Quantities are in atomic units; the conversion of the results to meV and meV*length
      (711, 733-735) is exact and left out, as is the warning about complex gradients.
    - erfc, np.linalg.eigh and np.argsort are arguments.  None from eigh is LinAlgError.
    - np.divide(..., where=...) leaves whatever the memory held where there are no images: that
      is the argument [junk], new for every call.
    - Any asr other than the two names does nothing and is [None] here. *)
From Verif Require Import Base Cpx Vec3 M_grid M_cell M_qpts M_dynmat M_dipole M_struct M_asr.
Open Scope R_scope.

Inductive asr_kind := Realspace | Reciprocal.
(** The arguments of one call (429-444). *)
Record options := mkOpts { p_qpts : list V3; p_weights : option weights_t; p_asr : option asr_kind;
  p_dipole : bool; p_param : R; p_splitting : bool; p_insert : bool; p_reduce : bool; p_grads : bool }.
(** The attributes read, and the three kept between calls: _n_sc_images/_sc_image_i (541),
    _dipole_init_data with its dipole_parameter (582-586), _force_constants_asr (590). *)
Record fcobj := mkObj { o_d : fcdata; o_mass : nat -> R; o_born : option (nat -> M3); o_diel : M3;
  o_images : option imtab; o_dip : option (R * dipdata); o_asr : option (nat -> nat -> nat -> R) }.
(** The constructor sets none of them. *)
Definition new_fc (d : fcdata) (mass : nat -> R) (born : option (nat -> M3)) (diel : M3) : fcobj := mkObj d mass born diel None None None.
(** The setters 128-131, 140-143, 151-154 replace one attribute and nothing else. *)
Definition set_force_constants (x : fcobj) (fc : nat -> nat -> nat -> R) : fcobj :=
  mkObj (with_fc (o_d x) fc) (o_mass x) (o_born x) (o_diel x) (o_images x) (o_dip x) (o_asr x).
Definition set_born (x : fcobj) (b : nat -> M3) : fcobj :=
  mkObj (o_d x) (o_mass x) (Some b) (o_diel x) (o_images x) (o_dip x) (o_asr x).
Definition set_dielectric (x : fcobj) (e : M3) : fcobj :=
  mkObj (o_d x) (o_mass x) (o_born x) e (o_images x) (o_dip x) (o_asr x).

(** What one q-point gives: frequency of each mode, component i of each eigenvector, gradient. *)
Record modes := mkModes { m_freq : nat -> R; m_evec : nat -> nat -> C; m_grad : option (nat -> nat -> R) }.
Inductive cerr := BadWeights | QDirError (e : qerr) | AsrError (e : sc_err) | NotConverged.
Inductive warning := RealspaceUncorrected | ReciprocalUncorrected.

Section Calc.
Variable erfc : R -> R.
Variable reigh : real_eigh.
Variable ceigh : complex_eigh.
Variable argsort : list R -> list nat.
Variable chunk : nat.

(** 738-856 after the matrix is made: [D] is dyn_mat before mass weighting, [G] dmat_grad. *)
Definition solve (n3 : nat) (mass : nat -> R) (D : nat -> nat -> C) (G : option (nat -> nat -> nat -> C)) : option modes :=
  match ceigh n3 (herm_upper (mass_weight mass D)) with
  | None => None
  | Some (ev, v) =>
      Some (mkModes (fun m => freq_of_eval (ev m)) (fun m i => v i m)
        (option_map (fun g m l => re (mode_gradient n3 (fun i => v i m) (freq_of_eval (ev m)) (mass_weight_grad mass g) l)) G))
  end.
(** 815-833: the matrix of one q-point.  [dip] is None or Born charges, dielectric and the
    stored dipole data; [rec] the reciprocal-space ASR correction; [dir] the direction of
    approach when there is splitting. *)
Definition full_dyn_mat (d : fcdata) (t : imtab) (fcw : nat -> nat -> nat -> R) (dip : option ((nat -> M3) * M3 * dipdata))
    (rec : option (nat -> nat -> C)) (born : option (nat -> M3)) (diel : M3) (q : V3) (dir : option V3) (a b : nat) : C :=
  let m0 := dyn_mat d 2 t fcw q a b in
  let m1 := match dip with None => m0 | Some (bo, di, dd) => Cadd m0 (dipole_correction (f_cell d) (f_atom_r d) bo di dd q a b) end in
  let m2 := match rec with None => m1 | Some r => Cadd m1 (r a b) end in
  match dir, born with
  | Some v, Some bo => Cadd m2 (gamma_correction (f_cell d) bo diel v a b)
  | _, _ => m2
  end.

(** 475-479: dipole and splitting after the defaults are applied. *)
Definition use_dipole (x : fcobj) (o : options) : bool := match o_born x with None => false | Some _ => p_dipole o end.
Definition use_splitting (x : fcobj) (o : options) : bool := if use_dipole x o then p_splitting o else false.
(** 482-497 *)
Definition the_qpts (x : fcobj) (o : options) : list V3 := if (use_splitting x o && p_insert o)%bool then insert_gamma_qpts (p_qpts o) else p_qpts o.
Definition the_weights (x : fcobj) (o : options) : option weights_t :=
  if (use_splitting x o && p_insert o)%bool then option_map (insert_gamma_weights (p_qpts o)) (p_weights o) else p_weights o.
Definition weights_ok (o : options) : bool :=
  match p_weights o with
  | None => true
  | Some (WFloat w) => Nat.eqb (length w) (length (p_qpts o))
  | Some (WInt w) => Nat.eqb (length w) (length (p_qpts o))
  end.
(** 532-537 *)
Definition the_q_dirs (x : fcobj) (o : options) : res (list V3) qerr :=
  let qpts := the_qpts x o in
  let '(rq, qpts_i) := reduce_qpts (p_reduce o) (use_splitting x o) qpts in
  if use_splitting x o then mapE (get_q_dir qpts qpts_i) (where_true (map is_gamma rq)) else Ok [].
(** 540-542 *)
Definition images_of (x : fcobj) : imtab := match o_images x with Some t => t | None => sc_images (o_d x) 2 end.
(** 581-586 *)
Definition dipole_of (x : fcobj) (o : options) : option (R * dipdata) :=
  match o_born x with
  | Some bo =>
      if p_dipole o then
        let fresh := (p_param o, dipole_init erfc (f_cell (o_d x)) (f_atom_r (o_d x)) bo (o_diel x) (p_param o)) in
        match o_dip x with
        | Some (p, dd) => if Reqb (p_param o) p then Some (p, dd) else Some fresh
        | None => Some fresh
        end
      else o_dip x
  | None => o_dip x
  end.
(** 588-592: what is stored, what is used, the warning. *)
Definition asr_of (x : fcobj) (o : options) : res (option (nat -> nat -> nat -> R) * (nat -> nat -> nat -> R) * list warning) sc_err :=
  match p_asr o with
  | Some Realspace =>
      match o_asr x with
      | Some fc => Ok (Some fc, fc, [])
      | None =>
          match enforce_realspace_asr reigh argsort chunk (o_d x) with
          | Err e => Err e
          | Ok (done, fc) => Ok (Some fc, fc, if done then [] else [RealspaceUncorrected])
          end
      end
  | _ => Ok (o_asr x, f_fc (o_d x), [])
  end.
(** 475-735.  The attributes assigned before an exception stay assigned. *)
Definition call (junk : nat -> nat -> nat -> R) (o : options) (x : fcobj) : fcobj * (list warning * res (list V3 * list R * list modes) cerr) :=
  let d := o_d x in
  let n3 := (3 * n_atoms d)%nat in
  if negb (weights_ok o) then (x, ([], Err BadWeights)) else
  match the_q_dirs x o with
  | Err e => (x, ([], Err (QDirError e)))
  | Ok _ =>
      let t := images_of x in
      let dd := dipole_of x o in
      match asr_of x o with
      | Err e => (mkObj d (o_mass x) (o_born x) (o_diel x) (Some t) dd (o_asr x), ([], Err (AsrError e)))
      | Ok (kept, fc, warn) =>
          let x' := mkObj d (o_mass x) (o_born x) (o_diel x) (Some t) dd kept in
          let fcw := fc_img_weighted t junk fc in
          let dip := match o_born x, dd with
                     | Some bo, Some (_, dat) => if p_dipole o then Some (bo, o_diel x, dat) else None
                     | _, _ => None
                     end in
          let rec := match p_asr o with
                     | Some Reciprocal => enforce_reciprocal_asr ceigh argsort n3 (full_dyn_mat d t fcw dip None None (o_diel x) vzero None)
                     | _ => None
                     end in
          let warn' := match p_asr o, rec with Some Reciprocal, None => [ReciprocalUncorrected] | _, _ => warn end in
          let calc := fun q dir => solve n3 (o_mass x) (full_dyn_mat d t fcw dip rec (o_born x) (o_diel x) q dir)
                                     (if p_grads o then Some (dyn_mat_grad d 2 t fcw q) else None) in
          let qpts := the_qpts x o in
          (x', (warn',
            match calculate calc None (p_reduce o) (use_splitting x o) qpts with
            | Err e => Err (QDirError e)
            | Ok l => match mapE (fun r => match r with Some m => Ok m | None => Err NotConverged end) l with
                      | Err e => Err e
                      | Ok ms => Ok (qpts, final_weights (length qpts) (the_weights x o), ms)
                      end
            end))
      end
  end.
Definition result (junk : nat -> nat -> nat -> R) (o : options) (x : fcobj) : res (list V3 * list R * list modes) cerr := snd (snd (call junk o x)).
Definition warnings (junk : nat -> nat -> nat -> R) (o : options) (x : fcobj) : list warning := fst (snd (call junk o x)).
Definition next (x : fcobj) (c : (nat -> nat -> nat -> R) * options) : fcobj := fst (call (fst c) (snd c) x).
Definition after (x : fcobj) (cs : list ((nat -> nat -> nat -> R) * options)) : fcobj := fold_left next cs x.
End Calc.
