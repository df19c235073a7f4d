(** Model of euphonic-powder-map as a whole: /repo/euphonic/cli/powder_map.py 116-241 on the
    calculation of M_calc and the rest of the tool in M_powder, M_sphere and M_weight, with
    /repo/euphonic/cli/utils.py 428-434 [_calc_modes_kwargs].  Simplifications:
    - As in M_doscalc, lengths are in bohr and energies of the calculation in hartree;
      --asr and --dipole-parameter are arguments of their own.  Without --use-brille (C86, C93).
    - What the same object was used for before the calculation at some q-points ([before]), and
      what uninitialised memory holds in it ([junk]), are functions of those q-points.
    - A number of |q| bins below zero raises before the first calculation in the code (146-149),
      or after it (181); here after it. *)
From Coq Require Import String.
From Verif Require Import Base Cpx Vec3 M_path M_broad M_dos M_bins M_coll M_fixed M_clidos M_sample M_sf M_sphere M_powder M_weight M_grid M_cell M_qpts M_dynmat M_dipole M_struct M_asr M_calc M_doscalc.
Open Scope R_scope.

Inductive powerr := PowTool (e : perr) | PowCalc (e : M_calc.cerr) | PowNoModes.
(** powder_map.py:153-154 *)
Definition x_point : V3 := (0, 0, 1 / 2).
(** powder_map.py:128-130 *)
Definition pdos_clash (w : wargs) : bool := match w_pdos w with Some _ => String.eqb (w_weighting w) "coherent" | None => false end.
(** The Crystal of the object: masses, positions, reciprocal cell *)
Definition crystal_of (x : fcobj) : xtal :=
  M_sf.mkX (o_mass x) (fun a => nth a (f_atom_r (o_d x)) vzero) (reciprocal_cell (f_cell (o_d x))).

Section Run.
Variables (erfc : R -> R) (reigh : real_eigh) (ceigh : complex_eigh) (argsort : list R -> list nat) (chunk : nat).
Variable junk : list V3 -> nat -> nat -> nat -> R.
Variable before : list V3 -> list ((nat -> nat -> nat -> R) * options).
Variables (asr : option asr_kind) (param : R).

(** calculate_qpoint_phonon_modes(qpts, **calc_modes_kwargs): powder.py:88-89, 192-193, 309-310; utils.py:370-372 *)
Definition run_modes (x : fcobj) (qs : list V3) : res (list V3 * list R * list modes) M_calc.cerr :=
  result erfc reigh ceigh argsort chunk (junk qs) (grid_options qs asr param false) (after erfc reigh ceigh argsort chunk x (before qs)).
Definition run_calc (x : fcobj) (qs : list V3) : option (list V3 * etable) :=
  match run_modes x qs with Ok (qpts, w, ms) => Some (qpts, run_table (M_dynmat.n_atoms (o_d x)) qpts w ms) | Err _ => None end.
(** powder_map.py:153-155 *)
Definition x_freqs (k : R) (n : nat) (ms : list modes) : list R :=
  map (fun m => m_freq (nth 0 ms (mkModes (fun _ => 0) (fun _ _ => Czero) None)) m * k) (seq 0 (3 * n)).
(** powder_map.py:116-241 for a ForceConstants object *)
Definition powder_from_fc (solve : M3 -> V3 -> V3) (ops : option (list symop)) (dw_chunk : nat) (kB fmin wmin k c : R) (src : sources) (sl : nat -> R)
  (rnd : R -> option (nat -> R * R)) (rnd2 : R -> option (nat -> nat -> R * R)) (always : R -> nat -> R * R) (coeffs : R -> list R) (hm room : R)
  (a : pargs) (w : wargs) (x : fcobj) : res (list R * list R * (nat -> nat -> option R)) powerr :=
  if pdos_clash w then Err (PowTool PdosNeedsDos)
  else if Reqb (M_powder.q_spacing a) 0 then Err (PowTool ZeroSpacing)
  else
    match run_modes x [x_point] with
    | Err e => Err (PowCalc e)
    | Ok (_, _, ms) =>
      match x_freqs k (M_dynmat.n_atoms (o_d x)) ms with
      | [] => Err PowNoModes                           (* no atoms *)
      | f0 :: fs =>
        match powder_map_tool (run_calc x) (f_cell (o_d x)) (crystal_of x) solve ops dw_chunk kB fmin wmin k c src sl rnd rnd2 always coeffs hm room f0 fs a w with
        | Err e => Err (PowTool e)
        | Ok r => Ok r
        end
      end
    end.
End Run.
