(** Model of euphonic-dos started from force constants, as a whole: /repo/euphonic/cli/dos.py
    19-136, on the calculation of M_calc and the rest of the tool in M_clidos, with
    /repo/euphonic/cli/utils.py 425-431 [_calc_modes_kwargs].
    - As in M_clidos, the cell is in the unit in which --grid-spacing is inverted; here that
      unit is the bohr of M_calc.  Energies of the calculation are in hartree.
    - --asr and --dipole-parameter are arguments of their own.
    - A grid with a negative number raises (ValueError in np.repeat); one with a zero has no
      points. *)
From Coq Require Import String.
From Verif Require Import Base Cpx Vec3 M_path M_broad M_dos M_bins M_coll M_fixed M_clidos M_grid M_cell M_qpts M_dynmat M_dipole M_struct M_asr M_calc.
Open Scope R_scope.

Inductive runerr := ToolErr (e : clierr) | NotAGrid | CalcErr (e : M_calc.cerr).

(** QpointPhononModes of the result for n atoms *)
Definition run_table (n : nat) (qpts : list V3) (w : list R) (ms : list modes) : etable :=
  let none := mkModes (fun _ => 0) (fun _ _ => Czero) None in
  mkE (mkF (length qpts) (3 * n) (fun q m => m_freq (nth q ms none) m) (fun q => nth q w 0)) n
      (fun q m a c => m_evec (nth q ms none) m (3 * a + c)%nat).
(** dos.py:72-73, util.py:264-299 *)
Definition run_widths (cell : M3) (ms : list modes) (q m : nat) : R :=
  match m_grad (nth q ms (mkModes (fun _ => 0) (fun _ _ => Czero) None)) with
  | None => 0
  | Some g => mode_width (length ms) cell (g m 0%nat, g m 1%nat, g m 2%nat)
  end.
(** dos.py:67-71, 85-87 with the defaults of force_constants.py:388-398: dipole and splitting on,
    insert_gamma off, reduce_qpts on, no weights *)
Definition grid_options (qpts : list V3) (asr : option asr_kind) (param : R) (adaptive : bool) : options :=
  mkOpts qpts None asr true param true false true adaptive.
(** mp_grid of three integers *)
Definition grid_points (g : Z * Z * Z) : option (list V3) :=
  let '(n0, n1, n2) := g in
  if ((n0 <? 0) || (n1 <? 0) || (n2 <? 0))%Z%bool then None
  else match mp_grid (Z.to_nat n0) (Z.to_nat n1) (Z.to_nat n2) with Ok l => Some l | Err _ => None end.

Section Run.
Variables (erfc : R -> R) (reigh : real_eigh) (ceigh : complex_eigh) (argsort : list R -> list nat) (chunk : nat).
Variable coeffs : R -> list R.
(** dos.py:19-136 for a ForceConstants object *)
Definition dos_from_fc (junk : nat -> nat -> nat -> R) (k wmin room : R) (src : sources) (a : dargs) (asr : option asr_kind) (param : R) (x : fcobj)
  : res (list R * list (option (list R))) runerr :=
  match resolve a with
  | Err e => Err (ToolErr e)
  | Ok _ =>
    match grid_spec (f_cell (o_d x)) (a_grid a) (a_spacing a) with
    | None => Err (ToolErr NoGrid)
    | Some g =>
      match grid_points g with
      | None => Err NotAGrid
      | Some qs =>
        match result erfc reigh ceigh argsort chunk junk (grid_options qs asr param (a_adaptive a)) x with
        | Err e => Err (CalcErr e)
        | Ok (qpts, w, ms) =>
          match dos_tool coeffs k wmin room src a
                  (ForceConsts (f_cell (o_d x)) (fun _ => run_table (M_dynmat.n_atoms (o_d x)) qpts w ms) (fun _ => run_widths (f_cell (o_d x)) ms)) with
          | Err e => Err (ToolErr e)
          | Ok r => Ok r
          end
        end
      end
    end
  end.
End Run.
