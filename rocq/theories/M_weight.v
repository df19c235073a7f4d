(** Model of the choice that euphonic-powder-map makes for every |q| shell by --weighting
    and --pdos: /repo/euphonic/cli/powder_map.py 128-130, 166-177, 193-217; and of the map of
    structure factors of euphonic-intensity-map, /repo/euphonic/cli/intensity_map.py 56-67.
    Simplifications as in M_powder, M_intmap and M_sphere.  The Debye-Waller factor, computed
    once by the code (166-177), is computed for every row here, with the same result.  The
    random numbers of a shell are a function of its radius. *)
From Coq Require Import String.
From Verif Require Import Base Cpx Vec3 M_grid M_cell M_qpts M_path M_broad M_dos M_bins M_sample M_coll M_clidos M_sf M_sphere M_powder.
Open Scope R_scope.

(** --pdos has nargs=1 here (utils.py:586); --grid-spacing in the unit of the reciprocal
    cell. *)
Record wargs := mkWA {
  w_weighting : string; w_pdos : option string; w_temperature : option R;
  w_grid : option (Z * Z * Z); w_spacing : R; w_sampling : string }.

Section Weight.
Variable calc : list V3 -> option (list V3 * etable).
Variable cell : M3.
Variable x : xtal.
Variable solve : M3 -> V3 -> V3.
Variable ops : option (list symop).
Variables (chunk : nat) (kB fmin wmin k c : R).
Variable src : sources.                      (* cross sections, elements and symbols of the atoms *)
Variable sl : nat -> R.                      (* scattering lengths of the atoms *)
Variables (rnd : R -> option (nat -> R * R)) (rnd2 : R -> option (nat -> nat -> R * R)) (always : R -> nat -> R * R).

Definition shell_res {A} (r : res (list R * A) sphere_err) : res A perr :=
  match r with Ok (_, d) => Ok d | Err e => Err (ShellErr e) end.

(** 166-177, and intensity_map.py:57-64 *)
Definition tool_dw (grid : option (Z * Z * Z)) (spacing : R) (temperature : option R) : res (option dwaller) sphere_err :=
  match temperature with
  | None => Ok None
  | Some T => match debye_waller_on calc x ops chunk kB fmin (grid_spec cell grid spacing) T with Ok d => Ok (Some d) | Err e => Err e end
  end.

(** intensity_map.py:56-67: the rows of the map of structure factors of the modes e at the
    q-points qs. *)
Definition coherent_rows (e : etable) (qs : list V3) (grid : option (Z * Z * Z)) (spacing : R) (temperature : option R) (bins : list R)
  : option (list (list R)) :=
  match tool_dw grid spacing temperature with
  | Err _ => None
  | Ok dw =>
    match calculate_structure_factor e x sl dw (fun i => nth i qs vzero) with
    | Err _ => None
    | Ok s => match sqw_map kB k c bins s true None with Ok z => Some z | Err _ => None end
    end
  end.

(** 217: the numbers of a spectrum or collection put in one row of the array; a collection
    of one line is broadcast. *)
Definition one_row (o : lines_out) : res (list R) perr :=
  match lines_of o with [l] => Ok l | _ => Err RowShape end.

(** 193-217 *)
Definition weighted_row (w : wargs) (bins : list R) (q : R) (n : nat) : res (list R) perr :=
  if (String.eqb (w_weighting w) "dos" && match w_pdos w with None => true | _ => false end)%bool then
    shell_res (sample_sphere_dos calc x solve wmin k q n (w_sampling w) (rnd q) (rnd2 q) (always q) (Some bins))
  else if String.eqb (w_weighting w) "coherent" then
    match tool_dw (w_grid w) (w_spacing w) (w_temperature w) with
    | Err e => Err (ShellErr e)
    | Ok dw => shell_res (sample_sphere_structure_factor calc cell x solve ops chunk kB fmin k c sl dw (25 / 1000) (w_temperature w)
                 q n (w_sampling w) (rnd q) (rnd2 q) (always q) (Some bins))
    end
  else  (* argparse admits no other names without 'dos' in them, utils.py:495-497 *)
    match pdos_weighting (w_weighting w) with
    | Err e => Err (OptionErr e)
    | Ok wo =>
      match match wo with None => Ok None | Some s => match weighting_of s with Ok v => Ok (Some v) | Err e => Err e end end with
      | Err e => Err (OptionErr e)
      | Ok ww =>
        match sphere_modes calc x solve k q n (w_sampling w) (rnd q) (rnd2 q) (always q) (Some bins) with
        | Err e => Err (ShellErr e)
        | Ok (_, e, _) =>
          match sample_sphere_pdos calc x solve wmin k (element src) ww (Dataset (coherent_cs src) (incoherent_cs src))
                  q n (w_sampling w) (rnd q) (rnd2 q) (always q) (Some bins) with
          | Err er => Err (ShellErr er)
          | Ok (_, ls) =>
            match arrange_pdos (pdos_collection bins ls (map (symbol src) (seq 0 (n_atoms e))) wo)
                    (option_map (fun s => [s]) (w_pdos w)) with
            | Err er => Err (ArrangeErr er)
            | Ok o => one_row o
            end
          end
        end
      end
    end.

(** 116-241 with 128-130 *)
Definition powder_map_tool (coeffs : R -> list R) (hm room f0 : R) (fs : list R) (a : pargs) (w : wargs) :=
  match w_pdos w with
  | Some _ => if String.eqb (w_weighting w) "coherent" then Err PdosNeedsDos
              else powder_tool coeffs hm room (weighted_row w) f0 fs a
  | None => powder_tool coeffs hm room (weighted_row w) f0 fs a
  end.
End Weight.
