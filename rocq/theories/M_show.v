(** Model of euphonic-show-sampling: /repo/euphonic/cli/show_sampling.py 11-110, on the
    sampling functions of M_sample.
    - [npts] is any integer, as argparse makes it; [r], [r2], [always] are np.random and [phi] is
      scipy's fmin, as in M_sample.
    - A drawing is the list of points given to ax.scatter, in two or three dimensions; the
      axes, the marker and saving or showing the figure are left out.  A list without points
      makes ax.scatter() fail.
    - The message is the number it names. *)
From Coq Require Import String.
From Verif Require Import Base Vec3 M_path M_sample.
Open Scope R_scope.

Inductive sherr :=
  | BadChoice            (* argparse, 22-23 *)
  | Sampling (e : serr)
  | NanToInt             (* ValueError: int(nan) *)
  | NoPoints.            (* TypeError: scatter() without x and y *)
Inductive drawing := Flat (l : list (R * R)) | Solid (l : list (option V3)).

(** 11-14 *)
Definition choices_2d : list string := ["golden-square"; "regular-square"; "recurrence-square"]%string.
Definition choices_3d : list string :=
  ["golden-sphere"; "sphere-from-square-grid"; "spherical-polar-grid"; "spherical-polar-improved"; "random-sphere"; "recurrence-cube"]%string.
(** int(np.ceil(np.sqrt(x))) *)
Definition ceil_sqrt (x : R) : res nat sherr := if Rltb x 0 then Err NanToInt else Ok (Z.to_nat (- Int_part (- sqrt x))).
(** ax.scatter of the columns of the points, 39-40 and so on *)
Definition scatter {A} (draw : list A -> drawing) (r : res (list A) serr) : res drawing sherr :=
  match r with Err e => Err (Sampling e) | Ok [] => Err NoPoints | Ok l => Ok (draw l) end.
Definition pair_of (p : list R) : R * R := (nth 0 p 0, nth 1 p 0).
Definition triple_of (p : list R) : option V3 := Some (nth 0 p 0, nth 1 p 0, nth 2 p 0).
Definition quiet (r : res drawing sherr) : res (option nat * drawing) sherr := match r with Ok d => Ok (None, d) | Err e => Err e end.
(** Points of a generator over range(npts), for npts not negative [f]; there are none for a
    negative npts. *)
Definition ranged {A} (npts : Z) (f : nat -> res (list A) serr) : res (list A) serr :=
  if Z.ltb npts 0 then Ok [] else f (Z.to_nat npts).
(** 47-50, 69-73, 83-87: the grid, its number of points and the message if it differs *)
Definition gridded (npts : Z) (x : R) (count : nat -> nat) (f : nat -> res drawing sherr) : res (option nat * drawing) sherr :=
  match ceil_sqrt x with
  | Err e => Err e
  | Ok n => match f n with Err e => Err e | Ok d => Ok (if Z.eqb (Z.of_nat (count n)) npts then None else Some (count n), d) end
  end.

Section Show.
Variables (r : nat -> R * R) (r2 : nat -> nat -> R * R) (always : nat -> R * R) (phi : nat -> R).
(** 31-108 *)
Definition show_sampling (npts : Z) (sampling : string) (jitter : bool) : res (option nat * drawing) sherr :=
  let rnd := if jitter then Some r else None in
  let rnd2 := if jitter then Some r2 else None in
  if String.eqb sampling "golden-square" then quiet (scatter Flat (ranged npts (fun n => golden_square n true rnd)))
  else if String.eqb sampling "regular-square" then
    gridded npts (IZR npts) (fun n => n ^ 2)%nat (fun n => scatter Flat (regular_square n n true rnd))
  else if String.eqb sampling "golden-sphere" then quiet (scatter Solid (ranged npts (fun n => golden_sphere n rnd)))
  else if String.eqb sampling "recurrence-square" then quiet (scatter Flat (ranged npts (fun n => Ok (map pair_of (recurrence_sequence (phi 2%nat) n 2)))))
  else if String.eqb sampling "spherical-polar-grid" then
    gridded npts (IZR npts / 2) (fun n => n ^ 2 * 2)%nat (fun n => scatter Solid (spherical_polar_grid (n * 2) n rnd))
  else if String.eqb sampling "sphere-from-square-grid" then
    gridded npts (IZR npts / 2) (fun n => n ^ 2 * 2)%nat (fun n => scatter Solid (sphere_from_square_grid (n * 2) n rnd))
  else if String.eqb sampling "spherical-polar-improved" then
    quiet (scatter Solid (spherical_polar_improved (Z.to_nat npts) rnd2))
  else if String.eqb sampling "random-sphere" then quiet (scatter Solid (ranged npts (fun n => random_sphere n always)))
  else if String.eqb sampling "recurrence-cube" then quiet (scatter Solid (ranged npts (fun n => Ok (map triple_of (recurrence_sequence (phi 3%nat) n 3)))))
  else Err BadChoice.
End Show.
