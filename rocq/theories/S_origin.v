(** What it means to describe a crystal from another origin: all atoms get the same shift, in
    fractional coordinates, and nothing else changes. *)
From Verif Require Import Base Cpx Vec3 M_grid M_dynmat M_sf.
Open Scope R_scope.

Definition moved (s : V3) (d : fcdata) : fcdata :=
  mkFC (f_cell d) (map (fun r => vadd r s) (f_atom_r d)) (f_sc d) (f_origins d) (f_fc d).
Definition moved_atoms (s : V3) (x : xtal) : xtal := M_sf.mkX (mass x) (fun a => vadd (pos x a) s) (recip x).
