(** Words for euphonic-dos from force constants (C96). *)
From Verif Require Import Base Vec3 M_dos M_calc S_dos.
Open Scope R_scope.

(** How many of the modes md have k times their frequency in [lo, hi). *)
Definition count_in (n : nat) (k lo hi : R) (md : modes) : R := INR (length (filter (fun m => inside lo hi (k * m_freq md m)) (seq 0 n))).
(** The points of the Monkhorst-Pack grid g0 x g1 x g2, the last index running fastest. *)
Definition mp_point (g0 g1 g2 j : nat) : V3 :=
  let u g r := (2 * (INR r + 1) - INR g - 1) / (2 * INR g) in
  (u g0 (j / (g1 * g2))%nat, u g1 (j / g2 mod g1)%nat, u g2 (j mod g2)%nat).
