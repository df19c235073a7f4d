(** Model: the parallel q-point loop of /repo/c/_euphonic.c:204-283. *)
From Verif Require Import Base Cpx Vec3 M_grid M_cell M_qpts M_dynmat M_dipole M_cext.

(** ** Search for the q-direction of a gamma point, _euphonic.c:245-253

    <<
      qpos = -1;
      for (i = 0; i < n_split_qpts; i++) {
          if (split_idx[i] == q) { qpos = i; break; }
      }
      calculate_gamma_correction((q_dirs + 3*qpos), ...)
    >>
    [i] and [qpos] are declared at function scope (_euphonic.c:30,
    "int q, i, qpos;") and so are shared by all threads of the parallel region;
    [q], the loop variable of "omp for", is private.  One step below is one
    statement; real machines may interleave more finely. *)
Record shared := mkSh { sh_i : nat; sh_qpos : Z }.

Inductive pc := P_init (* qpos = -1 *) | P_zero (* i = 0 *) | P_test (* i < n ? *)
  | P_cmp (* split_idx[i] == q ? *) | P_found (* qpos = i; break *) | P_inc (* i++ *)
  | P_use (* evaluate q_dirs + 3*qpos *) | P_done (used : Z).

(** A thread in the search: its q and where it is.  A read of [split_idx] past
    its end (possible when another thread moves [i]) is taken not to match. *)
Definition step_thread (split_idx : list nat) (q : nat) (s : shared) (p : pc) : shared * pc :=
  match p with
  | P_init => (mkSh (sh_i s) (-1), P_zero)
  | P_zero => (mkSh 0 (sh_qpos s), P_test)
  | P_test => (s, if Nat.ltb (sh_i s) (length split_idx) then P_cmp else P_use)
  | P_cmp => (s, match nth_error split_idx (sh_i s) with
                 | Some v => if Nat.eqb v q then P_found else P_inc
                 | None => P_inc end)
  | P_found => (mkSh (sh_i s) (Z.of_nat (sh_i s)), P_use)
  | P_inc => (mkSh (S (sh_i s)) (sh_qpos s), P_test)
  | P_use => (s, P_done (sh_qpos s))
  | P_done v => (s, P_done v)
  end.

(** Threads by number; a schedule is the list of thread numbers that run next. *)
Definition upd {A} (k : nat) (v : A) (f : nat -> A) : nat -> A := fun x => if Nat.eqb x k then v else f x.
Definition run_threads (split_idx : list nat) (qof : nat -> nat) (sched : list nat)
  (s : shared) (ps : nat -> pc) : shared * (nat -> pc) :=
  fold_left (fun st t => let '(s, ps) := st in
    let '(s', p') := step_thread split_idx (qof t) s (ps t) in (s', upd t p' ps)) sched (s, ps).

(** ** The loop over q-points, _euphonic.c:226-273: iterations may run in any
    order and each finds arbitrary contents in the thread's scratch arrays
    (dmat, dmat_grad, corr are malloc'ed and reused).  The output rows are
    evals + q*3n, dmats + q*9nn*2, modegs + q*18n.  The q-direction is given;
    the search for it is modelled above. *)
Definition store (base len : nat) (v m : mem) : mem :=
  fun x => if (Nat.leb base x && Nat.ltb x (base + len))%bool then v (x - base)%nat else m x.

Record c_out := mkOut { o_evals : mem; o_dmats : mem; o_modegs : mem }.
Definition c_iteration (eigh : nat -> (nat -> nat -> C) -> (nat -> R) * (nat -> nat -> C))
  (A : c_args) (qpts : list V3) (dirs : nat -> option V3) (scratch : nat -> mem * mem * mem)
  (o : c_out) (q : nat) : c_out :=
  let n := ca_n A in
  let '(dm, dg, corr) := scratch q in
  let '(f, e, g) := c_one_q eigh A (vmem (nth q qpts vzero)) (option_map vmem (dirs q)) dm dg corr in
  mkOut (store (q * (3 * n)) (3 * n) f (o_evals o))
        (store (q * (2 * 9 * n * n)) (2 * 9 * n * n) e (o_dmats o))
        (store (q * (18 * n)) (18 * n) g (o_modegs o)).
Definition c_loop eigh A qpts dirs scratch (order : list nat) (o : c_out) : c_out :=
  fold_left (c_iteration eigh A qpts dirs scratch) order o.
