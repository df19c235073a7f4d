(** Model: paths through reciprocal space.
    /repo/euphonic/util.py:20-51, 134-167, 461-663 and
    /repo/euphonic/cli/utils.py:200-299. *)
From Coq Require Import String.
From Verif Require Import Base Vec3 M_grid M_qpts.
Open Scope R_scope.

(** np.diff(qpts, axis=0) *)
Definition np_diff (qpts : list V3) : list V3 :=
  map (fun p => vsub (snd p) (fst p)) (combine qpts (tl qpts)).

(** ** util.py:461-516 _calc_abscissa
    [recip] in 1/bohr; [k] is the factor from 1/bohr to the unit of the
    reciprocal cell. *)
Definition abscissa_tol : R := 1 / 1000.
Definition abs_sum (v : V3) : R := let '(x, y, z) := v in Rabs x + Rabs y + Rabs z.
Definition delta_rem (v : V3) : R := let '(x, y, z) := v in frac_dist x + frac_dist y + frac_dist z.

Definition calc_modq (d : V3) : bool :=
  negb (Rltb abscissa_tol (abs_sum d) && Rltb (delta_rem d) abscissa_tol).

(** einsum('ji,kj->ki', recip, delta): delta as a row vector times recip *)
Definition modq (recip : M3) (d : V3) : R :=
  if calc_modq d then norm (vmul d recip) else 0.

Fixpoint cumsum_from (acc : R) (l : list R) : list R :=
  match l with [] => [] | x :: l' => (acc + x) :: cumsum_from (acc + x) l' end.
Definition cumsum (l : list R) : list R := cumsum_from 0 l.

Definition calc_abscissa (recip : M3) (k : R) (qpts : list V3) : list R :=
  map (fun x => x * k) (cumsum (0 :: map (modq recip) (np_diff qpts))).

(** ** util.py:20-51 direction_changed *)
Definition dir_tol : R := 5 / 10 ^ 6.
Definition direction_changed (tolerance : R) (qpts : list V3) : list bool :=
  let delta := np_diff qpts in
  map (fun p => Rltb tolerance (Rabs (Rabs (dot (snd p) (fst p)) - norm (snd p) * norm (fst p))))
      (combine delta (tl delta)).

(** ** util.py:519-555 _recip_space_labels: which q-points are labelled *)
Definition V3_eqb (u v : V3) : bool := if V3_eq_dec u v then true else false.
(** qpts[1:-1] *)
Definition interior {A} (l : list A) : list A := removelast (tl l).
Definition qpt_has_label (qpts : list V3) : list bool :=
  if (length qpts <=? 2)%nat then map (fun _ => true) qpts
  else [true]
    ++ map (fun p => (fst (fst p) || snd (fst p) || snd p)%bool)
         (combine (combine (direction_changed dir_tol qpts) (map is_gamma (interior qpts)))
                  (map (fun p => V3_eqb (fst p) (snd p)) (combine (tl (tl qpts)) (interior qpts))))
    ++ [true].
Definition qpts_with_labels (qpts : list V3) : list nat := where_true (qpt_has_label qpts).

(** ** util.py:612-663 _get_qpt_label
    [points] is the dictionary as a list of (label, coordinates). *)
Definition label_tol : R := 1 / 10 ^ 6.
(** np.isclose(a, b, atol): |a - b| <= atol + rtol*|b| with rtol = 1e-5 *)
Definition isclose (atol a b : R) : bool := Rleb (Rabs (a - b)) (atol + 1 / 10 ^ 5 * Rabs b).
Definition isclose3 (atol : R) (a b : V3) : bool :=
  let '(x, y, z) := a in let '(u, v, w) := b in
  (isclose atol x u && isclose atol y v && isclose atol z w)%bool.
Definition qpt_norm1 (q : V3) : V3 :=
  let '(x, y, z) := q in (x - IZR (Int_part x), y - IZR (Int_part y), z - IZR (Int_part z)).
(** np.roll(v, 1) *)
Definition roll1 (v : V3) : V3 := let '(x, y, z) := v in (z, x, y).
Definition find_label (points : list (string * V3)) (v : V3) : option string :=
  option_map fst (find (fun p => isclose3 label_tol (snd p) v) points).
Definition get_qpt_label (points : list (string * V3)) (q : V3) : string :=
  let v := qpt_norm1 q in
  match find_label points v with
  | Some s => s
  | None => match find_label points (roll1 v) with
            | Some s => s
            | None => match find_label points (roll1 (roll1 v)) with Some s => s | None => ""%string end
            end
  end.

(** ** util.py:134-167 get_qpoint_labels
    [points] is the dictionary chosen at lines 557-576 (SeeK-path or generic);
    [show] is str(np.around(q, 2)). *)
Definition gamma_label (s : string) : string := if String.eqb s "GAMMA" then "$\Gamma$"%string else s.
Definition get_qpoint_labels (points : list (string * V3)) (show : V3 -> string) (qpts : list V3)
  : list (nat * string) :=
  let idx := qpts_with_labels qpts in
  let labels := map (fun i => gamma_label (get_qpt_label points (nth i qpts vzero))) idx in
  let labels := if forallb (fun s => String.eqb s "") labels
                then map (fun i => show (nth i qpts vzero)) idx else labels in
  combine idx labels.

(** ** cli/utils.py:277-299 _insert_gamma on (kpoints, labels) *)
(** list.insert(i, x) for 0 <= i <= len *)
Definition list_insert {A} (i : nat) (x : A) (l : list A) : list A := firstn i l ++ x :: skipn i l.
Definition cli_gamma_indices (labels : list string) : list nat :=
  map S (where_true (map (fun s => String.eqb s "GAMMA") (interior labels))).
Definition cli_insert_gamma (kpts : list V3) (labels : list string) : list V3 * list string :=
  fold_left (fun st i => (list_insert i vzero (fst st), list_insert i "GAMMA"%string (snd st)))
    (rev (cli_gamma_indices labels)) (kpts, labels).

(** ** cli/utils.py:226-243 _get_tick_labels *)
Definition nonempty (s : string) : bool := negb (String.eqb s "").
Definition cli_tick_labels (labels : list string) : list (nat * string) :=
  let idx := where_true (map nonempty labels) in
  combine idx (map (fun i => gamma_label (nth i labels ""%string)) idx).

(** ** cli/utils.py:246-274 _get_break_points *)
Definition cli_break_points (labels : list string) : list nat :=
  map S (where_true (map (fun p => (nonempty (fst p) && nonempty (snd p) && negb (String.eqb (fst p) (snd p)))%bool)
                         (combine (removelast labels) (tl labels)))).

(** ** cli/utils.py:200-223 _get_energy_bins
    [freqs]: all frequencies in their display unit, non-empty; [room]: 1e-5 meV
    in that unit. *)
Inductive bins_err := EmptyRange.
Definition Rmin_list (x : R) (l : list R) : R := fold_left Rmin l x.
Definition Rmax_list (x : R) (l : list R) : R := fold_left Rmax l x.
(** np.linspace(a, b, n) *)
Definition linspace (a b : R) (n : nat) : list R :=
  map (fun i => a + INR i * ((b - a) / INR (n - 1))) (seq 0 n).
Definition get_energy_bins (f0 : R) (freqs : list R) (n : nat) (emin emax : option R) (headroom room : R)
  : res (list R) bins_err :=
  let lo := match emin with Some e => e | None => Rmin (Rmin_list f0 freqs - room) 0 end in
  let hi := match emax with Some e => e | None => Rmax_list f0 freqs * headroom end in
  if Rleb hi lo then Err EmptyRange else Ok (linspace lo hi n).
