(** C46, C48: weights imported from .phonon and Phonopy files; truncated .phonon files. *)
From Verif Require Import Base M_phonon S_phonon L_phonon L_phonon2.
Open Scope Z_scope.

(** Numbers that follow each other: every repeated block gets an equal share of its weight. *)
Theorem C46_average : forall (L : Type) (P : parser L) (eig : bool) h na nb nq cell ats bs ds,
  header_says P h na nb nq cell ats -> Forall2 (says P na nb) bs ds -> contiguous (map num ds) ->
  exists d, read_phonon_data P eig true false (header_lines h ++ flat_map lines_of bs) = Ok d /\
    length (p_weights d) = Nat.max nq (length ds) /\
    (forall i d0, (i < length ds)%nat -> nth i (p_weights d) 0%R = (wt (nth i ds d0) / INR (length (group (map num ds) i)))%R) /\
    (forall i, (length ds <= i)%nat -> nth i (p_weights d) 0%R = 0%R).
Proof. intros L P eig h na nb nq cell ats bs ds H F C. exact (average_main P eig h na nb nq cell ats bs ds H F C). Qed.
Print Assumptions C46_average.

(** The total is the sum of the weights of the different q-points. *)
Theorem C46_total : forall (L : Type) (P : parser L) (eig pref : bool) h na nb nq cell ats bs ds (w : Z -> R),
  header_says P h na nb nq cell ats -> Forall2 (says P na nb) bs ds -> contiguous (map num ds) -> (forall x, In x ds -> wt x = w (num x)) ->
  (pref = true -> forall i, (i < length ds)%nat -> existsb (split_at ds) (group (map num ds) i) = true ->
     (length (filter (fun j => negb (split_at ds j)) (group (map num ds) i)) <= 1)%nat) ->
  exists d, read_phonon_data P eig true pref (header_lines h ++ flat_map lines_of bs) = Ok d /\ Rsum (p_weights d) = Sum (nodup Z.eq_dec (map num ds)) w.
Proof. intros L P eig pref h na nb nq cell ats bs ds w H F C W M. exact (total_main P eig pref h na nb nq cell ats bs ds H F C w W M). Qed.
Print Assumptions C46_total.

(** With prefer_non_loto the block without direction keeps the weight and the split ones get none. *)
Theorem C46_prefer_unsplit : forall (L : Type) (P : parser L) (eig avg : bool) h na nb nq cell ats bs ds,
  header_says P h na nb nq cell ats -> Forall2 (says P na nb) bs ds -> contiguous (map num ds) ->
  (forall i, (i < length ds)%nat -> existsb (split_at ds) (group (map num ds) i) = true ->
     (length (filter (fun j => negb (split_at ds j)) (group (map num ds) i)) <= 1)%nat) ->
  exists d, read_phonon_data P eig avg true (header_lines h ++ flat_map lines_of bs) = Ok d /\
    forall i d0, (i < length ds)%nat ->
      ((exists j, In j (group (map num ds) i) /\ split_at ds j = true) -> (exists j, In j (group (map num ds) i) /\ split_at ds j = false) ->
        nth i (p_weights d) 0%R = if split_at ds i then 0%R else wt (nth i ds d0)) /\
      ((forall j, In j (group (map num ds) i) -> split_at ds j = split_at ds i) ->
        nth i (p_weights d) 0%R = if avg then (wt (nth i ds d0) / INR (length (group (map num ds) i)))%R else wt (nth i ds d0)).
Proof. intros L P eig avg h na nb nq cell ats bs ds H F C M. exact (prefer_main P eig avg h na nb nq cell ats bs ds H F C M). Qed.
Print Assumptions C46_prefer_unsplit.

(** Two blocks without direction beside a split one: refused. *)
Theorem C46_two_unsplit : forall (L : Type) (P : parser L) (eig avg : bool) h na nb nq cell ats bs ds i,
  header_says P h na nb nq cell ats -> Forall2 (says P na nb) bs ds -> contiguous (map num ds) ->
  (i < length ds)%nat -> existsb (split_at ds) (group (map num ds) i) = true ->
  (1 < length (filter (fun j => negb (split_at ds j)) (group (map num ds) i)))%nat ->
  read_phonon_data P eig avg true (header_lines h ++ flat_map lines_of bs) = Err Ambiguous.
Proof. intros L P eig avg h na nb nq cell ats bs ds i H F C Hi E T. exact (ambiguous_ok P eig avg true h na nb nq cell ats bs ds H F i C eq_refl Hi E T). Qed.
Print Assumptions C46_two_unsplit.

(** Without options the weights are those of the file. *)
Theorem C46_plain : forall (L : Type) (P : parser L) (eig : bool) h na nb nq cell ats bs ds,
  header_says P h na nb nq cell ats -> Forall2 (says P na nb) bs ds ->
  exists d, read_phonon_data P eig false false (header_lines h ++ flat_map lines_of bs) = Ok d /\ p_weights d = map wt ds ++ repeat 0%R (nq - length ds).
Proof. intros L P eig h na nb nq cell ats bs ds H F. exact (plain_main P eig h na nb nq cell ats bs ds H F). Qed.
Print Assumptions C46_plain.

(** A number that comes back after another one is not shared: the total is too large. *)
Theorem C46_separated_refuted : exists h bs ds (w : Z -> R) d,
  header_says printed h 1 3 3 cube one_atom /\ Forall2 (says printed 1 3) bs ds /\ (forall x, In x ds -> wt x = w (num x)) /\
  read_phonon_data printed true true false (header_lines h ++ flat_map lines_of bs) = Ok d /\
  Sum (nodup Z.eq_dec (map num ds)) w = 1%R /\ Rsum (p_weights d) = (3 / 2)%R.
Proof. exact separated_main. Qed.
Print Assumptions C46_separated_refuted.

Theorem C46_phonopy : forall ws, Rsum ws <> 0%R -> Rsum (convert_weights ws) = 1%R /\ length (convert_weights ws) = length ws /\
  forall i, (i < length ws)%nat -> (nth i (convert_weights ws) 0 * Rsum ws = nth i ws 0)%R.
Proof. exact phonopy_main. Qed.
Print Assumptions C46_phonopy.

(** Four blocks, the first three of q-point 1 and two of them split. *)
Example C46_case : header_says printed (print_header 1 3 2 cube one_atom) 1 3 2 cube one_atom /\
  (let ds := [sample 1 0 (1/2) None; sample 1 0 (1/2) (Some [1; 0; 0]); sample 1 0 (1/2) (Some [0; 1; 0]); sample 2 1 (1/2) None]%R in
   Forall2 (says printed 1 3) (map print_block ds) ds /\ contiguous (map num ds) /\ group (map num ds) 1 = [0; 1; 2]%nat /\
   (forall i, (i < length ds)%nat -> existsb (split_at ds) (group (map num ds) i) = true -> (length (filter (fun j => negb (split_at ds j)) (group (map num ds) i)) <= 1)%nat)).
Proof. exact case_main. Qed.

(** A whole file: every block in order, followed by nothing else when no block is missing. *)
Theorem C48_contents : forall (L : Type) (P : parser L) (eig avg : bool) h na nb nq cell ats bs ds,
  header_says P h na nb nq cell ats -> Forall2 (says P na nb) bs ds -> contiguous (map num ds) -> (nq <= length ds)%nat ->
  exists d, read_phonon_data P eig avg false (header_lines h ++ flat_map lines_of bs) = Ok d /\ p_cell d = cell /\ p_atoms d = ats /\
    map r_qpt (p_rows d) = map pt ds /\ map r_freqs (p_rows d) = map freqs ds /\ (eig = true -> map r_evec (p_rows d) = map vecs ds).
Proof. exact contents_main. Qed.
Print Assumptions C48_contents.

(** A file that stops within a block (whatever the last, partial, line holds) is refused when
    the eigenvectors are read. *)
Theorem C48_cut_in_block : forall (L : Type) (P : parser L) (avg pref : bool) h na nb nq cell ats bs ds rest,
  header_says P h na nb nq cell ats -> Forall2 (says P na nb) bs ds ->
  (0 < length rest)%nat -> (length rest < 1 + nb + 2 + na * nb)%nat ->
  read_phonon_data P true avg pref (header_lines h ++ flat_map lines_of bs ++ rest) = Err Raise.
Proof. intros L P avg pref h na nb nq cell ats bs ds rest H F H0 H1. exact (cut_block P h na nb nq cell ats bs ds avg pref rest H F H0 (cut_len na nb _ H1)). Qed.
Print Assumptions C48_cut_in_block.

(** A file that stops within the first four lines, or after 'Unit cell vectors' and before the
    last atom, is refused. *)
Theorem C48_cut_in_header : forall (L : Type) (P : parser L) (eig avg pref : bool) h na nb nq cell ats f,
  header_says P h na nb nq cell ats ->
  ((length f < 4)%nat -> read_phonon_data P eig avg pref f = Err Raise) /\
  ((length f < 3 + 1 + na)%nat -> read_phonon_data P eig avg pref ([h0 h; hna h; hnb h; hnq h] ++ hmore h ++ [hcell h] ++ f) = Err Raise).
Proof. exact cut_header_main. Qed.
Print Assumptions C48_cut_in_header.

(** Between the two the reader never returns. *)
Theorem C48_header_hang_refuted : forall (L : Type) (P : parser L) (eig avg pref : bool) h na nb nq cell ats k,
  header_says P h na nb nq cell ats -> (4 <= k)%nat -> (k <= 4 + length (hmore h))%nat ->
  read_phonon_data P eig avg pref (firstn k (header_lines h)) = Err Hang.
Proof. exact hang_main. Qed.
Print Assumptions C48_header_hang_refuted.

(** A file that stops between blocks is accepted: the missing q-points come out as gamma with
    zero frequencies and weight. *)
Theorem C48_missing_blocks_refuted : forall (L : Type) (P : parser L) (eig : bool) h na nb nq cell ats bs ds,
  header_says P h na nb nq cell ats -> Forall2 (says P na nb) bs ds -> contiguous (map num ds) -> (length ds < nq)%nat ->
  exists d, read_phonon_data P eig true false (header_lines h ++ flat_map lines_of bs) = Ok d /\
    map r_qpt (p_rows d) = map pt ds ++ repeat [0; 0; 0]%R (nq - length ds) /\
    map r_freqs (p_rows d) = map freqs ds ++ repeat (repeat 0%R nb) (nq - length ds) /\
    (forall i, (length ds <= i)%nat -> nth i (p_weights d) 0%R = 0%R).
Proof. exact missing_main. Qed.
Print Assumptions C48_missing_blocks_refuted.

(** A split gamma point makes up for the missing block: the second q-point is absent from a
    result of the announced size. *)
Theorem C48_split_hides_missing_refuted : exists h bs ds d,
  header_says printed h 1 3 2 cube one_atom /\ Forall2 (says printed 1 3) bs ds /\ (forall x, In x ds -> num x = 1) /\
  read_phonon_data printed true true false (header_lines h ++ flat_map lines_of bs) = Ok d /\ length (p_rows d) = 2%nat /\
  (forall r, In r (p_rows d) -> r_qpt r = [0; 0; 0]%R).
Proof. exact hides_main. Qed.
Print Assumptions C48_split_hides_missing_refuted.

(** One whole block of the two announced, and the first two lines of the next. *)
Example C48_case : header_says printed (print_header 1 3 2 cube one_atom) 1 3 2 cube one_atom /\
  Forall2 (says printed 1 3) [print_block (sample 1 0 (1/2) None)] [sample 1 0 (1/2) None] /\
  (0 < length (firstn 2 (lines_of (print_block (sample 2 1 (1/2) None)))) < 1 + 3 + 2 + 1 * 3)%nat.
Proof. exact case48_main. Qed.
