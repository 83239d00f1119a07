(** Vocabulary for C134: what a cleaning BERT normalizer makes of texts with characters to delete (control characters, NUL, U+FFFD), in any number and any planes. [positions], [unwanted], [cleaned] and
    [deletions_fit] are in NormSpec.v, [unit_bytes], [changed] and [entry_sizes] in FormSpec.v, [marks_fit], [kept_entries] and [place] in UncasedSpec.v. *)
From Verif Require Import Base Unicode Common Normalizer NormSpec AccentSpec FormSpec UncasedSpec.
Import ListNotations.

(** The numbers of the characters to delete. *)
Definition doomed (E : env) (s : wstr) : list nat := positions (unwanted E) s 0.
(** The entries left: every deletion takes out, of what is left, the entry with the number the character has in the original text. *)
Definition entries_left (z : list nat) (ps : list nat) : list nat := fold_left (fun l p => firstn p l ++ skipn (S p) l) ps z.
(** The bytes left: the deletion number [j] (from 0), of character [p], takes as many bytes as unit [p + j] of the original text has, from the place that unit had in the original text. *)
Fixpoint bytes_left (z : list nat) (j : nat) (ps : list nat) (bytes : list nat) : list nat :=
  match ps with
  | [] => bytes
  | p :: r => let a := list_sum (firstn (p + j) z) in bytes_left z (S j) r (firstn a bytes ++ skipn (a + nth (p + j) z 0) bytes)
  end.
(** The unit of every byte of the original text. *)
Fixpoint units_of_bytes (z : list nat) (k : nat) : list nat := match z with [] => [] | n :: z' => repeat k n ++ units_of_bytes z' (S k) end.
(** The runs of equal numbers, numbered from 0. *)
Fixpoint ranked_from (prev cur : nat) (l : list nat) : list nat :=
  match l with [] => [] | x :: r => if prev =? x then cur :: ranked_from prev cur r else S cur :: ranked_from x (S cur) r end.
Definition ranked (l : list nat) : list nat := match l with [] => [] | x :: r => 0 :: ranked_from x 0 r end.

(** The unit reported for every byte of the cleaned text; the bytes of the last unit of the original text are there once more. *)
Definition bytes_after (E : env) (s : wstr) : list nat :=
  let z := unit_bytes s in ranked (bytes_left z 0 (doomed E s) (units_of_bytes z 0)) ++ repeat (length z - 1) (last z 0).
(** The result [n] and the bytes [e] counted for each of its positions. *)
Definition erased_result (E : env) (st lo : bool) (s n : wstr) (e : list nat) : Prop :=
  let p := cleaned E s in let z := entries_left (unit_bytes s) (doomed E s) in
  if st || lo then exists r, e_norm E NFD p = Some r /\ marks_fit (e_is_mn E) r (entry_sizes z (changed p r)) /\
    n = (let kept := filter (fun c => negb (e_is_mn E c)) r in if lo then map (e_towlower E) kept else kept) /\ e = kept_entries (e_is_mn E) r (entry_sizes z (changed p r))
  else n = p /\ e = z.
