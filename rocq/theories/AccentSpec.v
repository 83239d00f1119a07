(** Vocabulary for C103: texts whose characters decompose into at most two ([before], [after], [simple_piece], [kept_src] are in NormSpec.v). *)
From Verif Require Import Base Unicode Common NormSpec.

(** UTF-8 length of a character *)
Definition width (c : N) : nat := length (utf8_enc c).
(** The bytes the alignment table counts for the kept characters: all of a character that stays itself, one for each part of a character that was decomposed. *)
Definition counted (keep : N -> bool) (ps : list (N * wstr)) : list nat :=
  flat_map (fun p => map (fun _ => match snd p with [_] => width (fst p) | _ => 1 end) (filter keep (snd p))) ps.
(** The character, counted from 0, that byte number [b] belongs to in a text whose characters have these sizes. *)
Fixpoint char_of_byte (sizes : list nat) (b : nat) : nat := match sizes with [] => 0 | n :: r => if b <? n then 0 else S (char_of_byte r (b - n)) end.
(** The position reported for position [j] of the stripped text. *)
Definition shown (keep : N -> bool) (ps : list (N * wstr)) (j : nat) : nat := char_of_byte (map width (before ps)) (list_sum (firstn j (counted keep ps))).
(** The characters before position [k] that lost bytes: their parts count for less than they take in the text. *)
Definition loses (keep : N -> bool) (p : N * wstr) : Prop := list_sum (counted keep [p]) < width (fst p).
