(** How many tokens a text can have (C130). *)
From Verif Require Import Base Unicode Common Bpe Spec PreSpec RefSpec CutSpec.
Import ListNotations.
(** how many tokens a BPE model can make of one byte: one, or with byte fallback as many as the byte with its affixes has bytes *)
Definition per_byte (b : bpe) : nat := if b_byte_fallback b then S (length (b_prefix b) + length (b_suffix b)) else 1.
(** the characters that are not white space *)
Definition visible (space : N -> bool) (s : wstr) : wstr := filter (fun c => negb (space c)) s.
