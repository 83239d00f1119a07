(** Vocabulary for C132: tokenizers that begin by bringing the text into a Unicode normal form (NFC, NFD, NFKC, NFKD). [width] and [char_of_byte] are in AccentSpec.v, [settled] in StripSpec.v. *)
From Verif Require Import Base Unicode Common Normalizer NormSpec StripSpec AccentSpec.
Import ListNotations.

(** The tokenizer's normalizer is a Unicode form, alone or followed by normalizers that work in place; the form makes [r] out of [s], and [n] is what the others make of [r]. *)
Definition formed (E : env) (norm : option normalizer) (s r n : wstr) : Prop :=
  exists f, e_norm E f s = Some r /\ (norm = Some (NForm f) /\ n = r \/ exists rest, norm = Some (NSequence (NForm f :: rest)) /\ settled E (NSequence rest) r n).

(** The two texts compared from the left; after a difference the reading of the new text moves on by two characters, that of the old text by one. *)
Fixpoint changed (old new : wstr) : list bool :=
  match old, new with a :: o, b :: n => if (a =? b)%N then false :: changed o n else true :: changed o (tl n) | _, _ => [] end.
(** The bytes of the original text, unit by unit: a character outside the basic plane is two units, each counted with all four bytes. *)
Definition unit_bytes (s : wstr) : list nat := flat_map (fun c => if (c <? 0x10000)%N then [width c] else [4; 4]) s.
(** What the positions of the new text count for: an unchanged position counts the bytes of the unit with that number, a changed one becomes two positions of one byte each. *)
Fixpoint entry_sizes (z : list nat) (d : list bool) : list nat :=
  match z, d with n :: z', true :: d' => 1 :: 1 :: entry_sizes z' d' | n :: z', false :: d' => n :: entry_sizes z' d' | _, _ => z end.
(** The original unit that is reported for position [j] of the new text: the one holding the byte counted up to position [j]. The bytes of the last unit are there twice; nothing is there beyond. *)
Definition landing (s r : wstr) (j : nat) : option nat :=
  let z := unit_bytes s in let e := entry_sizes z (changed s r) in let b := list_sum (firstn j e) in
  if j <? length e then (if b <? list_sum z then Some (char_of_byte z b) else if b <? list_sum z + last z 0 then Some (length z - 1) else None) else None.
