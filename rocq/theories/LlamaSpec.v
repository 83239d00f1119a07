(** Vocabulary for C106: tokenizers in the style of Llama, which put a mark before the text and turn its spaces into marks. *)
From Verif Require Import Base Unicode Common Normalizer NormSpec.

(** Every character [c] of the text replaced by [d]. *)
Definition marked (c d : N) (s : wstr) : wstr := map (fun x => if (x =? c)%N then d else x) s.
Fixpoint occurrences (c : N) (s : wstr) : nat := match s with [] => 0 | x :: r => (if (x =? c)%N then 1 else 0) + occurrences c r end.
(** The number-[j] occurrence of [c] (from 0), at character [p], has at least [j] UTF-16 units of text behind it. *)
Definition roomy (c : N) (s : wstr) : Prop := forall j p, nth_error (positions (N.eqb c) s 0) j = Some p -> p + j < length (flat_map utf16_enc s).
