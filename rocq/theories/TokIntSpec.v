(** Vocabulary of C147: how large the numbers can become while a text is encoded by a BERT tokenizer. *)
From Verif Require Import Base Unicode Common Normalizer NormIntSpec AddIntSpec.

(** the largest number for a text of [L] characters that the first pass cuts into at most [k] pieces *)
Definition encode_largest (norm : option normalizer) (k L : Z) : Z :=
  (let '(L1, _, _) := piece_sizes norm L in Z.max (extract_largest norm k L) (k * (6 * L + 2 * L1 + 1) + 10 * L + 4 * L1 + 1))%Z.
