(** Vocabulary of C146: how large the numbers can become while added tokens are extracted from a text and the rest is normalized. *)
From Verif Require Import Base Unicode Common Normalizer NormIntSpec.

(** for a piece of at most [L] characters: the length of the normalized text, the bytes its tables cover, and the largest number on the way *)
Definition piece_sizes (norm : option normalizer) (L : Z) : Z * Z * Z :=
  match norm with Some n => sizes n L (8 * L) | None => (L, 8 * L, 8 * L)%Z end.
(** the largest number for a text of [L] characters that the first pass cuts into at most [k] pieces *)
Definition extract_largest (norm : option normalizer) (k L : Z) : Z :=
  (let '(L1, T1, M) := piece_sizes norm L in Z.max M (Z.max (8 * L + k * T1) (k * (4 * L + L1) + 4 * L + 4 * L1 + 1)))%Z.
