(** Vocabulary of C145: how large the numbers can become while a text is normalized. *)
From Verif Require Import Base Unicode Common Normalizer.

(** A Unicode normal form has at most 18 code points for each code point of the text (UAX #15: the largest expansion factor). *)
Definition icu_expansion (E : env) : Prop := forall f s r, e_norm E f s = Some r -> length r <= 18 * length s.

(** For a text of [L] characters whose tables cover [T] bytes: the length of the normalized text, the bytes its tables cover, and the largest number on the way. *)
Fixpoint sizes (n : normalizer) (L T : Z) : Z * Z * Z :=
  (match n with
  | NBert _ _ _ _ => (54 * L, T + 8 * L, Z.max (T + 8 * L) (54 * L + 4))
  | NForm _ => (18 * L, T + 2 * L, Z.max (T + 2 * L) (2 * L + 2))
  | NPrepend p => let k := Z.of_nat (length p) in (L + k, T + k + 1, Z.max (T + k + 1) 2)
  | NReplace _ c => let k := Z.of_nat (length c) in (L, T + (2 * L + 3) * k, Z.max (T + (2 * L + 3) * k) (3 * L + 6))
  | NStrip _ _ => (L, T, L)
  | NStripAccents => (L, T, 0)
  | NSequence l =>
    (fix go (l : list normalizer) (L T M : Z) : Z * Z * Z :=
       match l with
       | [] => (L, T, M)
       | q :: r => let '(L', T', M') := sizes q L T in go r L' T' (Z.max M M')
       end) l L T 0
  end)%Z.
(** the largest number met when a fresh text of [L] characters is normalized: its tables have two entries of four bytes for a supplementary character *)
Definition largest (n : normalizer) (L : Z) : Z := (let '(_, _, M) := sizes n L (8 * L) in Z.max (8 * L) M)%Z.
