(** Ill-formed text and U+FFFD, by the Unicode Standard (chapter 3.9, "U+FFFD Substitution of Maximal Subparts"): nothing here uses the model. *)
From Verif Require Export UtfSpec.
Import ListNotations.
(** [p] is the beginning of the UTF-8 spelling of a character. *)
Definition begins (p : list N) : Prop := exists c b q, utf8_row c b /\ b = p ++ q.
(** [p], at the beginning of [p ++ r] which does not begin with a whole character, is a maximal subpart: the longest beginning of a character, or else one byte. *)
Definition maximal_subpart (p r : list N) : Prop :=
  p <> [] /\ (begins p \/ length p = 1) /\ (forall p' r', p' ++ r' = p ++ r -> length p < length p' -> ~ begins p') /\ (forall c b q, utf8_row c b -> b ++ q <> p ++ r).
(** The text a byte string is read as: every maximal subpart of what is ill-formed becomes one U+FFFD. *)
Inductive repaired8 : list N -> list N -> Prop :=
| r8_end : repaired8 [] []
| r8_char c b r s : utf8_row c b -> repaired8 r s -> repaired8 (b ++ r) (c :: s)
| r8_bad p r s : maximal_subpart p r -> repaired8 r s -> repaired8 (p ++ r) (0xFFFD%N :: s).
(** The text a string of 16-bit units is read as: pairs of surrogates are one character, a surrogate alone becomes U+FFFD. *)
Inductive repaired16 : list N -> list N -> Prop :=
| r16_end : repaired16 [] []
| r16_char c b r s : utf16_row c b -> repaired16 r s -> repaired16 (b ++ r) (c :: s)
| r16_bad x r s : (0xD800 <= x <= 0xDFFF)%N -> (forall c b q, utf16_row c b -> b ++ q <> x :: r) -> repaired16 r s -> repaired16 (x :: r) (0xFFFD%N :: s).
