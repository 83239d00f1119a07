(** Specification vocabulary for decoding what was encoded. *)
From Verif Require Import Base Unicode Common NormSpec PreSpec WpSpec WordPiece.

(** the words with one space between neighbours *)
Definition joined (ws : list wstr) : wstr := match ws with [] => [] | x :: r => x ++ flat_map (fun y => 32%N :: y) r end.

(** A word: not empty, no white space, and without punctuation unless it is one punctuation character. *)
Definition plain_word (space punct : N -> bool) (x : wstr) : Prop :=
  x <> [] /\ Forall (fun c => space c = false) x /\ (Forall (fun c => punct c = false) x \/ exists c, x = [c] /\ punct c = true).

(** WordPiece can write the word without the unknown token. *)
Definition segmentable (w : wordpiece) (x : wstr) : Prop :=
  (Z.of_nat (units x) <= wp_max w)%Z /\ exists ts, greedy (wp_vocab w) (wp_prefix w) (flat_map utf16_enc x) 0 ts.

(** No vocabulary token can match half a surrogate pair (such a half is written as U+FFFD): the text has no supplementary characters or no token contains U+FFFD. *)
Definition whole_chars (v : smap Z) (s : wstr) : Prop :=
  bmp s \/ forall tok i p q, In (tok, i) v -> tok <> p ++ utf8_enc 0xFFFD ++ q.
