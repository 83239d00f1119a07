(** Which added tokens matter for a text. *)
From Verif Require Import Base Unicode Common Normalizer AddedVocab AvSpec.
Import ListNotations.
(** [x] is a stretch of consecutive characters of [s] *)
Definition stretch (x s : wstr) : Prop := exists p q, s = p ++ x ++ q.
(** the characters of the token stand in the text [s] somewhere *)
Definition occurs (content : bytes) (s : wstr) : Prop := exists x, stretch x s /\ content = utf8_encs x.
(** the token contains the replacement character U+FFFD *)
Definition has_replacement (content : bytes) : Prop := exists p q, content = p ++ [0xEF; 0xBF; 0xBD]%N ++ q.
(** the token stands neither in the text nor in what the normalizer makes of a stretch of it *)
Definition absent (E : env) (norm : option normalizer) (s : wstr) (content : bytes) : Prop :=
  ~ occurs content s /\ (forall x y, stretch x s -> run_norm E norm x = Ok y -> ~ occurs content (ns_text y)) /\ ~ has_replacement content.
