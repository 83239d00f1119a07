(** Specification vocabulary for the texts of merge rules. *)
From Verif Require Import Base BpeSpec.

(** [rule_text line (p, q)]: white space, the field p, white space, the field q, and then either nothing more or white space and anything. *)
Definition rule_text (line : bytes) (pq : bytes * bytes) : Prop :=
  exists s1 s2 rest, line = s1 ++ fst pq ++ s2 ++ snd pq ++ rest /\
    Forall white s1 /\ Forall white s2 /\ s2 <> [] /\ field (fst pq) /\ field (snd pq) /\
    (rest = [] \/ exists x r, rest = x :: r /\ white x).

(** Line number k is the first one that names the vocabulary entries a and b, joined by the entry n. *)
Definition defines (vocab : smap Z) (prefix : bytes) (line : bytes) (a b n : Z) : Prop :=
  exists p q, rule_text line (p, q) /\ sfind p vocab = Some a /\ sfind q vocab = Some b /\ sfind (p ++ skipn (length prefix) q) vocab = Some n.
Definition first_line (vocab : smap Z) (prefix : bytes) (lines : list bytes) (a b : Z) (k : nat) (n : Z) : Prop :=
  (exists line, nth_error lines k = Some line /\ defines vocab prefix line a b n) /\
  forall k' line n', k' < k -> nth_error lines k' = Some line -> ~ defines vocab prefix line a b n'.

(** A line that names two vocabulary entries, the second of which is shorter than the continuation prefix. *)
Definition too_short (vocab : smap Z) (prefix : bytes) (line : bytes) : Prop :=
  exists p q a b, rule_text line (p, q) /\ sfind p vocab = Some a /\ sfind q vocab = Some b /\ length q < length prefix.
