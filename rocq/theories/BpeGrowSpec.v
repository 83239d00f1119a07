(** BPE models with other entries and other merge rules (C126). *)
From Verif Require Import Base Unicode Common Normalizer WordPiece Bpe AddedVocab AvSpec BpeSpec MergeSpec RelevSpec GrowSpec AsciiSpec.
Import ListNotations.
(** the characters [z] stand in [y] in this order, perhaps with others in between *)
Inductive scattered : list N -> list N -> Prop :=
| sc_nil l : scattered [] l
| sc_take x z l : scattered z l -> scattered (x :: z) (x :: l)
| sc_skip x z l : scattered z l -> scattered z (x :: l).
Definition shows (gaps : bool) (z y : list N) : Prop := if gaps then scattered z y else stretch z y.
(** [z] stands in the text or in what the normalizer makes of a stretch of it *)
Definition appears (E : env) (norm : option normalizer) (s : wstr) (gaps : bool) (z : wstr) : Prop :=
  shows gaps z s \/ exists x y, stretch x s /\ run_norm E norm x = Ok y /\ shows gaps z (ns_text y).
(** how a part [z] of a word is written as an entry: with the continuation prefix inside the word, with the suffix at its end *)
Definition decorated (b : bpe) (z j : bytes) : Prop := In j [z; b_prefix b ++ z; z ++ b_suffix b; b_prefix b ++ z ++ b_suffix b].
(** without an unknown token the bytes the vocabulary does not know vanish, so that their neighbours become adjacent *)
Definition vanish (b : bpe) : bool := match unk_id b with None => true | Some _ => false end.
(** no part of a word that stands in the text is written [j] *)
Definition unseen (E : env) (norm : option normalizer) (s : wstr) (b : bpe) (j : bytes) : Prop :=
  forall z, z <> [] -> plain z -> decorated b z j -> ~ appears E norm s (vanish b) z.
(** the text that a rule joins two entries to *)
Definition joined (b : bpe) (p q : bytes) : bytes := p ++ skipn (length (b_prefix b)) q.
(** the entries on which two vocabularies differ do not matter for the text *)
Definition unseen_entries (E : env) (norm : option normalizer) (s : wstr) (b : bpe) (v' : smap Z) : Prop :=
  sfind (b_unk b) v' = sfind (b_unk b) (b_vocab b) /\
  forall x, differ_on (b_vocab b) v' x -> unseen E norm s b x /\ (b_ignore_merges b = true -> absent E norm s x).
(** a line that names the unknown token *)
Definition names (unk line : bytes) : Prop := exists p q, rule_text line (p, q) /\ (p = unk \/ q = unk).
(** the two tables treat the pair alike, or what it is joined to does not stand in the text *)
Definition unseen_rules (E : env) (norm : option normalizer) (s : wstr) (b b' : bpe) : Prop :=
  forall p q i j, sfind p (b_vocab b) = Some i -> sfind p (b_vocab b') = Some i -> sfind q (b_vocab b) = Some j -> sfind q (b_vocab b') = Some j ->
  mfind i j (b_merges b') <> mfind i j (b_merges b) -> unseen E norm s b (joined b p q).
(** vocabularies with UTF-8 texts, every id once *)
Definition sound_vocab (v : smap Z) : Prop := NoDup (map snd v) /\ utf8_texts v.
