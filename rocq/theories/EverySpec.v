(** Every outcome of encode on a text in which no added token stands, for any normalizer. *)
From Verif Require Import Base Unicode Common Normalizer PreTokenizer CutSpec AvSpec TextsSpec TotalSpec.

(** The words of the text [s]: those of the normalized text, or of [s] itself if nothing is left of it. *)
Definition norm_words (E : env) (norm : option normalizer) (pre : option pre_tokenizer) (s : wstr) (ws : list wstr) : Prop :=
  exists n l, normalized_to E norm s n /\ forallb valid_cp n = true /\ words_of E pre (text_cut s n) l /\ ws = map snd l.

(** Two calls end without a result in the same way: the same exception, the same undefined behaviour, or both never. *)
Definition same_failure {A B} (a : res A) (b : res B) : Prop :=
  match a, b with
  | Throw e, Throw e' => e = e'
  | Undef u, Undef u' => u = u'
  | Diverge, Diverge => True
  | _, _ => False
  end.
