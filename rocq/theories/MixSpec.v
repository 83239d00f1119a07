(** The words of a BERT-style tokenizer on texts that contain added tokens, written without the model. *)
From Verif Require Import Base Unicode Common WordPiece PreSpec WpSpec TzSpec RefSpec AddedVocab AvSpec.

(** [fields tok other pos s l]: the words of the ASCII text [s] standing at position [pos]. Spaces U+0020 separate fields. The shortest token at the beginning of a field is a word, then the
    shortest token at the beginning of what remains of the field, and so on; when the remainder starts with no token, [other] says which words it consists of. *)
Inductive fields (tok : wstr -> Prop) (other : nat -> wstr -> list (nat * wstr) -> Prop) : nat -> wstr -> list (nat * wstr) -> Prop :=
| fd_end pos : fields tok other pos [] []
| fd_space pos s l : fields tok other (S pos) s l -> fields tok other pos (32%N :: s) l
| fd_token pos c s l : c <> [] -> ~ In 32%N c -> tok c -> (forall k, 0 < k < length c -> ~ tok (firstn k c)) ->
    fields tok other (pos + length c) s l -> fields tok other pos (c ++ s) ((pos, c) :: l)
| fd_rest pos c s l1 l : c <> [] -> ~ In 32%N c -> (s = [] \/ exists s', s = 32%N :: s') -> (forall k, 0 < k <= length c -> ~ tok (firstn k c)) ->
    other pos c l1 -> fields tok other (pos + length c) s l -> fields tok other pos (c ++ s) (l1 ++ l).

(** The added tokens that take part: those given to the tokenizer that are in the vocabulary, by their [normalized] flag. *)
Definition takes_part (v : smap Z) (ops : list added_token) (normalized : bool) (c : wstr) : Prop :=
  sfind c v <> None /\ exists t, In t ops /\ at_content t = c /\ at_normalized t = normalized.

(** The words of a text: the tokens with normalized = false are looked for in the text itself; what remains of a field is normalized, character by character, by [g]; there the tokens with
    normalized = true are looked for; and what is left is split into words at white space and punctuation. *)
Definition text_words (v : smap Z) (ops : list added_token) (g : N -> N) (space punct : N -> bool) : wstr -> list (nat * wstr) -> Prop :=
  fields (takes_part v ops false) (fun pos c l => fields (takes_part v ops true) (bert_split space punct) pos (map g c) l) 0.

(** All entries of one token agree on its [normalized] flag. *)
Definition one_flag (ops : list added_token) : Prop := forall t t', In t ops -> In t' ops -> at_content t = at_content t' -> at_normalized t = at_normalized t'.
(** Tokens that can be matched in ASCII text, with no strip and whole-word flags. *)
Definition simple_token (t : added_token) : Prop := plain_token t /\ at_content t <> [] /\ Forall (fun b => (b < 128)%N) (at_content t).
