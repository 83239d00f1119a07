(** A special token written in a text: what comes before it and what comes after it are encoded as texts of their own. *)
From Verif Require Import Base Unicode Common Normalizer PreTokenizer WordPiece AddedVocab Tokenizer TzSpec RefSpec AvSpec MixSpec.

(** [c] is one of the added tokens with normalized = false that are in the vocabulary; it contains no space and begins with no other such token. *)
Definition delimiter (v : smap Z) (ops : list added_token) (c : wstr) : Prop :=
  c <> [] /\ ~ In 32%N c /\ takes_part v ops false c /\ forall k, 0 < k < length c -> ~ takes_part v ops false (firstn k c).
(** What comes before the token is nothing or ends with a space. *)
Definition at_boundary (a : wstr) : Prop := a = [] \/ exists a', a = a' ++ [32%N].

(** The rows with [k] added to the word numbers and [d] to the positions. *)
Definition later (k d : nat) (rs : list row) : list row :=
  map (fun r => mkRow (r_id r) (r_type r) (r_token r) (option_map (Nat.add k) (r_word r)) (d + fst (r_off r), d + snd (r_off r)) (r_smask r) (r_amask r)) rs.
(** The number of words: one more than the greatest word number. *)
Definition words_in (rs : list row) : nat := list_max (map (fun r => match r_word r with Some k => S k | None => 0 end) rs).

(** The text [s] has the rows [rs]: encode, without truncation, special tokens and padding, returns an encoding with these rows. The empty text has no rows. *)
Definition text_rows (E : env) (t : tokenizer) (s : wstr) (rs : list row) : Prop :=
  (s = [] /\ rs = []) \/ (s <> [] /\ exists r, (forall fuel add, snd (encode E fuel (bare t) s add) = Ok r) /\ rows r = rs).
