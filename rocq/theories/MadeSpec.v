(** Vocabulary for C119: the entries of the vocabulary that can be made by merging. *)
From Verif Require Import Base WordPiece BpeSpec MergeSpec.

Definition listed (vocab : smap Z) (x : bytes) : Prop := exists i, sfind x vocab = Some i.

(** What can come out of the merges of a word: single bytes, with the affixes; the unknown token; the tokens of byte fallback; and what a rule of the merge list makes of two such entries
    (the second without the continuing-subword prefix). *)
Inductive made (vocab : smap Z) (lines : list bytes) (unk pre suf : bytes) (byte_fallback : bool) : bytes -> Prop :=
| md_byte p x q : p = [] \/ p = pre -> q = [] \/ q = suf -> listed vocab (p ++ [x] ++ q) -> made vocab lines unk pre suf byte_fallback (p ++ [x] ++ q)
| md_unknown : unk <> [] -> listed vocab unk -> made vocab lines unk pre suf byte_fallback unk
| md_fallback x : byte_fallback = true -> listed vocab (str "<000" ++ [x] ++ str ">") -> made vocab lines unk pre suf byte_fallback (str "<000" ++ [x] ++ str ">")
| md_rule line p q : In line lines -> rule_text line (p, q) -> made vocab lines unk pre suf byte_fallback p -> made vocab lines unk pre suf byte_fallback q ->
    listed vocab (p ++ skipn (length pre) q) -> made vocab lines unk pre suf byte_fallback (p ++ skipn (length pre) q).
