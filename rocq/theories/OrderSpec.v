(** Specification vocabulary for C92: the same vocabulary held in a hash table with another iteration order (or listed in another order in the configuration). *)
From Verif Require Import Base Common WordPiece Bpe AddedVocab Tokenizer HistSpec.
From Coq Require Import Permutation.

(** a vocabulary in which no token and no id occurs twice *)
Definition one_to_one (v : smap Z) : Prop := NoDup (map fst v) /\ NoDup (map snd v).

Definition reordered_model (m m' : model) : Prop :=
  match m, m' with
  | MWordPiece w, MWordPiece w' => Permutation (wp_vocab w) (wp_vocab w') /\ wp_unk w = wp_unk w' /\ wp_max w = wp_max w' /\ wp_prefix w = wp_prefix w'
  | MBpe b c, MBpe b' c' => Permutation (b_vocab b) (b_vocab b') /\
      b' = mkBpe (b_vocab b') (b_merges b) (b_dropout b) (b_unk b) (b_prefix b) (b_suffix b) (b_fuse_unk b) (b_byte_fallback b) (b_ignore_merges b) /\ c = c'
  | _, _ => False
  end.
(** The two tokenizers differ at most in the order of the entries of the model's vocabulary. *)
Definition reordered (t t' : tokenizer) : Prop :=
  t' = set_model t (tz_model t') /\
  match tz_model t, tz_model t' with
  | None, None => True
  | Some m, Some m' => reordered_model m m' /\ one_to_one (model_vocab m)
  | _, _ => False
  end.
