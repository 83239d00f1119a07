(** Specification vocabulary for whole tokenizers: rows of an encoding, where they come from, and pieces of a text. *)
From Verif Require Import Base Unicode Common Utils PostProcessor Normalizer PreTokenizer WordPiece Bpe AddedVocab Tokenizer Spec PreSpec.

(** ** Rows *)
(** One position of an encoding: its entries in the seven columns. *)
Record row := mkRow { r_id : Z; r_type : Z; r_token : bytes; r_word : option nat; r_off : nat * nat; r_smask : Z; r_amask : Z }.
Fixpoint zip7 (i t : list Z) (k : list bytes) (w : list (option nat)) (o : list (nat * nat)) (s m : list Z) : list row :=
  match i, t, k, w, o, s, m with
  | a :: i', b :: t', c :: k', d :: w', e :: o', f :: s', g :: m' => mkRow a b c d e f g :: zip7 i' t' k' w' o' s' m'
  | _, _, _, _, _, _, _ => []
  end.
Definition rows (e : encoding) : list row := zip7 (en_ids e) (en_type_ids e) (en_tokens e) (en_words e) (en_offsets e) (en_smask e) (en_amask e).

(** The encoding itself and all its overflowing encodings, at every depth. *)
Inductive part (e : encoding) : encoding -> Prop :=
| part_self : part e e
| part_over o x : In o (en_overflowing e) -> part o x -> part e x.

(** ** What encode computes before truncation, template and padding *)
(** The encoding of the text alone. *)
Definition text_encoding (E : env) (t : tokenizer) (s : wstr) : res encoding :=
  '(_, p) <- prepare E t s ;;
  p' <- match tz_model t with Some m => snd (model_tokenize E m p) | None => Ok p end ;;
  into_encoding p' 0.

(** the special tokens declared by a post-processor *)
Fixpoint declared (p : post_processor) : list special_token :=
  match p with
  | PTemplate _ specials => specials
  | PByteLevel _ _ => []
  | PSequence l => (fix go (l : list post_processor) : list special_token := match l with [] => [] | q :: r => declared q ++ go r end) l
  end.
(** no component of the post-processor trims offsets *)
Fixpoint no_trim (p : post_processor) : Prop :=
  match p with
  | PTemplate _ _ => True
  | PByteLevel _ trim => trim = false
  | PSequence l => (fix go (l : list post_processor) : Prop := match l with [] => True | q :: r => no_trim q /\ go r end) l
  end.

(** A position of the result that comes from the text [core]: same id, token and word, special mask 0, attention 1. *)
Definition text_row (core : encoding) (r : row) : Prop :=
  r_smask r = 0%Z /\ r_amask r = 1%Z /\ exists r0, In r0 (rows core) /\ r_id r = r_id r0 /\ r_token r = r_token r0 /\ r_word r = r_word r0.
(** ... additionally with the same offsets *)
Definition text_row_at (core : encoding) (r : row) : Prop :=
  r_smask r = 0%Z /\ r_amask r = 1%Z /\
  exists r0, In r0 (rows core) /\ r_id r = r_id r0 /\ r_token r = r_token r0 /\ r_word r = r_word r0 /\ r_off r = r_off r0.
(** A position holding one of the tokens of a declared special token: no word, offsets (0,0), special mask 1, attention 1. *)
Definition special_row (specials : list special_token) (r : row) : Prop :=
  r_smask r = 1%Z /\ r_amask r = 1%Z /\ r_word r = None /\ r_off r = (0, 0) /\
  exists st j, In st specials /\ nth_error (st_ids st) j = Some (r_id r) /\ nth_error (st_tokens st) j = Some (r_token r).
(** A position added by padding: special mask 1, attention 0. *)
Definition pad_row (p : padding) (r : row) : Prop :=
  r = mkRow (p_id p) (p_type_id p) (p_token p) (Some 0) (0, 0) 1 0.

(** The post-processor of a tokenizer, if any, declares its special tokens with as many ids as tokens. *)
Definition tz_specials (t : tokenizer) : list special_token := match tz_post t with Some p => declared p | None => [] end.

(** The pieces of the text with their tokens, in order. *)
Definition text_pieces (E : env) (t : tokenizer) (s : wstr) : res (list split) :=
  '(_, p) <- prepare E t s ;;
  p' <- match tz_model t with Some m => snd (model_tokenize E m p) | None => Ok p end ;;
  Ok (pt_splits p').
(** number of tokens of a list of pieces *)
Definition token_count (l : list split) : nat := list_sum (map (fun s => length (sp_tokens s)) l).

(** the same tokenizer with another normalizer *)
Definition set_norm (t : tokenizer) (n : option normalizer) : tokenizer :=
  mkTz (tz_trunc t) (tz_pad t) (tz_av t) n (tz_pre t) (tz_model t) (tz_dec t) (tz_post t).
(** no component adds a prefix space *)
Fixpoint no_prefix_space (t : pre_tokenizer) : Prop :=
  match t with
  | TByteLevel aps _ => aps = false
  | TSequence l => (fix go (l : list pre_tokenizer) : Prop := match l with [] => True | q :: r => no_prefix_space q /\ go r end) l
  | _ => True
  end.
