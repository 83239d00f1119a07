(** Renumbering a vocabulary: the same configuration with other ids (C143). *)
From Verif Require Import Base Common Utils PostProcessor Normalizer PreTokenizer WordPiece Bpe AddedVocab Tokenizer ConfigSpec HistSpec.
Import ListNotations.

(** ** The renumbering [f] in everything that holds ids *)
Definition ren_vocab (f : Z -> Z) (v : smap Z) : smap Z := map (fun p => (fst p, f (snd p))) v.
Definition ren_special (f : Z -> Z) (s : special_token) : special_token := mkSpecial (st_id s) (map f (st_ids s)) (st_tokens s).
Fixpoint ren_post (f : Z -> Z) (p : post_processor) : post_processor :=
  match p with
  | PTemplate single specials => PTemplate single (map (ren_special f) specials)
  | PByteLevel a t => PByteLevel a t
  | PSequence l => PSequence (map (ren_post f) l)
  end.
Definition ren_pad (f : Z -> Z) (p : padding) : padding := mkPad (p_dir p) (p_strat p) (p_fixed p) (f (p_id p)) (p_type_id p) (p_token p) (p_multiple p).
Definition ren_wordpiece (f : Z -> Z) (w : wordpiece) : wordpiece := mkWp (ren_vocab f (wp_vocab w)) (wp_unk w) (wp_max w) (wp_prefix w).
Definition ren_model (f : Z -> Z) (m : model_config) : model_config :=
  match m with
  | CWordPiece w => CWordPiece (ren_wordpiece f w)
  | CBpe v ms d u p s fu bf ig => CBpe (ren_vocab f v) ms d u p s fu bf ig
  end.
(** The configuration [c] renumbered. Merges are written as texts. The id declared by an added token stays: it is not read. *)
Definition ren_config (f : Z -> Z) (c : config) : config :=
  mkConfig (cf_trunc c) (option_map (ren_pad f) (cf_pad c)) (cf_added c) (cf_norm c) (cf_pre c) (option_map (ren_model f) (cf_model c)) (cf_dec c) (option_map (ren_post f) (cf_post c)).
(** the vocabulary of a configuration *)
Definition vocab_of (m : model_config) : smap Z := match m with CWordPiece w => wp_vocab w | CBpe v _ _ _ _ _ _ _ _ => v end.
(** the same call, ids renumbered *)
Definition ren_call (f : Z -> Z) (k : call) : call := match k with CallDecode ids b => CallDecode (map f ids) b | k => k end.

(** ** The same answer up to the renumbering *)
(** The same columns, only the ids are renumbered; likewise in the overflowing encodings. *)
Inductive ren_encoding (f : Z -> Z) : encoding -> encoding -> Prop :=
| ren_enc e e' : en_ids e' = map f (en_ids e) -> en_type_ids e' = en_type_ids e -> en_tokens e' = en_tokens e -> en_words e' = en_words e -> en_offsets e' = en_offsets e ->
    en_smask e' = en_smask e -> en_amask e' = en_amask e -> Forall2 (ren_encoding f) (en_overflowing e) (en_overflowing e') -> ren_encoding f e e'.
(** Both succeed with related results, or both fail in the same way. *)
Definition same_end {A B} (R : A -> B -> Prop) (a : res A) (b : res B) : Prop :=
  match a, b with
  | Ok x, Ok y => R x y
  | Throw e, Throw e' => e = e'
  | Undef u, Undef u' => u = u'
  | Diverge, Diverge => True
  | _, _ => False
  end.
Definition ren_answer (f : Z -> Z) (a a' : answer) : Prop :=
  match a, a' with
  | AnsEncoding r, AnsEncoding r' => same_end (ren_encoding f) r r'
  | AnsText r, AnsText r' => same_end eq r r'
  | AnsCount r, AnsCount r' => same_end eq r r'
  | _, _ => False
  end.
(** An exchange of the ids 0, ..., n - 1 among themselves: no two ids get the same number, and all others stay. *)
Definition exchange (f : Z -> Z) (n : Z) : Prop := (forall i j, f i = f j -> i = j) /\ (forall i, (i < 0 \/ n <= i)%Z -> f i = i).
(** The priority queue does not look at the ids made by the merges it holds: std::priority_queue compares ranks only. *)
Definition ren_merge (f : Z -> Z) (m : merge) : merge := mkMerge (mg_pos m) (mg_rank m) (f (mg_new m)).
Definition blind (E : env) : Prop := forall f q, e_pq E (map (ren_merge f) q) = option_map (fun p => (ren_merge f (fst p), map (ren_merge f) (snd p))) (e_pq E q).
(** What a model asks for: WordPiece reads the id 0 for an unknown token that is not in the vocabulary; BPE uses the queue. *)
Definition can_follow (E : env) (f : Z -> Z) (m : model_config) : Prop :=
  match m with
  | CWordPiece w => sfind (wp_unk w) (wp_vocab w) <> None \/ f 0%Z = 0%Z
  | CBpe _ _ _ _ _ _ _ _ _ => blind E
  end.
