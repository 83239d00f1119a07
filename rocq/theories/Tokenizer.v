(** src/tokenizer.cpp, include/tokenizers/tokenizer.h *)
From Verif Require Import Base Unicode Common Utils PostProcessor Decoder Normalizer PreTokenizer WordPiece Bpe
  AddedVocab.

(** tokenizer.h: std::unique_ptr<Model> model; the BPE cache is a mutable member of the model *)
(** tokenizer.h:39; model.h:27-117, the subclasses of Model *)
Inductive model := MWordPiece (w : wordpiece) | MBpe (b : bpe) (c : cache).

(** model.h:29 Model::vocab *)
Definition model_vocab (m : model) : smap Z :=
  match m with MWordPiece w => wp_vocab w | MBpe b _ => b_vocab b end.

(** model.cpp:143 / 438, virtual dispatch of tokenize; returns the model with its updated cache *)
Definition model_tokenize (E : env) (m : model) (p : pretok) : model * res pretok :=
  match m with
  | MWordPiece w => (m, wp_tokenize w p)
  | MBpe b c => let '(c', r) := bpe_tokenize E b c p in (MBpe b c', r)
  end.

(** tokenizer.h class Tokenizer; None = null unique_ptr *)
(** tokenizer.h:20-45 class Tokenizer (the version string is never set or read) *)
Record tokenizer := mkTz {
  tz_trunc : option truncation; tz_pad : option padding; tz_av : option added_vocab;
  tz_norm : option normalizer; tz_pre : option pre_tokenizer; tz_model : option model;
  tz_dec : option decoder; tz_post : option post_processor }.

(** tokenizer.cpp:96-99, 126-133: the added vocabulary after a call that changes it *)
Definition set_av (t : tokenizer) (a : option added_vocab) : tokenizer :=
  mkTz (tz_trunc t) (tz_pad t) a (tz_norm t) (tz_pre t) (tz_model t) (tz_dec t) (tz_post t).
(** tokenizer.cpp:167-169: the model after a call that extends its cache *)
Definition set_model (t : tokenizer) (m : option model) : tokenizer :=
  mkTz (tz_trunc t) (tz_pad t) (tz_av t) (tz_norm t) (tz_pre t) m (tz_dec t) (tz_post t).
(** added_vocabulary.cpp:209: added_tokens_map_r after operator[] *)
Definition set_map_r (a : added_vocab) (m : zmap added_token) : added_vocab :=
  mkAv (av_added a) (av_specials a) (av_special_set a) (av_map a) m (av_trie_norm a) (av_trie_raw a).

(** tokenizer.cpp:149-159: the columns contributed by one split whose base position is [base] *)
Definition split_rows (base word : nat) (type_id : Z) (ts : list token) : encoding :=
  mkEnc (map tk_id ts) (map (fun _ => type_id) ts) (map tk_value ts) (map (fun _ => Some word) ts)
        (map (fun t => (base + fst (tk_off t), base + snd (tk_off t))) ts)
        (map (fun _ => 0%Z) ts) (map (fun _ => 1%Z) ts) [].

(** tokenizer.cpp:140-148: the original position of a split's first character *)
Definition split_base (ns : nstring) (s : split) : res nat :=
  r <- vat (ns_ranges ns) (fst (sp_off s)) ;;
  o <- vat (ns_offsets ns) (fst r) ;;
  Ok (fst o).

(** tokenizer.cpp:138-160, from split number [idx]; word_idx is std::nullopt at its only call (103) *)
Fixpoint into_rows (ns : nstring) (type_id : Z) (idx : nat) (l : list split) : res encoding :=
  match l with
  | [] => Ok empty_enc
  | s :: r =>
    base <- split_base ns s ;;
    rest <- into_rows ns type_id (S idx) r ;;
    Ok (append_enc (split_rows base idx type_id (sp_tokens s)) rest)
  end.

(** tokenizer.cpp:135-162 into_encoding *)
Definition into_encoding (p : pretok) (type_id : Z) : res encoding := into_rows (pt_norm p) type_id 0 (pt_splits p).

(** tokenizer.cpp:173-185 do_post_process; [fuel] bounds the truncation loops *)
Definition do_post_process (fuel : nat) (t : tokenizer) (e : encoding) (add_special : bool) : res encoding :=
  e1 <- match tz_trunc t with Some tr => truncate_encoding fuel tr e | None => Ok e end ;;
  e2 <- match tz_post t with Some pp => process pp e1 add_special | None => Ok e1 end ;;
  match tz_pad t with Some pd => pad_encoding pd e2 | None => Ok e2 end.

(** tokenizer.cpp:94-102: everything before the model, with the updated added_tokens_map_r *)
Definition prepare (E : env) (t : tokenizer) (s : wstr) : res (option added_vocab * pretok) :=
  p0 <- new_pretok (new_nstring s) ;;
  '(av, p1) <- match tz_av t with
               | None => Ok (None, p0)
               | Some a => '(m, p) <- extract_and_normalize E a (tz_norm t) s ;; Ok (Some (set_map_r a m), p)
               end ;;
  p2 <- match tz_pre t with Some pt => pre_tokenize E pt p1 | None => Ok p1 end ;;
  Ok (av, p2).

(** tokenizer.cpp:94-102: the added vocabulary after preparation, whatever its outcome *)
Definition prepare_av (E : env) (t : tokenizer) (s : wstr) : option added_vocab :=
  match tz_av t with
  | None => None
  | Some a => Some (set_map_r a (extract_map E a (tz_norm t) s))
  end.

(** tokenizer.cpp:92-105 Tokenizer::encode (do_tokenize is 164-171). Returns the tokenizer after the call. *)
Definition encode (E : env) (fuel : nat) (t : tokenizer) (s : wstr) (add_special : bool)
  : tokenizer * res encoding :=
  match prepare E t s with
  | Ok (av, p) =>
    let t1 := set_av t av in
    let '(t2, r) := match tz_model t1 with
                    | Some m => let '(m', r) := model_tokenize E m p in (set_model t1 (Some m'), r)
                    | None => (t1, Ok p)
                    end in
    (t2, p' <- r ;; e <- into_encoding p' 0 ;; do_post_process fuel t2 e add_special)
  | Throw e => (set_av t (prepare_av E t s), Throw e)
  | Undef u => (set_av t (prepare_av E t s), Undef u)
  | Diverge => (set_av t (prepare_av E t s), Diverge)
  end.

(** tokenizer.cpp:110-121: the loop over ids; null added_vocabulary or model pointers are dereferenced *)
Fixpoint decode_ids (t : tokenizer) (skip : bool) (ids : list Z) : res (list bytes) :=
  match ids with
  | [] => Ok []
  | i :: r =>
    match tz_av t with
    | None => Undef NullDeref
    | Some av =>
      tok <- match av_id_to_token av i with
             | Some s => Ok s
             | None => match tz_model t with
                       | None => Undef NullDeref
                       | Some m => match model_id_to_token (model_vocab m) i with
                                   | Some s => Ok s
                                   | None => Throw BadOptionalAccess
                                   end
                       end
             end ;;
      rest <- decode_ids t skip r ;;
      Ok (if negb skip || negb (is_special_token av tok) then tok :: rest else rest)
    end
  end.

(** tokenizer.cpp:107-124 Tokenizer::decode *)
Definition decode (t : tokenizer) (ids : list Z) (skip : bool) : res bytes :=
  tokens <- decode_ids t skip ids ;;
  match tz_dec t with
  | None => Undef NullDeref
  | Some d => out <- decode_chain d tokens ;; Ok (concat out)
  end.

(** tokenizer.cpp:126-128 add_tokens, 130-133 add_special_tokens (the same call) *)
Definition add_tokens (alias : bool) (t : tokenizer) (l : list added_token) : res (tokenizer * Z) :=
  match tz_av t with
  | None => Undef NullDeref
  | Some av =>
    '(av', n) <- av_add_tokens alias av (option_map model_vocab (tz_model t)) l ;;
    Ok (set_av t (Some av'), n)
  end.
(** tokenizer.cpp:130-133; added_vocabulary.cpp:243-246: the same call *)
Definition add_special_tokens := add_tokens.

(** tokenizer.cpp:87-89: the end of the constructor, after the configuration was read *)
Definition finish_construction (t : tokenizer) : res tokenizer :=
  match tz_av t with
  | None => Ok t
  | Some av => '(t', _) <- add_tokens true t (av_added av) ;; Ok t'
  end.
