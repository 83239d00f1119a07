(** The int arithmetic of src/pre_tokenizer.cpp, of WordPiece in src/model.cpp and of into_encoding in src/tokenizer.cpp, and encode with the range checks of all parts (extraction and normalization:
    AddIntChecked.v; truncation and padding: IntChecked.v). A number of 2^31 or more, computed in an int or stored in one, is the outcome IntOverflow. The BPE model is taken without range checks. *)
From Verif Require Import Base Unicode Common Utils PostProcessor Decoder Normalizer PreTokenizer WordPiece Bpe AddedVocab Tokenizer IntChecked NormIntChecked AddIntChecked.

(** pre_tokenizer.cpp:167-171: match.first.first + original_split.offsets.first and the same for the end *)
Fixpoint cut_splits_ck (u : ustr) (base : nat) (l : list ((nat * nat) * bool)) : res (list split) :=
  match l with
  | [] => Ok []
  | ((a, z), _) :: r =>
    a' <- ckn (a + base) ;;
    z' <- ckn (z + base) ;;
    rest <- cut_splits_ck u base r ;;
    Ok (mkSplit (to_utf8 (usub_between u a z)) (a', z') [] :: rest)
  end.
(** pre_tokenizer.cpp:143-176 split_normalized; the length of an icu::UnicodeString is an int (125-127, 263) *)
Definition split_normalized_ck (s : split) (fn : ustr -> res (list ((nat * nat) * bool))) (b : behavior) : res (list split) :=
  let u := from_utf8 (sp_text s) in
  n <- ckn (length u) ;;
  ms <- fn u ;;
  let ms := match b with REMOVED => ms | ISOLATED => map (fun m => (fst m, false)) ms end in
  cut_splits_ck u (fst (sp_off s)) (filter (fun m => negb (snd m)) ms).
(** pre_tokenizer.cpp:184-194 *)
Fixpoint split_all_ck (fn : ustr -> res (list ((nat * nat) * bool))) (b : behavior) (l : list split) : res (list split) :=
  match l with
  | [] => Ok []
  | s :: r =>
    here <- (if is_nil (sp_tokens s) then split_normalized_ck s fn b else Ok [s]) ;;
    rest <- split_all_ck fn b r ;;
    Ok (here ++ rest)
  end.
(** pre_tokenizer.cpp:178-196 PreTokenizedString::split *)
Definition pt_split_ck (fn : ustr -> res (list ((nat * nat) * bool))) (b : behavior) (p : pretok) : res pretok :=
  l <- split_all_ck fn b (pt_splits p) ;; Ok (mkPt (pt_norm p) l).
(** pre_tokenizer.cpp:200-205 *)
Definition bert_pre_tokenize_ck (E : env) (p : pretok) : res pretok :=
  p1 <- pt_split_ck (find_matches E pat_space) REMOVED p ;;
  pt_split_ck (find_matches E pat_punct) ISOLATED p1.
(** pre_tokenizer.cpp:44-47: the length of the text as an int *)
Definition new_pretok_ck (ns : nstring) : res pretok :=
  p <- new_pretok ns ;; n <- ckn (length (ns_text ns)) ;; Ok p.
(** pre_tokenizer.cpp:250-256 *)
Definition add_prefix_ck (E : env) (p : pretok) : res pretok :=
  match ns_text (pt_norm p) with
  | [] => Throw OutOfRange
  | c :: _ =>
    if e_iswspace E c then Ok p
    else
      ns <- transform_ck (set_text (pt_norm p) (32%N :: ns_text (pt_norm p))) 0 (OpAdd 1) ;;
      new_pretok_ck ns
  end.
(** pre_tokenizer.cpp:248-273 *)
Definition byte_level_pre_tokenize_ck (E : env) (add_prefix_space use_regex : bool) (p : pretok) : res pretok :=
  p0 <- (if add_prefix_space then add_prefix_ck E p else Ok p) ;;
  p1 <- pt_split_ck (fun u => if use_regex then find_matches E byte_level_pattern u else Ok [((0, length u), false)]) ISOLATED p0 ;;
  l <- mapM (fun s => t <- byte_level_text E (sp_text s) ;; Ok (mkSplit t (sp_off s) (sp_tokens s))) (pt_splits p1) ;;
  Ok (mkPt (pt_norm p1) l).
(** pre_tokenizer.cpp:200-273, virtual dispatch *)
Fixpoint pre_tokenize_ck (E : env) (t : pre_tokenizer) (p : pretok) {struct t} : res pretok :=
  match t with
  | TBert => bert_pre_tokenize_ck E p
  | TSplit pat b _ => pt_split_ck (find_matches E pat) b p
  | TByteLevel aps rx => byte_level_pre_tokenize_ck E aps rx p
  | TSequence l =>
    (fix go (l : list pre_tokenizer) (p : pretok) : res pretok :=
       match l with
       | [] => Ok p
       | q :: r => p' <- pre_tokenize_ck E q p ;; go r p'
       end) l p
  end.

(** model.cpp:143-199: int char_len (147); start and end stay between 0 and that length *)
Definition wp_word_ck (w : wordpiece) (t : bytes) : res (list token) :=
  n <- ckn (length (from_utf8 t)) ;; wp_word w t.
(** model.cpp:143-199 *)
Definition wp_tokenize_ck (w : wordpiece) (p : pretok) : res pretok :=
  l <- mapM (fun s => ts <- wp_word_ck w (sp_text s) ;; Ok (mkSplit (sp_text s) (sp_off s) ts)) (pt_splits p) ;;
  Ok (mkPt (pt_norm p) l).
(** model.cpp:143 / 438; BPE without range checks *)
Definition model_tokenize_ck (E : env) (m : model) (p : pretok) : model * res pretok :=
  match m with
  | MWordPiece w => (m, wp_tokenize_ck w p)
  | MBpe b c => model_tokenize E m p
  end.

(** tokenizer.cpp:149-152: transformed_split_offset.first + token.offsets.first, .second *)
Fixpoint row_offsets_ck (base : nat) (ts : list token) : res (list (nat * nat)) :=
  match ts with
  | [] => Ok []
  | t :: r =>
    a <- ckn (base + fst (tk_off t)) ;;
    z <- ckn (base + snd (tk_off t)) ;;
    rest <- row_offsets_ck base r ;;
    Ok ((a, z) :: rest)
  end.
(** tokenizer.cpp:138-160: also idx++ *)
Fixpoint into_rows_ck (ns : nstring) (type_id : Z) (idx : nat) (l : list split) : res encoding :=
  match l with
  | [] => Ok empty_enc
  | s :: r =>
    base <- split_base ns s ;;
    offs <- row_offsets_ck base (sp_tokens s) ;;
    idx' <- ckn (idx + 1) ;;
    rest <- into_rows_ck ns type_id idx' r ;;
    let ts := sp_tokens s in
    Ok (append_enc (mkEnc (map tk_id ts) (map (fun _ => type_id) ts) (map tk_value ts) (map (fun _ => Some idx) ts) offs
                          (map (fun _ => 0%Z) ts) (map (fun _ => 1%Z) ts) []) rest)
  end.

(** tokenizer.cpp:94-102 *)
Definition prepare_ck (E : env) (t : tokenizer) (s : wstr) : res (option added_vocab * pretok) :=
  ns0 <- new_nstring_ck s ;;
  p0 <- new_pretok_ck ns0 ;;
  '(av, p1) <- match tz_av t with
               | None => Ok (None, p0)
               | Some a => '(m, p) <- extract_ck E a (tz_norm t) s ;; Ok (Some (set_map_r a m), p)
               end ;;
  p2 <- match tz_pre t with Some pt => pre_tokenize_ck E pt p1 | None => Ok p1 end ;;
  Ok (av, p2).
(** tokenizer.cpp:92-105 *)
Definition encode_all_ck (E : env) (fuel : nat) (t : tokenizer) (s : wstr) (add_special : bool) : tokenizer * res encoding :=
  match prepare_ck E t s with
  | Ok (av, p) =>
    let t1 := set_av t av in
    let '(t2, r) := match tz_model t1 with
                    | Some m => let '(m', r) := model_tokenize_ck E m p in (set_model t1 (Some m'), r)
                    | None => (t1, Ok p)
                    end in
    (t2, p' <- r ;; e <- into_rows_ck (pt_norm p') 0 0 (pt_splits p') ;; do_post_process_ck fuel t2 e add_special)
  | Throw e => (set_av t (prepare_av E t s), Throw e)
  | Undef u => (set_av t (prepare_av E t s), Undef u)
  | Diverge => (set_av t (prepare_av E t s), Diverge)
  end.
