(** src/added_vocabulary.cpp, include/tokenizers/added_vocabulary.h *)
From Verif Require Import Base Unicode Common Normalizer PreTokenizer WordPiece.

(** added_vocabulary.h class AddedToken; added_vocabulary.cpp:21-38 *)
Record added_token := mkAt {
  at_id : Z; at_content : bytes; at_single_word : bool; at_lstrip : bool; at_rstrip : bool;
  at_normalized : bool; at_special : bool }.
(** added_vocabulary.cpp:21-28 AddedToken::AddedToken() *)
Definition default_added_token : added_token := mkAt 0 [] false false false true false.

(** added_vocabulary.h class AddedVocabulary. The two tries are (contents, ids) pairs of vectors; kept here as lists
    of pairs. encode_special_tokens is always false (40-41) and there is no setter: omitted. *)
Record added_vocab := mkAv {
  av_added : list added_token;                 (* added_tokens *)
  av_specials : list added_token;              (* special_tokens *)
  av_special_set : list bytes;                 (* special_tokens_set *)
  av_map : smap Z;                             (* added_tokens_map *)
  av_map_r : zmap added_token;                 (* added_tokens_map_r *)
  av_trie_norm : list (bytes * Z);             (* split_normalized_trie *)
  av_trie_raw : list (bytes * Z)               (* split_non_normalized_trie *)
}.

(** added_vocabulary.cpp:40-41 *)
Definition new_added_vocab (l : list added_token) : added_vocab := mkAv l [] [] [] [] [] [].

(** added_vocabulary.cpp:43-45, 47-53 *)
Definition is_special_token (av : added_vocab) (t : bytes) : bool := smem t (av_special_set av).
(** added_vocabulary.cpp:47-53 id_to_token *)
Definition av_id_to_token (av : added_vocab) (i : Z) : option bytes :=
  option_map at_content (zfind i (av_map_r av)).

(** added_vocabulary.cpp:57-63: first pass, registering new special tokens *)
Definition register_special (av : added_vocab) (t : added_token) : added_vocab :=
  if at_special t && negb (is_nil (at_content t)) && negb (smem (at_content t) (av_special_set av)) then
    mkAv (av_added av) (av_specials av ++ [t]) (av_special_set av ++ [at_content t]) (av_map av) (av_map_r av)
         (av_trie_norm av) (av_trie_raw av)
  else av.

(** added_vocabulary.cpp:79-84: largest value of added_tokens_map; None = end() *)
Fixpoint max_value (m : smap Z) : option Z :=
  match m with
  | [] => None
  | (_, v) :: r => Some (match max_value r with Some w => Z.max v w | None => v end)
  end.

(** added_vocabulary.cpp:72-92: the id of a token. [vocab = None] stands for a null model pointer. Comparison of
    max->second (int) with get_vocab_size() (int). *)
Definition choose_id (av : added_vocab) (vocab : option (smap Z)) (content : bytes) : res Z :=
  match sfind content (av_map av) with
  | Some i => Ok i
  | None =>
    match vocab with
    | None => Undef NullDeref
    | Some v =>
      match token_to_id v content with
      | Some i => Ok i
      | None =>
        match max_value (av_map av) with
        | None => if (vocab_size v =? 0)%Z then Undef DerefEnd else Ok (vocab_size v)
        | Some mx => if (vocab_size v =? 0)%Z || (vocab_size v <=? mx)%Z then Ok (mx + 1)%Z else Ok (vocab_size v)
        end
      end
    end
  end.

(** added_vocabulary.cpp:66-99: second pass. With [alias] the argument is the object's own added_tokens vector
    (tokenizer.cpp:88): push_back then invalidates the iterators of the running range-for. *)
Fixpoint assign_ids (alias : bool) (av : added_vocab) (vocab : option (smap Z)) (l : list added_token)
  : res added_vocab :=
  match l with
  | [] => Ok av
  | t :: r =>
    if is_nil (at_content t) then assign_ids alias av vocab r
    else
      i <- choose_id av vocab (at_content t) ;;
      let map' := sset (at_content t) i (av_map av) in
      let map_r' := zset i t (av_map_r av) in
      if smem (at_content t) (av_special_set av) then
        assign_ids alias
          (mkAv (av_added av) (av_specials av) (av_special_set av) map' map_r' (av_trie_norm av) (av_trie_raw av))
          vocab r
      else if alias then Undef IterInvalidated
      else
        assign_ids alias
          (mkAv (av_added av ++ [t]) (av_specials av) (av_special_set av) map' map_r' (av_trie_norm av) (av_trie_raw av))
          vocab r
  end.

(** added_vocabulary.cpp:109-118, 119-128: tokens known to the model, with the model's id *)
Fixpoint known_tokens (vocab : smap Z) (normalized : bool) (l : list added_token) : list (bytes * Z) :=
  match l with
  | [] => []
  | t :: r =>
    match token_to_id vocab (at_content t) with
    | Some i => if Bool.eqb (at_normalized t) normalized then (at_content t, i) :: known_tokens vocab normalized r
                else known_tokens vocab normalized r
    | None => known_tokens vocab normalized r
    end
  end.

(** added_vocabulary.cpp:106-145 refresh_added_tokens *)
Definition refresh_added_tokens (av : added_vocab) (vocab : option (smap Z)) : res added_vocab :=
  let all := av_specials av ++ av_added av in
  match vocab, all with
  | None, _ :: _ => Undef NullDeref
  | None, [] => Ok (mkAv (av_added av) (av_specials av) (av_special_set av) (av_map av) (av_map_r av) [] [])
  | Some v, _ =>
    Ok (mkAv (av_added av) (av_specials av) (av_special_set av) (av_map av) (av_map_r av)
             (known_tokens v true all) (known_tokens v false all))
  end.

(** added_vocabulary.cpp:55-104 add_tokens: new state and the returned count *)
Definition av_add_tokens (alias : bool) (av : added_vocab) (vocab : option (smap Z)) (l : list added_token)
  : res (added_vocab * Z) :=
  let av1 := fold_left register_special l av in
  av2 <- assign_ids alias av1 vocab l ;;
  av3 <- refresh_added_tokens av2 vocab ;;
  Ok (av3, (Z.of_nat (length l) - Z.of_nat (length (filter (fun t => is_nil (at_content t)) l)))%Z).

(** added_vocabulary.cpp:147-149, 151-153: \w is [A-Za-z0-9_] in the "C" locale *)
Definition is_word_byte (b : N) : bool :=
  ((48 <=? b) && (b <=? 57) || (65 <=? b) && (b <=? 90) || (97 <=? b) && (b <=? 122) || (b =? 95))%N.
(** added_vocabulary.cpp:147-149 *)
Definition ends_with_word (s : bytes) : bool := match rev s with x :: _ => is_word_byte x | [] => false end.
(** added_vocabulary.cpp:151-153 *)
Definition starts_with_word (s : bytes) : bool := match s with x :: _ => is_word_byte x | [] => false end.

(** added_vocabulary.cpp:155-162, 164-171 *)
Definition space_leftmost_at_end (s : bytes) : nat := length (drop_while is_space_byte (rev s)).
(** added_vocabulary.cpp:164-171 *)
Definition space_rightmost_at_start (s : bytes) : nat := length s - length (drop_while is_space_byte s).

(** added_vocabulary.cpp:179-182 word_ids: later entries overwrite *)
Definition word_ids (trie : list (bytes * Z)) : smap Z := fold_left (fun m p => sset (fst p) (snd p) m) trie [].

(** added_vocabulary.cpp:184-203: raw matches (start, stop, id) *)
Fixpoint raw_matches (ids : smap Z) (u : ustr) (todo i cur : nat) : list (nat * nat * Z) :=
  match todo with
  | O =>
    if i =? cur then []
    else match sfind (to_utf8 (usub u cur (i - cur))) ids with
         | Some k => [(cur, i, k)]
         | None => []
         end
  | S n =>
    let hit := sfind (to_utf8 (usub u cur (i - cur))) ids in
    let cur1 := match hit with Some _ => i | None => cur end in
    let cur2 := if (nth i u 0 =? 32)%N then S i else cur1 in
    let rest := raw_matches ids u n (S i) cur2 in
    match hit with Some k => (cur, i, k) :: rest | None => rest end
  end.

(** std::string::substr(pos) / substr(pos, count); count from a negative int difference is huge *)
(** sentence.substr(pos), added_vocabulary.cpp:206-235 *)
Definition substr_from (s : list N) (pos : nat) : res (list N) :=
  if pos <=? length s then Ok (skipn pos s) else Throw OutOfRange.
(** sentence.substr(pos, count) (added_vocabulary.cpp:206-235) and wstring::substr (258-273, 287-312) *)
Definition substr_range (s : list N) (a b : nat) : res (list N) :=
  if a <=? length s then Ok (if b <? a then skipn a s else firstn (b - a) (skipn a s)) else Throw OutOfRange.

(** added_vocabulary.cpp:206-235: strip / single-word handling and gaps. [sentence] is the UTF-8 text although the
    positions count UTF-16 units. added_tokens_map_r[id] default-inserts a missing id: the map is threaded. The final
    gap is 236-239. *)
Fixpoint resolve_matches (sentence : bytes) (total : nat) (start_offset : nat) (map_r : zmap added_token)
         (l : list (nat * nat * Z)) : res (zmap added_token * list (option Z * (nat * nat))) :=
  match l with
  | [] => Ok (map_r, if start_offset =? total then [] else [(None, (start_offset, total))])
  | (start, stop, id) :: r =>
    let '(tok, map_r') := match zfind id map_r with
                          | Some t => (t, map_r)
                          | None => (default_added_token, map_r ++ [(id, default_added_token)])
                          end in
    keep <- (if at_single_word tok then
               b1 <- (if start =? 0 then Ok true
                      else p <- substr_range sentence 0 start ;; Ok (negb (ends_with_word p))) ;;
               b2 <- (if stop =? length sentence then Ok true
                      else p <- substr_from sentence stop ;; Ok (negb (starts_with_word p))) ;;
               Ok (b1 && b2)
             else Ok true) ;;
    if negb keep then resolve_matches sentence total start_offset map_r' r
    else
      start' <- (if at_lstrip tok then
                   p <- substr_range sentence 0 start ;;
                   Ok (Nat.max (space_leftmost_at_end p) start_offset)
                 else Ok start) ;;
      stop' <- (if at_rstrip tok then
                  p <- substr_from sentence stop ;; Ok (stop + space_rightmost_at_start p)
                else Ok stop) ;;
      '(m, rest) <- resolve_matches sentence total stop' map_r' r ;;
      Ok (m, (if start_offset <? start' then [(None, (start_offset, start'))] else []) ++
             (Some id, (start', stop')) :: rest)
  end.

(** added_vocabulary.cpp:173-241 find_matches *)
Definition av_find_matches (map_r : zmap added_token) (sentence : bytes) (trie : list (bytes * Z))
  : res (zmap added_token * list (option Z * (nat * nat))) :=
  let u := from_utf8 sentence in
  resolve_matches sentence (length u) 0 map_r (raw_matches (word_ids trie) u (length u) 0 0).

(** added_vocabulary.cpp:256-268: splits of the non-normalized pass; positions index the wide string *)
Fixpoint raw_splits (text : wstr) (l : list (option Z * (nat * nat))) : res (list split) :=
  match l with
  | [] => Ok []
  | (o, (a, b)) :: r =>
    w <- substr_range text a b ;;
    value <- convert_to_string w ;;
    rest <- raw_splits text r ;;
    Ok (mkSplit value (a, b) (match o with Some i => [mkTok i value (0, length value)] | None => [] end) :: rest)
  end.

(** added_vocabulary.cpp:296-312: splits of one normalized piece, shifted by [base] *)
Fixpoint norm_splits (text : wstr) (base : nat) (l : list (option Z * (nat * nat))) : res (list split) :=
  match l with
  | [] => Ok []
  | (o, (a, b)) :: r =>
    w <- substr_range text a b ;;
    value <- convert_to_string w ;;
    rest <- norm_splits text base r ;;
    Ok (mkSplit value (a + base, b + base)
                (match o with Some i => [mkTok i value (0, length value)] | None => [] end) :: rest)
  end.

(** added_vocabulary.cpp:275-315: the loop over the splits of the first pass *)
Fixpoint normalize_splits (E : env) (norm : option normalizer) (trie : list (bytes * Z)) (ns : nstring)
         (map_r : zmap added_token) (ending : nat) (l : list split)
  : res (nstring * zmap added_token * list split) :=
  match l with
  | [] => Ok (ns, map_r, [])
  | s :: r =>
    match sp_tokens s with
    | _ :: _ =>
      let n := length (sp_text s) in
      '(ns', m', rest) <- normalize_splits E norm trie ns map_r (ending + n) r ;;
      Ok (ns', m', mkSplit (sp_text s) (ending, ending + n) (sp_tokens s) :: rest)
    | [] =>
      w <- convert_from_string (sp_text s) ;;
      let ns0 := new_nstring w in
      sub <- match norm with Some f => normalize E f ns0 | None => Ok ns0 end ;;
      ns' <- transform_range ns (ending, ending + snd (sp_off s) - fst (sp_off s)) sub ;;
      sentence <- convert_to_string (ns_text sub) ;;
      '(m', ms) <- av_find_matches map_r sentence trie ;;
      here <- norm_splits (ns_text sub) ending ms ;;
      '(ns'', m'', rest) <- normalize_splits E norm trie ns' m' (ending + length (ns_text sub)) r ;;
      Ok (ns'', m'', here ++ rest)
    end
  end.

(** added_vocabulary.cpp:248-321 extract_and_normalize; the text stored in the result's NormalizedString stays the
    original one. Returns the new added_tokens_map_r; [extract_map] below is the map when the function throws. *)
Definition extract_and_normalize (E : env) (av : added_vocab) (norm : option normalizer) (seq : wstr)
  : res (zmap added_token * pretok) :=
  p <- new_pretok (new_nstring seq) ;;
  sentence <- convert_to_string (ns_text (pt_norm p)) ;;
  '(m1, ms) <- av_find_matches (av_map_r av) sentence (av_trie_raw av) ;;
  raw <- raw_splits (ns_text (pt_norm p)) ms ;;
  let splits1 := match raw with [] => pt_splits p | _ => raw end in
  '(ns, m2, splits2) <- normalize_splits E norm (av_trie_norm av) (pt_norm p) m1 0 splits1 ;;
  Ok (m2, mkPt ns (match splits2 with [] => splits1 | _ => splits2 end)).

(** ** added_tokens_map_r after a call, whatever its outcome: operator[] (added_vocabulary.cpp:209) has default-inserted the ids looked up
    before an exception too. On success these are the maps returned above (AvProofs.v). *)

(** added_vocabulary.cpp:206-235 *)
Fixpoint resolve_map (sentence : bytes) (map_r : zmap added_token) (l : list (nat * nat * Z)) : zmap added_token :=
  match l with
  | [] => map_r
  | (start, stop, id) :: r =>
    let '(tok, map_r') := match zfind id map_r with
                          | Some t => (t, map_r)
                          | None => (default_added_token, map_r ++ [(id, default_added_token)])
                          end in
    match (keep <- (if at_single_word tok then
               b1 <- (if start =? 0 then Ok true
                      else p <- substr_range sentence 0 start ;; Ok (negb (ends_with_word p))) ;;
               b2 <- (if stop =? length sentence then Ok true
                      else p <- substr_from sentence stop ;; Ok (negb (starts_with_word p))) ;;
               Ok (b1 && b2)
             else Ok true) ;;
           if negb keep then Ok 0
           else
             a <- (if at_lstrip tok then p <- substr_range sentence 0 start ;; Ok 0 else Ok 0) ;;
             (if at_rstrip tok then p <- substr_from sentence stop ;; Ok 0 else Ok 0))
    with
    | Ok _ => resolve_map sentence map_r' r
    | _ => map_r'
    end
  end.

(** added_vocabulary.cpp:173-241 *)
Definition find_map (map_r : zmap added_token) (sentence : bytes) (trie : list (bytes * Z)) : zmap added_token :=
  let u := from_utf8 sentence in resolve_map sentence map_r (raw_matches (word_ids trie) u (length u) 0 0).

(** added_vocabulary.cpp:275-315 *)
Fixpoint normalize_map (E : env) (norm : option normalizer) (trie : list (bytes * Z)) (ns : nstring)
         (map_r : zmap added_token) (ending : nat) (l : list split) : zmap added_token :=
  match l with
  | [] => map_r
  | s :: r =>
    match sp_tokens s with
    | _ :: _ => normalize_map E norm trie ns map_r (ending + length (sp_text s)) r
    | [] =>
      match (w <- convert_from_string (sp_text s) ;;
             sub <- match norm with Some f => normalize E f (new_nstring w) | None => Ok (new_nstring w) end ;;
             ns' <- transform_range ns (ending, ending + snd (sp_off s) - fst (sp_off s)) sub ;;
             sentence <- convert_to_string (ns_text sub) ;;
             Ok (sub, ns', sentence))
      with
      | Ok (sub, ns', sentence) =>
        match ('(_, ms) <- av_find_matches map_r sentence trie ;; norm_splits (ns_text sub) ending ms) with
        | Ok _ => normalize_map E norm trie ns' (find_map map_r sentence trie) (ending + length (ns_text sub)) r
        | _ => find_map map_r sentence trie
        end
      | _ => map_r
      end
    end
  end.

(** added_vocabulary.cpp:248-321 *)
Definition extract_map (E : env) (av : added_vocab) (norm : option normalizer) (seq : wstr) : zmap added_token :=
  match (p <- new_pretok (new_nstring seq) ;; sentence <- convert_to_string (ns_text (pt_norm p)) ;; Ok (p, sentence)) with
  | Ok (p, sentence) =>
    let m1 := find_map (av_map_r av) sentence (av_trie_raw av) in
    match ('(_, ms) <- av_find_matches (av_map_r av) sentence (av_trie_raw av) ;; raw_splits (ns_text (pt_norm p)) ms) with
    | Ok raw => normalize_map E norm (av_trie_norm av) (pt_norm p) m1 0 (match raw with [] => pt_splits p | _ => raw end)
    | _ => m1
    end
  | _ => av_map_r av
  end.
