(** The int arithmetic of src/added_vocabulary.cpp:173-321 and of NormalizedString::transform_range with its range check, on top of NormIntChecked.v (same conventions: a number of 2^31 or more, computed in
    an int or stored in one, is the outcome IntOverflow). *)
From Verif Require Import Base Unicode Common Utils Normalizer PreTokenizer WordPiece Bpe AddedVocab NormIntChecked.

(** normalizer.cpp:180-194: offsets[i - 1].second + 1 *)
Fixpoint rebase_offsets_ck (prev cur : nat * nat) (l : list (nat * nat)) : res (list (nat * nat)) :=
  match l with
  | [] => Ok []
  | o :: r =>
    if (fst prev =? fst o) && (snd prev =? snd o) then rest <- rebase_offsets_ck prev cur r ;; Ok (cur :: rest)
    else
      e <- ckn (snd cur + 1) ;;
      rest <- rebase_offsets_ck o (snd cur, e) r ;;
      Ok ((snd cur, e) :: rest)
  end.
(** normalizer.cpp:152-202 NormalizedString::transform_range: first + second (166-168, 175) and j++ (172-178) *)
Definition transform_range_ck (ns : nstring) (range : nat * nat) (sub : nstring) : res nstring :=
  let '(a, b) := range in
  let ranges := ns_ranges ns in
  ra <- vat ranges a ;;
  let offsets_start := fst ra in
  rb <- (if b =? length ranges then (match b with O => Undef OobIndex | S b' => vat ranges b' end)
         else vat ranges b) ;;
  let offsets_end := fst rb in
  new1 <- match ns_ranges sub with [] => Ok [] | (_, n) :: r => rest <- refresh_ck (offsets_start, n) r ;; Ok ((offsets_start, n) :: rest) end ;;
  let tail := skipn b ranges in
  j <- ckn (length new1 + length tail) ;;
  new2 <- match new1, tail with
          | [], _ :: _ => Undef OobIndex
          | _, _ => refresh_ck (last new1 (0, 0)) tail
          end ;;
  new_offsets <- match ns_offsets sub with
                 | [] => Ok []
                 | o :: r => base <- vat (ns_offsets ns) offsets_start ;;
                             rest <- rebase_offsets_ck o base r ;;
                             Ok (base :: rest)
                 end ;;
  offsets1 <- verase (ns_offsets ns) offsets_start offsets_end ;;
  offsets2 <- vinsert offsets1 offsets_start new_offsets ;;
  Ok (mkNs (ns_text ns) (firstn a ranges ++ new1 ++ new2) offsets2).

(** added_vocabulary.cpp:184-203: i + 1 and i++ *)
Fixpoint raw_matches_ck (ids : smap Z) (u : ustr) (todo i cur : nat) : res (list (nat * nat * Z)) :=
  match todo with
  | O =>
    Ok (if i =? cur then []
        else match sfind (to_utf8 (usub u cur (i - cur))) ids with
             | Some k => [(cur, i, k)]
             | None => []
             end)
  | S n =>
    let hit := sfind (to_utf8 (usub u cur (i - cur))) ids in
    let cur1 := match hit with Some _ => i | None => cur end in
    cur2 <- (if (nth i u 0 =? 32)%N then ckn (i + 1) else Ok cur1) ;;
    i' <- ckn (i + 1) ;;
    rest <- raw_matches_ck ids u n i' cur2 ;;
    Ok (match hit with Some k => (cur, i, k) :: rest | None => rest end)
  end.
(** added_vocabulary.cpp:206-239: int new_start (222) and stop += (226) *)
Fixpoint resolve_matches_ck (sentence : bytes) (total : nat) (start_offset : nat) (map_r : zmap added_token)
         (l : list (nat * nat * Z)) : res (zmap added_token * list (option Z * (nat * nat))) :=
  match l with
  | [] => Ok (map_r, if start_offset =? total then [] else [(None, (start_offset, total))])
  | (start, stop, id) :: r =>
    let '(tok, map_r') := match zfind id map_r with
                          | Some t => (t, map_r)
                          | None => (default_added_token, map_r ++ [(id, default_added_token)])
                          end in
    keep <- (if at_single_word tok then
               b1 <- (if start =? 0 then Ok true
                      else p <- substr_range sentence 0 start ;; Ok (negb (ends_with_word p))) ;;
               b2 <- (if stop =? length sentence then Ok true
                      else p <- substr_from sentence stop ;; Ok (negb (starts_with_word p))) ;;
               Ok (b1 && b2)
             else Ok true) ;;
    if negb keep then resolve_matches_ck sentence total start_offset map_r' r
    else
      start' <- (if at_lstrip tok then
                   p <- substr_range sentence 0 start ;;
                   new_start <- ckn (space_leftmost_at_end p) ;;
                   Ok (Nat.max new_start start_offset)
                 else Ok start) ;;
      stop' <- (if at_rstrip tok then
                  p <- substr_from sentence stop ;; ckn (stop + space_rightmost_at_start p)
                else Ok stop) ;;
      '(m, rest) <- resolve_matches_ck sentence total stop' map_r' r ;;
      Ok (m, (if start_offset <? start' then [(None, (start_offset, start'))] else []) ++
             (Some id, (start', stop')) :: rest)
  end.
(** added_vocabulary.cpp:173-241 find_matches; the length of an icu::UnicodeString is an int (236) *)
Definition av_find_matches_ck (map_r : zmap added_token) (sentence : bytes) (trie : list (bytes * Z))
  : res (zmap added_token * list (option Z * (nat * nat))) :=
  let u := from_utf8 sentence in
  total <- ckn (length u) ;;
  raw <- raw_matches_ck (word_ids trie) u (length u) 0 0 ;;
  resolve_matches_ck sentence total 0 map_r raw.

(** added_vocabulary.cpp:256-268: the length of the text becomes an int of the token *)
Fixpoint raw_splits_ck (text : wstr) (l : list (option Z * (nat * nat))) : res (list split) :=
  match l with
  | [] => Ok []
  | (o, (a, b)) :: r =>
    w <- substr_range text a b ;;
    value <- convert_to_string w ;;
    toks <- match o with Some i => n <- ckn (length value) ;; Ok [mkTok i value (0, n)] | None => Ok [] end ;;
    rest <- raw_splits_ck text r ;;
    Ok (mkSplit value (a, b) toks :: rest)
  end.
(** added_vocabulary.cpp:296-312: first + new_split_offset.first *)
Fixpoint norm_splits_ck (text : wstr) (base : nat) (l : list (option Z * (nat * nat))) : res (list split) :=
  match l with
  | [] => Ok []
  | (o, (a, b)) :: r =>
    w <- substr_range text a b ;;
    value <- convert_to_string w ;;
    a' <- ckn (a + base) ;;
    b' <- ckn (b + base) ;;
    toks <- match o with Some i => n <- ckn (length value) ;; Ok [mkTok i value (0, n)] | None => Ok [] end ;;
    rest <- norm_splits_ck text base r ;;
    Ok (mkSplit value (a', b') toks :: rest)
  end.
(** added_vocabulary.cpp:275-315: ending_idx + length (279, 281, 314) and ending_idx + second - first (290) *)
Fixpoint normalize_splits_ck (E : env) (norm : option normalizer) (trie : list (bytes * Z)) (ns : nstring)
         (map_r : zmap added_token) (ending : nat) (l : list split)
  : res (nstring * zmap added_token * list split) :=
  match l with
  | [] => Ok (ns, map_r, [])
  | s :: r =>
    match sp_tokens s with
    | _ :: _ =>
      e <- ckn (ending + length (sp_text s)) ;;
      '(ns', m', rest) <- normalize_splits_ck E norm trie ns map_r e r ;;
      Ok (ns', m', mkSplit (sp_text s) (ending, e) (sp_tokens s) :: rest)
    | [] =>
      w <- convert_from_string (sp_text s) ;;
      ns0 <- new_nstring_ck w ;;
      sub <- match norm with Some f => normalize_ck E f ns0 | None => Ok ns0 end ;;
      sum <- ckn (ending + snd (sp_off s)) ;;
      ns' <- transform_range_ck ns (ending, sum - fst (sp_off s)) sub ;;
      sentence <- convert_to_string (ns_text sub) ;;
      '(m', ms) <- av_find_matches_ck map_r sentence trie ;;
      here <- norm_splits_ck (ns_text sub) ending ms ;;
      e <- ckn (ending + length (ns_text sub)) ;;
      '(ns'', m'', rest) <- normalize_splits_ck E norm trie ns' m' e r ;;
      Ok (ns'', m'', here ++ rest)
    end
  end.
(** added_vocabulary.cpp:248-321 extract_and_normalize; pre_tokenizer.cpp:44-47 (the length of the text as an int) *)
Definition extract_ck (E : env) (av : added_vocab) (norm : option normalizer) (seq : wstr)
  : res (zmap added_token * pretok) :=
  ns0 <- new_nstring_ck seq ;;
  p <- new_pretok ns0 ;;
  n <- ckn (length (ns_text ns0)) ;;
  sentence <- convert_to_string (ns_text (pt_norm p)) ;;
  '(m1, ms) <- av_find_matches_ck (av_map_r av) sentence (av_trie_raw av) ;;
  raw <- raw_splits_ck (ns_text (pt_norm p)) ms ;;
  let splits1 := match raw with [] => pt_splits p | _ => raw end in
  '(ns, m2, splits2) <- normalize_splits_ck E norm (av_trie_norm av) (pt_norm p) m1 0 splits1 ;;
  Ok (m2, mkPt ns (match splits2 with [] => splits1 | _ => splits2 end)).
