(** src/normalizer.cpp, include/tokenizers/normalizer.h *)
From Verif Require Import Base Unicode Common.

(** normalizer.h class NormalizedString: text, per-character (start, byte length) ranges into [offsets], and per-byte
    original spans. All ints in these tables are non-negative and kept as nat. *)
(** normalizer.h:37-48 class NormalizedString *)
Record nstring := mkNs { ns_text : wstr; ns_ranges : list (nat * nat); ns_offsets : list (nat * nat) }.

(** normalizer.cpp:51-61: the loop over UTF-16 units, from unit [i] with running byte index [idx] *)
Fixpoint ns_tables (u : ustr) (todo i idx : nat) : list (nat * nat) * list (nat * nat) :=
  match todo with
  | O => ([], [])
  | S k =>
    let n := length (utf8_of_cp (char32_at u i)) in
    let '(r, o) := ns_tables u k (S i) (idx + n) in
    ((idx, n) :: r, repeat (i, S i) n ++ o)
  end.

(** normalizer.cpp:45-62 NormalizedString::NormalizedString(std::wstring) *)
Definition new_nstring (s : wstr) : nstring :=
  let u := from_utf32 s in
  let '(r, o) := ns_tables u (length u) 0 0 in
  mkNs s r o.

(** normalizer.cpp:161-171: re-based ranges of the replacement, starting at [start] *)
Fixpoint rebase_ranges (start : nat) (l : list (nat * nat)) : list (nat * nat) :=
  match l with
  | [] => []
  | (_, n) :: r => (start, n) :: rebase_ranges (start + n) r
  end.

(** normalizer.cpp:180-194: re-based offsets of the replacement; [prev] is the last distinct old pair, [cur] the
    last new pair. *)
Fixpoint rebase_offsets (prev cur : nat * nat) (l : list (nat * nat)) : list (nat * nat) :=
  match l with
  | [] => []
  | o :: r =>
    if (fst prev =? fst o) && (snd prev =? snd o) then cur :: rebase_offsets prev cur r
    else let cur' := (snd cur, snd cur + 1) in cur' :: rebase_offsets o cur' r
  end.

(** normalizer.cpp:161-171, 221-224: first + second of a range *)
Definition pair_end (p : nat * nat) : nat := fst p + snd p.

(** normalizer.cpp:152-202 NormalizedString::transform_range *)
Definition transform_range (ns : nstring) (range : nat * nat) (sub : nstring) : res nstring :=
  let '(a, b) := range in
  let ranges := ns_ranges ns in
  ra <- vat ranges a ;;
  let offsets_start := fst ra in
  rb <- (if b =? length ranges then (match b with O => Undef OobIndex | S b' => vat ranges b' end)
         else vat ranges b) ;;
  let offsets_end := fst rb in
  let new1 := rebase_ranges offsets_start (ns_ranges sub) in
  let tail := skipn b ranges in
  new2 <- match new1, tail with
          | [], _ :: _ => Undef OobIndex                  (* new_offset_ranges[-1] *)
          | _, _ => Ok (rebase_ranges (pair_end (last new1 (0, 0))) tail)
          end ;;
  new_offsets <- match ns_offsets sub with
                 | [] => Ok []
                 | o :: r => base <- vat (ns_offsets ns) offsets_start ;;
                             Ok (base :: rebase_offsets o base r)
                 end ;;
  offsets1 <- verase (ns_offsets ns) offsets_start offsets_end ;;
  offsets2 <- vinsert offsets1 offsets_start new_offsets ;;
  Ok (mkNs (ns_text ns) (firstn a ranges ++ new1 ++ new2) offsets2).

(** normalizer.cpp:221-224, 241-244: recompute the starts of the ranges from index [j] on; the element before [j]
    exists at every use. *)
Definition refresh_from (j : nat) (ranges : list (nat * nat)) : list (nat * nat) :=
  match j with
  | O => ranges
  | S p => firstn j ranges ++ rebase_ranges (pair_end (nth p ranges (0, 0))) (skipn j ranges)
  end.

(** normalizer.h / normalizer.cpp:204: the operation names passed as strings *)
Inductive top := OpErase | OpPad | OpGrow | OpShrink | OpAdd (n : nat) | OpReplace (n : nat).

(** normalizer.cpp:204-250 NormalizedString::transform *)
Definition transform (ns : nstring) (i : nat) (op : top) : res nstring :=
  let ranges := ns_ranges ns in
  r <- vat ranges i ;;
  let '(start, limit) := r in
  match op with
  | OpErase =>
    offsets <- verase (ns_offsets ns) start (start + limit) ;;
    ranges' <- verase ranges i (i + 1) ;;
    Ok (mkNs (ns_text ns) ranges' offsets)
  | OpPad =>
    o <- vat (ns_offsets ns) start ;;
    offsets <- vinsert (ns_offsets ns) start [o; o] ;;
    r1 <- verase ranges i (i + 1) ;;
    r2 <- vinsert r1 i [(start, 1); (start + 1, limit); (start + limit + 1, 1)] ;;
    Ok (mkNs (ns_text ns) (refresh_from (i + 3) r2) offsets)
  | OpGrow =>
    r1 <- verase ranges i (i + 1) ;;
    r2 <- vinsert r1 i [(start, 1); (start + 1, 1)] ;;
    Ok (mkNs (ns_text ns) r2 (ns_offsets ns))
  | OpShrink =>
    r1 <- verase ranges i (i + 1) ;;
    Ok (mkNs (ns_text ns) r1 (ns_offsets ns))
  | OpAdd n =>
    r1 <- verase ranges i (i + 1) ;;
    r2 <- vinsert r1 i [(start, n); (start + n, limit)] ;;
    o <- vat (ns_offsets ns) start ;;
    offsets <- vinsert (ns_offsets ns) start (repeat o n) ;;
    Ok (mkNs (ns_text ns) (refresh_from (i + 2) r2) offsets)
  | OpReplace n =>
    r1 <- verase ranges i (i + 1) ;;
    r2 <- vinsert r1 i [(start, n)] ;;
    o <- vat (ns_offsets ns) start ;;
    match n with
    | O => Throw LengthError                         (* vector of n - 1 = -1 elements *)
    | S n' =>
      offsets <- vinsert (ns_offsets ns) start (repeat o n') ;;
      Ok (mkNs (ns_text ns) (refresh_from (i + 1) r2) offsets)
    end
  end.

(** assignment to normalized.normalized (normalizer.cpp:286, 471, 508, 530, 537, 561, 575-584, 611, 626) *)
Definition set_text (ns : nstring) (s : wstr) : nstring := mkNs s (ns_ranges ns) (ns_offsets ns).

(** normalizer.cpp:269-280 (and 307-318, 345-356, 383-394): positions whose character differs, comparing position by
    position and skipping two result characters after a difference *)
Fixpoint grow_ids (fuel : nat) (old new : wstr) (oi ni : nat) : list nat :=
  match fuel with
  | O => []
  | S f =>
    match nth_error old oi, nth_error new ni with
    | Some a, Some b =>
      if N.eqb a b then grow_ids f old new (S oi) (S ni) else oi :: grow_ids f old new (S oi) (ni + 2)
    | _, _ => []
    end
  end.

(** normalizer.cpp:281-285: transform(i + multi, "grow") with multi = 0,1,2,... *)
Fixpoint apply_grow (ns : nstring) (l : list nat) (multi : nat) : res nstring :=
  match l with
  | [] => Ok ns
  | i :: r => ns' <- transform ns (i + multi) OpGrow ;; apply_grow ns' r (S multi)
  end.

(** normalizer.cpp:254-288 NFC, 292-326 NFD, 330-364 NFKC, 368-402 NFKD: identical bodies up to the ICU form.
    Ill-formed wide characters become U+FFFD in fromUTF32. ICU failure throws std::runtime_error. *)
(** normalizer.cpp:256 fromUTF32 on an ill-formed wide character *)
Definition fix_cp (c : N) : N := if valid_cp c then c else 0xFFFD%N.
(** normalizer.cpp:254-288, 292-326, 330-364, 368-402 *)
Definition normalize_nf (E : env) (f : nform) (ns : nstring) : res nstring :=
  match e_norm E f (map fix_cp (ns_text ns)) with
  | None => Throw RuntimeError
  | Some result =>
    ns' <- apply_grow ns (grow_ids (length (ns_text ns)) (ns_text ns) result 0 0) 0 ;;
    Ok (set_text ns' result)
  end.

(** normalizer.cpp:427-436 is_whitespace, 438-447 is_control *)
Definition is_tnr (c : N) : bool := ((c =? 9) || (c =? 10) || (c =? 13))%N.
(** normalizer.cpp:427-436 is_whitespace *)
Definition is_whitespace (E : env) (c : N) : bool := is_tnr c || e_iswspace E c.
(** normalizer.cpp:438-447 is_control *)
Definition is_control (E : env) (c : N) : bool := negb (is_tnr c) && e_iswcntrl E c.

(** normalizer.cpp:449-454 is_chinese_char *)
Definition is_chinese_char (c : N) : bool :=
  ((0x4E00 <=? c) && (c <=? 0x9FFF) || (0x3400 <=? c) && (c <=? 0x4DBF) ||
   (0x20000 <=? c) && (c <=? 0x2A6DF) || (0x2A700 <=? c) && (c <=? 0x2B73F) ||
   (0x2B740 <=? c) && (c <=? 0x2B81F) || (0x2B920 <=? c) && (c <=? 0x2CEAF) ||
   (0xF900 <=? c) && (c <=? 0xFAFF) || (0x2F800 <=? c) && (c <=? 0x2FA1F))%N.

(** normalizer.cpp:460 *)
Definition removed_by_clean (E : env) (c : N) : bool :=
  ((c =? 0)%N || (c =? 0xFFFD)%N || is_control E c).

(** normalizer.cpp:456-473 do_clean_text: [i] counts original characters and is not adjusted after an erase *)
Fixpoint clean_loop (E : env) (ns : nstring) (i : nat) (l : wstr) : res (nstring * wstr) :=
  match l with
  | [] => Ok (ns, [])
  | c :: r =>
    if removed_by_clean E c then
      ns' <- transform ns i OpErase ;; clean_loop E ns' (S i) r
    else
      '(ns', t) <- clean_loop E ns (S i) r ;;
      Ok (ns', (if is_whitespace E c then 32%N else c) :: t)
  end.
(** normalizer.cpp:456-473 do_clean_text *)
Definition do_clean_text (E : env) (ns : nstring) : res nstring :=
  '(ns', t) <- clean_loop E ns 0 (ns_text ns) ;; Ok (set_text ns' t).

(** normalizer.cpp:477-488: changes and the indices of the Chinese characters *)
Fixpoint chinese_changes (l : wstr) : list (N * nat) :=
  match l with
  | [] => []
  | c :: r => (if is_chinese_char c then [(32%N, 0); (c, 1); (32%N, 1)] else [(c, 0)]) ++ chinese_changes r
  end.
(** normalizer.cpp:477-488 *)
Fixpoint chinese_ids (l : wstr) (i : nat) : list nat :=
  match l with
  | [] => []
  | c :: r => if is_chinese_char c then i :: chinese_ids r (S i) else chinese_ids r (S i)
  end.

(** normalizer.cpp:489-494 *)
Fixpoint apply_pad (ns : nstring) (l : list nat) (multi : nat) : res nstring :=
  match l with
  | [] => Ok ns
  | i :: r => ns' <- transform ns (i + multi) OpPad ;; apply_pad ns' r (multi + 2)
  end.

(** normalizer.cpp:495-507: rebuild the text; change.second is never negative here, so lines 500-502 are dead *)
Fixpoint apply_changes (result : wstr) (i : nat) (l : list (N * nat)) : res wstr :=
  match l with
  | [] => Ok result
  | (c, k) :: r =>
    result' <- (if 0 <? k then
                  (if i <=? length result then Ok (firstn i result ++ [c] ++ skipn i result) else Throw OutOfRange)
                else vset result i c) ;;
    apply_changes result' (S i) r
  end.

(** normalizer.cpp:475-510 do_handle_chinese_chars *)
Definition do_handle_chinese_chars (ns : nstring) : res nstring :=
  ns' <- apply_pad ns (chinese_ids (ns_text ns) 0) 0 ;;
  t <- apply_changes (ns_text ns') 0 (chinese_changes (ns_text ns)) ;;
  Ok (set_text ns' t).

(** normalizer.cpp:517-529: indices of non-spacing marks, and the shrink loop with multi = 0,-1,-2,... *)
Fixpoint mark_ids (E : env) (l : wstr) (i : nat) : list nat :=
  match l with
  | [] => []
  | c :: r => if e_is_mn E c then i :: mark_ids E r (S i) else mark_ids E r (S i)
  end.
(** normalizer.cpp:524-529 *)
Fixpoint apply_shrink (ns : nstring) (l : list nat) (multi : nat) : res nstring :=
  match l with
  | [] => Ok ns
  | i :: r => ns' <- transform ns (i - multi) OpShrink ;; apply_shrink ns' r (S multi)
  end.

(** normalizer.cpp:512-532 do_strip_accents *)
Definition do_strip_accents (E : env) (ns : nstring) : res nstring :=
  nfd <- normalize_nf E NFD ns ;;
  ns' <- apply_shrink nfd (mark_ids E (ns_text nfd) 0) 0 ;;
  Ok (set_text ns' (filter (fun c => negb (e_is_mn E c)) (ns_text nfd))).

(** normalizer.cpp:534-539 do_lowercase *)
Definition do_lowercase (E : env) (ns : nstring) : res nstring :=
  Ok (set_text ns (map (e_towlower E) (ns_text ns))).

(** normalizer.cpp:411-425 BertNormalizer::normalize *)
Definition bert_normalize (E : env) (clean chinese strip lower : bool) (ns : nstring) : res nstring :=
  n1 <- (if clean then do_clean_text E ns else Ok ns) ;;
  n2 <- (if chinese then do_handle_chinese_chars n1 else Ok n1) ;;
  n3 <- (if strip || lower then do_strip_accents E n2 else Ok n2) ;;
  (if lower then do_lowercase E n3 else Ok n3).

(** normalizer.cpp:558-563 Prepend::normalize; n = prepend.length() in bytes *)
Definition prepend_normalize (prepend : bytes) (ns : nstring) : res nstring :=
  p <- convert_from_string prepend ;;
  ns' <- transform ns 0 (OpAdd (length prepend)) ;;
  Ok (set_text ns' (p ++ ns_text ns)).

(** normalizer.cpp:575-584: the match loop mutates the string the regex iterator points into. The iterator stays usable only if the
    library keeps iterators valid ([e_inplace]) and the replacement has exactly one character (the
    buffer is then edited in place); any other increment after a mutation is undefined. *)
Fixpoint replace_matches (E : env) (fuel : nat) (pat content text : wstr) (from : nat) (was_empty : bool)
  : res (wstr * list nat) :=
  match fuel with
  | O => Diverge
  | S f =>
    match e_wregex_next E pat text from was_empty with
    | None => Ok (text, [])
    | Some (pos, len) =>
      t1 <- verase text pos (pos + 1) ;;
      t2 <- vinsert t1 pos content ;;
      if e_inplace E && (length content =? 1) then
        '(t3, ids) <- replace_matches E f pat content t2 (pos + len) (len =? 0) ;;
        Ok (t3, pos :: ids)
      else Undef IterInvalidated
    end
  end.

(** normalizer.cpp:585-589: multi grows by the replacement's length *)
Fixpoint apply_replace (ns : nstring) (l : list nat) (nbytes wlen multi : nat) : res nstring :=
  match l with
  | [] => Ok ns
  | i :: r => ns' <- transform ns (i + multi) (OpReplace nbytes) ;; apply_replace ns' r nbytes wlen (multi + wlen)
  end.

(** normalizer.cpp:568-591 Replace::normalize; a regex iterator yields at most two matches per position *)
Definition replace_normalize (E : env) (pattern content : bytes) (ns : nstring) : res nstring :=
  pat <- convert_from_string pattern ;;
  if negb (e_wregex_ok E pat) then Throw RegexError else
  c <- convert_from_string content ;;
  '(text, ids) <- replace_matches E (2 * length (ns_text ns) + 3) pat c (ns_text ns) 0 false ;;
  ns' <- apply_replace ns ids (length content) (length c) 0 ;;
  Ok (set_text ns' text).

(** normalizer.cpp:600-601: std::isspace of the low byte of the wide character, "C" locale *)
Definition is_space_byte (b : N) : bool := ((b =? 32) || (9 <=? b) && (b <=? 13))%N.
(** normalizer.cpp:600-601, 606-607: the cast to unsigned char *)
Definition strip_space (c : N) : bool := is_space_byte (N.modulo c 256).

(** normalizer.cpp:599-603 and 606-609: the two loops of Strip; added_vocabulary.cpp:157, 166 *)
Fixpoint drop_while (f : N -> bool) (l : list N) : list N :=
  match l with
  | [] => []
  | x :: r => if f x then drop_while f r else l
  end.

(** normalizer.cpp:596-613 Strip::normalize; the tables are not touched *)
Definition strip_normalize (left right : bool) (ns : nstring) : res nstring :=
  let t1 := if left then drop_while strip_space (ns_text ns) else ns_text ns in
  let t2 := if right then rev (drop_while strip_space (rev t1)) else t1 in
  Ok (set_text ns t2).

(** normalizer.cpp:615 isCombiningMark, 619-628 StripAccents::normalize *)
Definition is_combining_mark (c : N) : bool := ((0x300 <=? c) && (c <=? 0x36F))%N.
(** normalizer.cpp:619-628 StripAccents::normalize *)
Definition strip_accents_normalize (ns : nstring) : res nstring :=
  Ok (set_text ns (filter (fun c => negb (is_combining_mark c)) (ns_text ns))).

(** normalizer.h: the concrete normalizers *)
(** normalizer.h:59-144, the subclasses of Normalizer *)
Inductive normalizer :=
| NBert (clean_text handle_chinese_chars strip_accents lowercase : bool)
| NForm (f : nform)
| NPrepend (prepend : bytes)
| NReplace (pattern content : bytes)
| NStrip (left right : bool)
| NStripAccents
| NSequence (l : list normalizer).

(** virtual dispatch of normalize; Sequence is normalizer.cpp:545-554 (std::accumulate) *)
Fixpoint normalize (E : env) (n : normalizer) (ns : nstring) {struct n} : res nstring :=
  match n with
  | NBert c h s l => bert_normalize E c h s l ns
  | NForm f => normalize_nf E f ns
  | NPrepend p => prepend_normalize p ns
  | NReplace p c => replace_normalize E p c ns
  | NStrip l r => strip_normalize l r ns
  | NStripAccents => strip_accents_normalize ns
  | NSequence l =>
    (fix go (l : list normalizer) (ns : nstring) : res nstring :=
       match l with
       | [] => Ok ns
       | q :: r => ns' <- normalize E q ns ;; go r ns'
       end) l ns
  end.
