(** The int arithmetic of src/normalizer.cpp with its range: every + and += on C++ ints, every loop counter and every length stored in an int.
    (Normalizer.v computes the same with unbounded numbers. The ints of this file never become negative, so they are kept as nat; a value of 2^31 or more counts as overflow. That is undefined
    behaviour for an addition of ints and a silent wrap for the conversion of a length: both are the outcome IntOverflow here. Iterators are advanced by ptrdiff_t and are not checked.
    The position multi of do_strip_accents, which counts down from 0, is kept by its absolute value.) *)
From Verif Require Import Base Unicode Common Normalizer.

(** an int: normalizer.cpp, passim *)
Definition ckn (n : nat) : res nat := if (Z.of_nat n <? 2 ^ 31)%Z then Ok n else Undef IntOverflow.

(** normalizer.cpp:50-61: i++, i + 1 and idx += length *)
Fixpoint ns_tables_ck (u : ustr) (todo i idx : nat) : res (list (nat * nat) * list (nat * nat)) :=
  match todo with
  | O => Ok ([], [])
  | S k =>
    let n := length (utf8_of_cp (char32_at u i)) in
    idx' <- ckn (idx + n) ;;
    i' <- ckn (i + 1) ;;
    '(r, o) <- ns_tables_ck u k i' idx' ;;
    Ok ((idx, n) :: r, repeat (i, i') n ++ o)
  end.
(** normalizer.cpp:45-62 NormalizedString::NormalizedString(std::wstring) *)
Definition new_nstring_ck (s : wstr) : res nstring :=
  let u := from_utf32 s in
  '(r, o) <- ns_tables_ck u (length u) 0 0 ;;
  Ok (mkNs s r o).

(** normalizer.cpp:221-224, 241-244: offset_ranges[j - 1].first + offset_ranges[j - 1].second; [prev] is the range before *)
Fixpoint refresh_ck (prev : nat * nat) (l : list (nat * nat)) : res (list (nat * nat)) :=
  match l with
  | [] => Ok []
  | (_, n) :: r =>
    start <- ckn (fst prev + snd prev) ;;
    rest <- refresh_ck (start, n) r ;;
    Ok ((start, n) :: rest)
  end.
(** normalizer.cpp:221-224, 241-244 *)
Definition refresh_from_ck (j : nat) (ranges : list (nat * nat)) : res (list (nat * nat)) :=
  match j with
  | O => Ok ranges
  | S p => t <- refresh_ck (nth p ranges (0, 0)) (skipn j ranges) ;; Ok (firstn j ranges ++ t)
  end.

(** normalizer.cpp:204-250 NormalizedString::transform: start + 1, start + limit + 1, start + n, i + 3, i + 2, i + 1 and the parameter int n *)
Definition transform_ck (ns : nstring) (i : nat) (op : top) : res nstring :=
  let ranges := ns_ranges ns in
  r <- vat ranges i ;;
  let '(start, limit) := r in
  match op with
  | OpErase =>
    offsets <- verase (ns_offsets ns) start (start + limit) ;;
    ranges' <- verase ranges i (i + 1) ;;
    Ok (mkNs (ns_text ns) ranges' offsets)
  | OpPad =>
    o <- vat (ns_offsets ns) start ;;
    offsets <- vinsert (ns_offsets ns) start [o; o] ;;
    s1 <- ckn (start + 1) ;;
    s2 <- ckn (start + limit) ;;
    s3 <- ckn (s2 + 1) ;;
    r1 <- verase ranges i (i + 1) ;;
    r2 <- vinsert r1 i [(start, 1); (s1, limit); (s3, 1)] ;;
    j <- ckn (i + 3) ;;
    r3 <- refresh_from_ck j r2 ;;
    Ok (mkNs (ns_text ns) r3 offsets)
  | OpGrow =>
    s1 <- ckn (start + 1) ;;
    r1 <- verase ranges i (i + 1) ;;
    r2 <- vinsert r1 i [(start, 1); (s1, 1)] ;;
    Ok (mkNs (ns_text ns) r2 (ns_offsets ns))
  | OpShrink =>
    r1 <- verase ranges i (i + 1) ;;
    Ok (mkNs (ns_text ns) r1 (ns_offsets ns))
  | OpAdd n =>
    n' <- ckn n ;;
    s1 <- ckn (start + n') ;;
    r1 <- verase ranges i (i + 1) ;;
    r2 <- vinsert r1 i [(start, n'); (s1, limit)] ;;
    j <- ckn (i + 2) ;;
    o <- vat (ns_offsets ns) start ;;
    offsets <- vinsert (ns_offsets ns) start (repeat o n') ;;
    r3 <- refresh_from_ck j r2 ;;
    Ok (mkNs (ns_text ns) r3 offsets)
  | OpReplace n =>
    n' <- ckn n ;;
    r1 <- verase ranges i (i + 1) ;;
    r2 <- vinsert r1 i [(start, n')] ;;
    o <- vat (ns_offsets ns) start ;;
    match n' with
    | O => Throw LengthError
    | S k =>
      offsets <- vinsert (ns_offsets ns) start (repeat o k) ;;
      j <- ckn (i + 1) ;;
      r3 <- refresh_from_ck j r2 ;;
      Ok (mkNs (ns_text ns) r3 offsets)
    end
  end.

(** normalizer.cpp:269-280 (307-318, 345-356, 383-394): oi++, ni++ and ni += 2 *)
Fixpoint grow_ids_ck (fuel : nat) (old new : wstr) (oi ni : nat) : res (list nat) :=
  match fuel with
  | O => Ok []
  | S f =>
    match nth_error old oi, nth_error new ni with
    | Some a, Some b =>
      oi' <- ckn (oi + 1) ;;
      if N.eqb a b then ni' <- ckn (ni + 1) ;; grow_ids_ck f old new oi' ni'
      else ni' <- ckn (ni + 2) ;; rest <- grow_ids_ck f old new oi' ni' ;; Ok (oi :: rest)
    | _, _ => Ok []
    end
  end.
(** normalizer.cpp:281-285: i + multi and multi += 1 *)
Fixpoint apply_grow_ck (ns : nstring) (l : list nat) (multi : nat) : res nstring :=
  match l with
  | [] => Ok ns
  | i :: r => at_ <- ckn (i + multi) ;; ns' <- transform_ck ns at_ OpGrow ;; multi' <- ckn (multi + 1) ;; apply_grow_ck ns' r multi'
  end.
(** normalizer.cpp:254-288, 292-326, 330-364, 368-402 *)
Definition normalize_nf_ck (E : env) (f : nform) (ns : nstring) : res nstring :=
  match e_norm E f (map fix_cp (ns_text ns)) with
  | None => Throw RuntimeError
  | Some result =>
    ids <- grow_ids_ck (length (ns_text ns)) (ns_text ns) result 0 0 ;;
    ns' <- apply_grow_ck ns ids 0 ;;
    Ok (set_text ns' result)
  end.

(** normalizer.cpp:456-473 do_clean_text: i++ *)
Fixpoint clean_loop_ck (E : env) (ns : nstring) (i : nat) (l : wstr) : res (nstring * wstr) :=
  match l with
  | [] => Ok (ns, [])
  | c :: r =>
    if removed_by_clean E c then
      ns' <- transform_ck ns i OpErase ;; i' <- ckn (i + 1) ;; clean_loop_ck E ns' i' r
    else
      i' <- ckn (i + 1) ;;
      '(ns', t) <- clean_loop_ck E ns i' r ;;
      Ok (ns', (if is_whitespace E c then 32%N else c) :: t)
  end.
(** normalizer.cpp:456-473 do_clean_text *)
Definition do_clean_text_ck (E : env) (ns : nstring) : res nstring :=
  '(ns', t) <- clean_loop_ck E ns 0 (ns_text ns) ;; Ok (set_text ns' t).

(** normalizer.cpp:479-488: i++ *)
Fixpoint chinese_ids_ck (l : wstr) (i : nat) : res (list nat) :=
  match l with
  | [] => Ok []
  | c :: r =>
    i' <- ckn (i + 1) ;;
    rest <- chinese_ids_ck r i' ;;
    Ok (if is_chinese_char c then i :: rest else rest)
  end.
(** normalizer.cpp:489-494: ti += multi and multi += 2 *)
Fixpoint apply_pad_ck (ns : nstring) (l : list nat) (multi : nat) : res nstring :=
  match l with
  | [] => Ok ns
  | i :: r => at_ <- ckn (i + multi) ;; multi' <- ckn (multi + 2) ;; ns' <- transform_ck ns at_ OpPad ;; apply_pad_ck ns' r multi'
  end.
(** normalizer.cpp:495-507: i++ *)
Fixpoint apply_changes_ck (result : wstr) (i : nat) (l : list (N * nat)) : res wstr :=
  match l with
  | [] => Ok result
  | (c, k) :: r =>
    result' <- (if 0 <? k then
                  (if i <=? length result then Ok (firstn i result ++ [c] ++ skipn i result) else Throw OutOfRange)
                else vset result i c) ;;
    i' <- ckn (i + 1) ;;
    apply_changes_ck result' i' r
  end.
(** normalizer.cpp:475-510 do_handle_chinese_chars *)
Definition do_handle_chinese_chars_ck (ns : nstring) : res nstring :=
  ids <- chinese_ids_ck (ns_text ns) 0 ;;
  ns' <- apply_pad_ck ns ids 0 ;;
  t <- apply_changes_ck (ns_text ns') 0 (chinese_changes (ns_text ns)) ;;
  Ok (set_text ns' t).

(** normalizer.cpp:515-523: i++ *)
Fixpoint mark_ids_ck (E : env) (l : wstr) (i : nat) : res (list nat) :=
  match l with
  | [] => Ok []
  | c :: r =>
    i' <- ckn (i + 1) ;;
    rest <- mark_ids_ck E r i' ;;
    Ok (if e_is_mn E c then i :: rest else rest)
  end.
(** normalizer.cpp:525-529: id + multi and multi -= 1 *)
Fixpoint apply_shrink_ck (ns : nstring) (l : list nat) (multi : nat) : res nstring :=
  match l with
  | [] => Ok ns
  | i :: r => ns' <- transform_ck ns (i - multi) OpShrink ;; multi' <- ckn (multi + 1) ;; apply_shrink_ck ns' r multi'
  end.
(** normalizer.cpp:512-532 do_strip_accents *)
Definition do_strip_accents_ck (E : env) (ns : nstring) : res nstring :=
  nfd <- normalize_nf_ck E NFD ns ;;
  ids <- mark_ids_ck E (ns_text nfd) 0 ;;
  ns' <- apply_shrink_ck nfd ids 0 ;;
  Ok (set_text ns' (filter (fun c => negb (e_is_mn E c)) (ns_text nfd))).
(** normalizer.cpp:411-425 BertNormalizer::normalize *)
Definition bert_normalize_ck (E : env) (clean chinese strip lower : bool) (ns : nstring) : res nstring :=
  n1 <- (if clean then do_clean_text_ck E ns else Ok ns) ;;
  n2 <- (if chinese then do_handle_chinese_chars_ck n1 else Ok n1) ;;
  n3 <- (if strip || lower then do_strip_accents_ck E n2 else Ok n2) ;;
  (if lower then do_lowercase E n3 else Ok n3).

(** normalizer.cpp:558-563 Prepend::normalize: prepend.length() becomes the int n of transform *)
Definition prepend_normalize_ck (prepend : bytes) (ns : nstring) : res nstring :=
  p <- convert_from_string prepend ;;
  ns' <- transform_ck ns 0 (OpAdd (length prepend)) ;;
  Ok (set_text ns' (p ++ ns_text ns)).

(** normalizer.cpp:575-584: match.position() becomes an int of replace_ids *)
Fixpoint replace_matches_ck (E : env) (fuel : nat) (pat content text : wstr) (from : nat) (was_empty : bool)
  : res (wstr * list nat) :=
  match fuel with
  | O => Diverge
  | S f =>
    match e_wregex_next E pat text from was_empty with
    | None => Ok (text, [])
    | Some (pos, len) =>
      pos' <- ckn pos ;;
      t1 <- verase text pos (pos + 1) ;;
      t2 <- vinsert t1 pos content ;;
      if e_inplace E && (length content =? 1) then
        '(t3, ids) <- replace_matches_ck E f pat content t2 (pos + len) (len =? 0) ;;
        Ok (t3, pos' :: ids)
      else Undef IterInvalidated
    end
  end.
(** normalizer.cpp:585-589: i + multi, content.length() as an int and multi += replace_content.length() *)
Fixpoint apply_replace_ck (ns : nstring) (l : list nat) (nbytes wlen multi : nat) : res nstring :=
  match l with
  | [] => Ok ns
  | i :: r => at_ <- ckn (i + multi) ;; ns' <- transform_ck ns at_ (OpReplace nbytes) ;; multi' <- ckn (multi + wlen) ;; apply_replace_ck ns' r nbytes wlen multi'
  end.
(** normalizer.cpp:568-591 Replace::normalize *)
Definition replace_normalize_ck (E : env) (pattern content : bytes) (ns : nstring) : res nstring :=
  pat <- convert_from_string pattern ;;
  if negb (e_wregex_ok E pat) then Throw RegexError else
  c <- convert_from_string content ;;
  '(text, ids) <- replace_matches_ck E (2 * length (ns_text ns) + 3) pat c (ns_text ns) 0 false ;;
  ns' <- apply_replace_ck ns ids (length content) (length c) 0 ;;
  Ok (set_text ns' text).

(** normalizer.cpp:596-613 Strip::normalize: int end = size; ++start and --end stay between 0 and end *)
Definition strip_normalize_ck (left right : bool) (ns : nstring) : res nstring :=
  end_ <- ckn (length (ns_text ns)) ;; strip_normalize left right ns.

(** virtual dispatch of normalize; Sequence is normalizer.cpp:545-554. StripAccents (619-628) has no int. *)
Fixpoint normalize_ck (E : env) (n : normalizer) (ns : nstring) {struct n} : res nstring :=
  match n with
  | NBert c h s l => bert_normalize_ck E c h s l ns
  | NForm f => normalize_nf_ck E f ns
  | NPrepend p => prepend_normalize_ck p ns
  | NReplace p c => replace_normalize_ck E p c ns
  | NStrip l r => strip_normalize_ck l r ns
  | NStripAccents => strip_accents_normalize ns
  | NSequence l =>
    (fix go (l : list normalizer) (ns : nstring) : res nstring :=
       match l with
       | [] => Ok ns
       | q :: r => ns' <- normalize_ck E q ns ;; go r ns'
       end) l ns
  end.
