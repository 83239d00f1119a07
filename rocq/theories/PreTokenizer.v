(** src/pre_tokenizer.cpp, include/tokenizers/pre_tokenizer.h *)
From Verif Require Import Base Unicode Common Normalizer.

(** pre_tokenizer.h class PreTokenizedString *)
(** pre_tokenizer.h:36-45 class PreTokenizedString *)
Record pretok := mkPt { pt_norm : nstring; pt_splits : list split }.

(** pre_tokenizer.cpp:44-47 PreTokenizedString::PreTokenizedString: one split covering the text, its length
    counted in wide characters *)
Definition new_pretok (ns : nstring) : res pretok :=
  s <- convert_to_string (ns_text ns) ;;
  Ok (mkPt ns [mkSplit s (0, length (ns_text ns)) []]).

(** ** ICU regular expressions used with fixed patterns, as functions from a UTF-16 string to the list of matches
    in order (start, end), non-empty. *)

(** single characters of a class: \p{P} *)
(** pre_tokenizer.cpp:103-130 find_matches with the pattern of 137-141 *)
Fixpoint class_matches (f : N -> bool) (pos : nat) (l : list (N * nat)) : list (nat * nat) :=
  match l with
  | [] => []
  | (c, w) :: r => if f c then (pos, pos + w) :: class_matches f (pos + w) r else class_matches f (pos + w) r
  end.

(** maximal runs of a class: \s+ ; [open] is the start of the current run *)
(** pre_tokenizer.cpp:103-130 find_matches with the pattern of 131-135 *)
Fixpoint run_matches (f : N -> bool) (pos : nat) (open : option nat) (l : list (N * nat)) : list (nat * nat) :=
  match l with
  | [] => match open with Some s => [(s, pos)] | None => [] end
  | (c, w) :: r =>
    if f c then run_matches f (pos + w) (Some (match open with Some s => s | None => pos end)) r
    else match open with
         | Some s => (s, pos) :: run_matches f (pos + w) None r
         | None => run_matches f (pos + w) None r
         end
  end.

(** the pattern the byte-level pre-tokenizer really compiles: pre_tokenizer.cpp:243-245 builds
    std::string(literal, std::regex_constants::optimize), i.e. the first 4 bytes of the literal (libstdc++'s value of
    [optimize] is 4), which is the two-branch pattern of an apostrophe followed by s, or an apostrophe *)
Definition byte_level_pattern : bytes := [39; 115; 124; 39]%N.

(** pre_tokenizer.cpp:103-130 find_matches with [byte_level_pattern] *)
Fixpoint apos_matches (pos : nat) (u : ustr) : list (nat * nat) :=
  match u with
  | [] => []
  | x :: r =>
    if (x =? 39)%N then
      match r with
      | y :: r' => if (y =? 115)%N then (pos, pos + 2) :: apos_matches (pos + 2) r'
                   else (pos, pos + 1) :: apos_matches (pos + 1) r
      | [] => [(pos, pos + 1)]
      end
    else apos_matches (pos + 1) r
  end.

(** pre_tokenizer.cpp:131-135 is_whitespace *)
Definition pat_space : bytes := str "\s+".
(** pre_tokenizer.cpp:137-141 is_bert_punc *)
Definition pat_punct : bytes := str "\p{P}".

(** pre_tokenizer.cpp:105-114: all matches; a pattern that does not compile leaves a null pattern pointer which is
    dereferenced *)
Definition regex_matches (E : env) (pat : bytes) (u : ustr) : res (list (nat * nat)) :=
  if leqb pat pat_space then Ok (run_matches (e_u_space E) 0 None (utf16_cps u))
  else if leqb pat pat_punct then Ok (class_matches (e_u_punct E) 0 (utf16_cps u))
  else if leqb pat byte_level_pattern then Ok (apos_matches 0 u)
  else match e_icu_matches E pat u with Some l => Ok l | None => Undef NullDeref end.

(** pre_tokenizer.cpp:116-128: matches and the gaps between them *)
Fixpoint with_gaps (cur len : nat) (l : list (nat * nat)) : list ((nat * nat) * bool) :=
  match l with
  | [] => if cur <? len then [((cur, len), false)] else []
  | m :: r =>
    (if cur =? fst m then [] else [((cur, fst m), false)]) ++ (m, true) :: with_gaps (snd m) len r
  end.

(** pre_tokenizer.cpp:103-129 find_matches *)
Definition find_matches (E : env) (pat : bytes) (u : ustr) : res (list ((nat * nat) * bool)) :=
  l <- regex_matches E pat u ;; Ok (with_gaps 0 (length u) l).

(** pre_tokenizer.cpp:143-176 split_normalized *)
Definition split_normalized (s : split) (fn : ustr -> res (list ((nat * nat) * bool))) (b : behavior)
  : res (list split) :=
  let u := from_utf8 (sp_text s) in
  ms <- fn u ;;
  let ms := match b with REMOVED => ms | ISOLATED => map (fun m => (fst m, false)) ms end in
  Ok (map (fun m => let '(a, z) := fst m in
                    mkSplit (to_utf8 (usub_between u a z)) (a + fst (sp_off s), z + fst (sp_off s)) [])
          (filter (fun m => negb (snd m)) ms)).

(** pre_tokenizer.cpp:184-194 *)
Fixpoint split_all (fn : ustr -> res (list ((nat * nat) * bool))) (b : behavior) (l : list split)
  : res (list split) :=
  match l with
  | [] => Ok []
  | s :: r =>
    here <- (if is_nil (sp_tokens s) then split_normalized s fn b else Ok [s]) ;;
    rest <- split_all fn b r ;;
    Ok (here ++ rest)
  end.

(** pre_tokenizer.cpp:178-196 PreTokenizedString::split *)
Definition pt_split (fn : ustr -> res (list ((nat * nat) * bool))) (b : behavior) (p : pretok) : res pretok :=
  l <- split_all fn b (pt_splits p) ;; Ok (mkPt (pt_norm p) l).

(** pre_tokenizer.cpp:200-205 BertPreTokenizer::pre_tokenize (131-141 for the two patterns) *)
Definition bert_pre_tokenize (E : env) (p : pretok) : res pretok :=
  p1 <- pt_split (find_matches E pat_space) REMOVED p ;;
  pt_split (find_matches E pat_punct) ISOLATED p1.

(** pre_tokenizer.cpp:228-237 SplitPreTokenizer::pre_tokenize; the member [invert] is never read *)
Definition split_pre_tokenize (E : env) (pattern : bytes) (b : behavior) (p : pretok) : res pretok :=
  pt_split (find_matches E pattern) b p.

(** pre_tokenizer.cpp:250-256: add_prefix_space; wstring::at(0) throws on an empty text *)
Definition add_prefix (E : env) (p : pretok) : res pretok :=
  match ns_text (pt_norm p) with
  | [] => Throw OutOfRange
  | c :: _ =>
    if e_iswspace E c then Ok p
    else
      ns <- transform (set_text (pt_norm p) (32%N :: ns_text (pt_norm p))) 0 (OpAdd 1) ;;
      new_pretok ns
  end.

(** pre_tokenizer.cpp:267-269: BYTES_CHAR.at(static_cast<int>(c)) on a uint16_t key; with signed char a byte >= 128
    becomes a key >= 0xFF80, which is absent *)
Definition byte_char_at (E : env) (b : N) : res bytes :=
  let key := if e_char_signed E && (128 <=? b)%N then (b + 0xFF00)%N else b in
  match nfind key bytes_char with Some s => Ok s | None => Throw OutOfRange end.

(** pre_tokenizer.cpp:265-271: the bytes of one split *)
Definition byte_level_text (E : env) (t : bytes) : res bytes :=
  l <- mapM (byte_char_at E) t ;; Ok (concat l).

(** pre_tokenizer.cpp:248-273 ByteLevelPreTokenizer::pre_tokenize *)
Definition byte_level_pre_tokenize (E : env) (add_prefix_space use_regex : bool) (p : pretok) : res pretok :=
  p0 <- (if add_prefix_space then add_prefix E p else Ok p) ;;
  p1 <- pt_split (fun u => if use_regex then find_matches E byte_level_pattern u
                           else Ok [((0, length u), false)]) ISOLATED p0 ;;
  l <- mapM (fun s => t <- byte_level_text E (sp_text s) ;; Ok (mkSplit t (sp_off s) (sp_tokens s)))
            (pt_splits p1) ;;
  Ok (mkPt (pt_norm p1) l).

(** pre_tokenizer.h: the concrete pre-tokenizers *)
(** pre_tokenizer.h:57-99, the subclasses of PreTokenizer *)
Inductive pre_tokenizer :=
| TBert
| TSplit (pattern : bytes) (b : behavior) (invert : bool)
| TByteLevel (add_prefix_space use_regex : bool)
| TSequence (l : list pre_tokenizer).

(** virtual dispatch; Sequence is pre_tokenizer.cpp:211-220 (std::accumulate) *)
Fixpoint pre_tokenize (E : env) (t : pre_tokenizer) (p : pretok) {struct t} : res pretok :=
  match t with
  | TBert => bert_pre_tokenize E p
  | TSplit pat b _ => split_pre_tokenize E pat b p
  | TByteLevel aps rx => byte_level_pre_tokenize E aps rx p
  | TSequence l =>
    (fix go (l : list pre_tokenizer) (p : pretok) : res pretok :=
       match l with
       | [] => Ok p
       | q :: r => p' <- pre_tokenize E q p ;; go r p'
       end) l p
  end.
