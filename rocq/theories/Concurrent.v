(** Several threads calling Tokenizer::encode on one object.

    encode is const-correct only on paper: it changes two members of the tokenizer it shares with every other caller, without any lock:
    - AddedVocabulary::added_tokens_map_r, through operator[] (added_vocabulary.cpp:209);
    - BPE::cache (mutable, model.h), read with find and extended with insert (model.cpp:428-434).
    Here encode is written a second time as a program whose shared accesses are explicit; between two accesses it computes on its own data only.
    [run] executes it alone; ConcProofs.v proves that this is exactly [Tokenizer.encode].
    Simplification: one access is one step. A C++ execution in which two accesses to one member, one of them a write, are not ordered has
    undefined behaviour; such states are what [race] below is about. *)
From Verif Require Import Base Unicode Common Utils PostProcessor Decoder Normalizer PreTokenizer WordPiece Bpe AddedVocab Tokenizer.

(** the shared members that encode changes *)
(** added_vocabulary.h:50 added_tokens_map_r, model.h:113 cache *)
Record shared := mkSh { sh_map_r : zmap added_token; sh_cache : cache }.

(** what is left to do of a call of encode (tokenizer.cpp:92-105): own computation and accesses to shared members (added_vocabulary.cpp:209, model.cpp:428-434) *)
Inductive prog (A : Type) : Type :=
| Done (r : res A)                                             (* returned, or failed *)
| Lookup (id : Z) (k : added_token -> prog A)                  (* added_tokens_map_r[id] *)
| Find (s : bytes) (k : option (list symbol) -> prog A)        (* cache.find(s) *)
| Insert (s : bytes) (w : list symbol) (k : prog A).           (* cache.insert({s, w}) *)
Arguments Done {A}. Arguments Lookup {A}. Arguments Find {A}. Arguments Insert {A}.

(** sequencing of C++ statements; an exception or undefined behaviour ends the call *)
Fixpoint pbind {A B} (p : prog A) (f : A -> prog B) : prog B :=
  match p with
  | Done (Ok a) => f a
  | Done (Throw e) => Done (Throw e)
  | Done (Undef u) => Done (Undef u)
  | Done Diverge => Done Diverge
  | Lookup i k => Lookup i (fun t => pbind (k t) f)
  | Find s k => Find s (fun o => pbind (k o) f)
  | Insert s w k => Insert s w (pbind k f)
  end.
Notation "x <~ p ;; q" := (pbind p (fun x => q)) (at level 61, p at next level, right associativity).
Notation "' pat <~ p ;; q" := (pbind p (fun x => match x with pat => q end)) (at level 61, pat pattern, p at next level, right associativity).

(** operator[] of std::unordered_map: default-inserts a missing key *)
(** added_vocabulary.cpp:209 added_tokens_map_r[id] *)
Definition map_ref (m : zmap added_token) (id : Z) : added_token * zmap added_token :=
  match zfind id m with Some t => (t, m) | None => (default_added_token, m ++ [(id, default_added_token)]) end.

(** one access *)
(** added_vocabulary.cpp:209; model.cpp:428 find, 434 insert *)
Inductive pstep {A} : shared -> prog A -> shared -> prog A -> Prop :=
| ps_lookup sh i k : pstep sh (Lookup i k) (mkSh (snd (map_ref (sh_map_r sh) i)) (sh_cache sh)) (k (fst (map_ref (sh_map_r sh) i)))
| ps_find sh s k : pstep sh (Find s k) sh (k (sfind s (sh_cache sh)))
| ps_insert sh s w k : pstep sh (Insert s w k) (mkSh (sh_map_r sh) (sinsert s w (sh_cache sh))) k.

(** the whole program with nobody else around *)
(** tokenizer.cpp:92-105, one thread *)
Fixpoint run {A} (p : prog A) (sh : shared) : shared * res A :=
  match p with
  | Done r => (sh, r)
  | Lookup i k => run (k (fst (map_ref (sh_map_r sh) i))) (mkSh (snd (map_ref (sh_map_r sh) i)) (sh_cache sh))
  | Find s k => run (k (sfind s (sh_cache sh))) sh
  | Insert s w k => run k (mkSh (sh_map_r sh) (sinsert s w (sh_cache sh)))
  end.

(** added_vocabulary.cpp:206-239, as AddedVocab.resolve_matches *)
Fixpoint resolve_prog (sentence : bytes) (total start_offset : nat) (l : list (nat * nat * Z)) : prog (list (option Z * (nat * nat))) :=
  match l with
  | [] => Done (Ok (if start_offset =? total then [] else [(None, (start_offset, total))]))
  | (start, stop, id) :: r =>
    Lookup id (fun tok =>
    keep <~ Done (if at_single_word tok then
               b1 <- (if start =? 0 then Ok true
                      else p <- substr_range sentence 0 start ;; Ok (negb (ends_with_word p))) ;;
               b2 <- (if stop =? length sentence then Ok true
                      else p <- substr_from sentence stop ;; Ok (negb (starts_with_word p))) ;;
               Ok (b1 && b2)
             else Ok true) ;;
    if negb keep then resolve_prog sentence total start_offset r
    else
      start' <~ Done (if at_lstrip tok then
                   p <- substr_range sentence 0 start ;;
                   Ok (Nat.max (space_leftmost_at_end p) start_offset)
                 else Ok start) ;;
      stop' <~ Done (if at_rstrip tok then
                  p <- substr_from sentence stop ;; Ok (stop + space_rightmost_at_start p)
                else Ok stop) ;;
      rest <~ resolve_prog sentence total stop' r ;;
      Done (Ok ((if start_offset <? start' then [(None, (start_offset, start'))] else []) ++ (Some id, (start', stop')) :: rest)))
  end.

(** added_vocabulary.cpp:173-241 find_matches *)
Definition find_prog (sentence : bytes) (trie : list (bytes * Z)) : prog (list (option Z * (nat * nat))) :=
  let u := from_utf8 sentence in resolve_prog sentence (length u) 0 (raw_matches (word_ids trie) u (length u) 0 0).

(** added_vocabulary.cpp:275-315, as AddedVocab.normalize_splits *)
Fixpoint normalize_prog (E : env) (norm : option normalizer) (trie : list (bytes * Z)) (ns : nstring) (ending : nat) (l : list split) : prog (nstring * list split) :=
  match l with
  | [] => Done (Ok (ns, []))
  | s :: r =>
    match sp_tokens s with
    | _ :: _ =>
      let n := length (sp_text s) in
      '(ns', rest) <~ normalize_prog E norm trie ns (ending + n) r ;;
      Done (Ok (ns', mkSplit (sp_text s) (ending, ending + n) (sp_tokens s) :: rest))
    | [] =>
      w <~ Done (convert_from_string (sp_text s)) ;;
      let ns0 := new_nstring w in
      sub <~ Done (match norm with Some f => normalize E f ns0 | None => Ok ns0 end) ;;
      ns' <~ Done (transform_range ns (ending, ending + snd (sp_off s) - fst (sp_off s)) sub) ;;
      sentence <~ Done (convert_to_string (ns_text sub)) ;;
      ms <~ find_prog sentence trie ;;
      here <~ Done (norm_splits (ns_text sub) ending ms) ;;
      '(ns'', rest) <~ normalize_prog E norm trie ns' (ending + length (ns_text sub)) r ;;
      Done (Ok (ns'', here ++ rest))
    end
  end.

(** added_vocabulary.cpp:248-321 extract_and_normalize *)
Definition extract_prog (E : env) (av : added_vocab) (norm : option normalizer) (seq : wstr) : prog pretok :=
  p <~ Done (new_pretok (new_nstring seq)) ;;
  sentence <~ Done (convert_to_string (ns_text (pt_norm p))) ;;
  ms <~ find_prog sentence (av_trie_raw av) ;;
  raw <~ Done (raw_splits (ns_text (pt_norm p)) ms) ;;
  let splits1 := match raw with [] => pt_splits p | _ => raw end in
  '(ns, splits2) <~ normalize_prog E norm (av_trie_norm av) (pt_norm p) 0 splits1 ;;
  Done (Ok (mkPt ns (match splits2 with [] => splits1 | _ => splits2 end))).

(** tokenizer.cpp:94-102 *)
Definition prepare_prog (E : env) (t : tokenizer) (s : wstr) : prog pretok :=
  p0 <~ Done (new_pretok (new_nstring s)) ;;
  p1 <~ match tz_av t with None => Done (Ok p0) | Some a => extract_prog E a (tz_norm t) s end ;;
  Done (match tz_pre t with Some pt => pre_tokenize E pt p1 | None => Ok p1 end).

(** model.cpp:421-446: one split, with the cache when there is no dropout *)
Definition word_prog (E : env) (b : bpe) (s : bytes) : prog (list token) :=
  if QArith_base.Qeq_bool (b_dropout b) (QArith_base.Qmake 0 1) then
    match (if b_ignore_merges b then sfind s (b_vocab b) else None) with
    | Some i => Done (Ok [mkTok i s (0, 0)])
    | None =>
      Find s (fun o => match o with
        | Some w => Done (word_to_tokens (b_vocab b) 0 w)
        | None => w <~ Done (merge_word E b s) ;; ts <~ Done (word_to_tokens (b_vocab b) 0 w) ;; Insert s w (Done (Ok ts))
        end)
    end
  else Done (w <- merge_word E b s ;; word_to_tokens (b_vocab b) 0 w).

(** model.cpp:438-449 *)
Fixpoint splits_prog (E : env) (b : bpe) (l : list split) : prog (list split) :=
  match l with
  | [] => Done (Ok [])
  | s :: r => ts <~ word_prog E b (sp_text s) ;; rest <~ splits_prog E b r ;; Done (Ok (mkSplit (sp_text s) (sp_off s) ts :: rest))
  end.
(** tokenizer.cpp:167-169; model.cpp:143, 438 *)
Definition model_prog (E : env) (m : option model) (p : pretok) : prog pretok :=
  match m with
  | None => Done (Ok p)
  | Some (MWordPiece w) => Done (wp_tokenize w p)
  | Some (MBpe b _) => l <~ splits_prog E b (pt_splits p) ;; Done (Ok (mkPt (pt_norm p) l))
  end.

(** tokenizer.cpp:92-105 Tokenizer::encode *)
Definition encode_prog (E : env) (fuel : nat) (t : tokenizer) (s : wstr) (add_special : bool) : prog encoding :=
  p <~ prepare_prog E t s ;;
  p' <~ model_prog E (tz_model t) p ;;
  Done (e <- into_encoding p' 0 ;; do_post_process fuel t e add_special).

(** the shared members of a tokenizer, and the tokenizer with other ones *)
(** added_vocabulary.h:50, model.h:113 *)
Definition shared_of (t : tokenizer) : shared :=
  mkSh (match tz_av t with Some a => av_map_r a | None => [] end) (match tz_model t with Some (MBpe _ c) => c | _ => [] end).
(** added_vocabulary.h:50, model.h:113 *)
Definition with_shared (t : tokenizer) (sh : shared) : tokenizer :=
  set_model (set_av t (match tz_av t with Some a => Some (set_map_r a (sh_map_r sh)) | None => None end))
    (match tz_model t with Some (MBpe b _) => Some (MBpe b (sh_cache sh)) | m => m end).

(** A call in progress: what was asked for, and what is left to do. *)
(** one call of Tokenizer::encode (tokenizer.cpp:92-105) *)
Record call := mkCall { c_text : wstr; c_add : bool; c_prog : prog encoding }.

(** Threads: at any moment a new call may start (in any thread, any text and flag among [calls]), or one of the calls in progress makes its next access. *)
(** models no code of its own: the interleavings of calls of tokenizer.cpp:92-105 *)
Inductive step (E : env) (fuel : nat) (t : tokenizer) (calls : wstr -> bool -> Prop) : shared * list call -> shared * list call -> Prop :=
| st_start sh cs s add : calls s add -> step E fuel t calls (sh, cs) (sh, cs ++ [mkCall s add (encode_prog E fuel t s add)])
| st_access sh sh' l c r p : pstep sh (c_prog c) sh' p -> step E fuel t calls (sh, l ++ c :: r) (sh', l ++ mkCall (c_text c) (c_add c) p :: r).
(** the states reachable from a tokenizer nobody is using *)
(** models no code of its own: the states such calls lead to *)
Inductive reachable (E : env) (fuel : nat) (t : tokenizer) (calls : wstr -> bool -> Prop) : shared * list call -> Prop :=
| r_start : reachable E fuel t calls (shared_of t, [])
| r_step x y : reachable E fuel t calls x -> step E fuel t calls x y -> reachable E fuel t calls y.

(** The next access of a call: the member, and whether it is written. operator[] writes when the key is missing. *)
(** added_vocabulary.h:50, model.h:113 *)
Inductive member := AddedTokensMapR | BpeCache.
(** added_vocabulary.cpp:209; model.cpp:428, 434 *)
Definition next_access {A} (sh : shared) (p : prog A) : option (member * bool) :=
  match p with
  | Done _ => None
  | Lookup i _ => Some (AddedTokensMapR, match zfind i (sh_map_r sh) with Some _ => false | None => true end)
  | Find _ _ => Some (BpeCache, false)
  | Insert _ _ _ => Some (BpeCache, true)
  end.
(** Two calls of the pool are both about to access the same member, and one of them to write it. *)
(** a data race in the sense of the C++ standard on added_vocabulary.h:50 or model.h:113 *)
Definition race (x : shared * list call) : Prop :=
  exists i j ci cj m wi wj, i <> j /\ nth_error (snd x) i = Some ci /\ nth_error (snd x) j = Some cj /\
  next_access (fst x) (c_prog ci) = Some (m, wi) /\ next_access (fst x) (c_prog cj) = Some (m, wj) /\ (wi || wj = true).
