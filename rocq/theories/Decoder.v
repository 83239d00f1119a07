(** src/decoder.cpp, include/tokenizers/decoder.h *)
From Verif Require Import Base Unicode Common.

(** decoder.h: the concrete decoders *)
(** decoder.h:37-104, the subclasses of Decoder *)
Inductive decoder :=
| DWordPiece (prefix : bytes) (cleanup : bool)
| DReplace (pattern content : bytes)
| DByteFallback
| DFuse
| DStrip (content : bytes) (start stop : Z)
| DSequence (l : list decoder)
| DByteLevel.

(** std::string::find(p, start): first position >= start where p occurs *)
(** decoder.cpp:110: input.find(from, start), searching from the beginning *)
Fixpoint find_sub (p s : bytes) : option nat :=
  if is_prefix p s then Some 0
  else match s with
       | [] => None
       | _ :: r => match find_sub p r with Some i => Some (S i) | None => None end
       end.
(** decoder.cpp:110: input.find(from, start); nothing is found beyond the end *)
Definition find_from (s p : bytes) (start : nat) : option nat :=
  if start <=? length s then
    match find_sub p (skipn start s) with Some i => Some (start + i) | None => None end
  else None.

(** decoder.cpp:108-115 replace; positions are ints, int overflow not modelled *)
Fixpoint replace_loop (fuel : nat) (input from to : bytes) (start : nat) : res bytes :=
  match fuel with
  | O => Diverge
  | S f =>
    match find_from input from start with
    | None => Ok input
    | Some i =>
      replace_loop f (firstn i input ++ to ++ skipn (i + length from) input) from to (i + length to)
    end
  end.
(** decoder.cpp:108-115 replace; every round moves [start] on or shortens the text, so the length is enough fuel (C19) *)
Definition replace (input from to : bytes) : res bytes := replace_loop (S (length input)) input from to 0.

(** decoder.cpp:117-130: the rules, in order *)
Definition cleanup_rules : list (bytes * bytes) :=
  [ (str " .", str "."); (str " ?", str "?"); (str " !", str "!"); (str " ,", str ",");
    (str " ' ", str "'"); (str " n't", str "n't"); (str " 'm", str "'m"); (str " do not", str " don't");
    (str " 's", str "'s"); (str " 've", str "'ve"); (str " 're", str "'re") ].

(** decoder.cpp:117-130 cleanup_token *)
Definition cleanup_token (input : bytes) : res bytes :=
  foldM (fun s r => replace s (fst r) (snd r)) input cleanup_rules.

(** decoder.cpp:136-147: one token of WordPieceDecoder::decode_chain.
    [token.find(prefix) == 0] is "starts with prefix". *)
(** decoder.cpp:136-147 *)
Definition wp_decode_one (prefix : bytes) (cleanup first : bool) (t : bytes) : res bytes :=
  let t' := if first then t
            else if is_prefix prefix t then skipn (length prefix) t else 32%N :: t in
  if cleanup then cleanup_token t' else Ok t'.

(** decoder.cpp:132-150 WordPieceDecoder::decode_chain *)
Definition wp_decode (prefix : bytes) (cleanup : bool) (tokens : list bytes) : res (list bytes) :=
  match tokens with
  | [] => Ok []
  | t :: r =>
    t' <- wp_decode_one prefix cleanup true t ;;
    r' <- mapM (wp_decode_one prefix cleanup false) r ;;
    Ok (t' :: r')
  end.

(** decoder.cpp:194-199 CHAR_BYTES, the inverse of bytes_char (its values are pairwise different, so the
    iteration order of the map does not matter) *)
Definition char_bytes : smap N := map (fun p => (snd p, fst p)) bytes_char.

(** decoder.cpp:207-213: std::string(1, ch) keeps only the low byte of the code point; so does
    result.push_back(ch). *)
Definition byte_level_char (ch : N) : N :=
  match sfind [N.modulo ch 256] char_bytes with
  | Some b => b
  | None => N.modulo ch 256
  end.

(** decoder.cpp:201-218 ByteLevelDecoder::decode_chain *)
Definition byte_level_decode (tokens : list bytes) : list bytes :=
  [ flat_map (fun t => let u := from_utf8 t in
                       map (fun i => byte_level_char (char32_at u i)) (seq 0 (length u))) tokens ].

(** decoder.cpp:132-218, virtual dispatch of decode_chain; Replace, ByteFallback, Fuse and Strip return an
    empty vector (156-159, 163-166, 170-173, 178-181); Sequence is 186-192. *)
Fixpoint decode_chain (d : decoder) (tokens : list bytes) {struct d} : res (list bytes) :=
  match d with
  | DWordPiece prefix cleanup => wp_decode prefix cleanup tokens
  | DReplace _ _ | DByteFallback | DFuse | DStrip _ _ _ => Ok []
  | DByteLevel => Ok (byte_level_decode tokens)
  | DSequence l =>
    (fix go (l : list decoder) (t : list bytes) : res (list bytes) :=
       match l with
       | [] => Ok t
       | q :: r => t' <- decode_chain q t ;; go r t'
       end) l tokens
  end.
