(** Specification vocabulary for decoding. *)
From Verif Require Import Base Decoder.

(** WordPiece rule for a token that is not the first: strip the continuation prefix, else put one space in front. *)
Inductive wp_decoded (prefix : bytes) : bytes -> bytes -> Prop :=
| wpd_cont s : wp_decoded prefix (prefix ++ s) s
| wpd_word t : (forall s, t <> prefix ++ s) -> wp_decoded prefix t (32%N :: t).

(** [from] occurs in [s] at position [i]. *)
Definition occurs_at (from s : bytes) (i : nat) : Prop := exists p q, s = p ++ from ++ q /\ length p = i.

(** [r] is [s] with the leftmost non-overlapping occurrences of [from] replaced by [to]. *)
Inductive replaced (from to : bytes) : bytes -> bytes -> Prop :=
| rep_none s : (forall i, ~ occurs_at from s i) -> replaced from to s s
| rep_hit pre post post' :
    (forall i, occurs_at from (pre ++ from ++ post) i -> length pre <= i) ->
    replaced from to post post' ->
    replaced from to (pre ++ from ++ post) (pre ++ to ++ post').

(** A sequence of replacement rules applied one after another. *)
Inductive replaced_all : list (bytes * bytes) -> bytes -> bytes -> Prop :=
| ra_nil s : replaced_all [] s s
| ra_cons from to rules s s' s'' : replaced from to s s' -> replaced_all rules s' s'' -> replaced_all ((from, to) :: rules) s s''.

(** The clean-up rules documented for the WordPiece decoder. *)
Definition documented_cleanup : list (bytes * bytes) :=
  [ (str " .", str "."); (str " ?", str "?"); (str " !", str "!"); (str " ,", str ",");
    (str " ' ", str "'"); (str " n't", str "n't"); (str " 'm", str "'m"); (str " do not", str " don't");
    (str " 's", str "'s"); (str " 've", str "'ve"); (str " 're", str "'re") ].

(** The GPT-2 byte alphabet: printable bytes stand for themselves, the others are numbered from U+0100 in order. *)
Definition gpt2_printable (b : N) : bool :=
  ((0x21 <=? b) && (b <=? 0x7E) || (0xA1 <=? b) && (b <=? 0xAC) || (0xAE <=? b) && (b <=? 0xFF))%N.
Definition gpt2_cp (b : N) : N :=
  if gpt2_printable b then b
  else (256 + N.of_nat (length (filter (fun x => negb (gpt2_printable x)) (map N.of_nat (seq 0 (N.to_nat b))))))%N.

(** The bytes the ByteLevel decoder inverts correctly. *)
Definition decodable_byte (b : N) : bool :=
  ((b <=? 0x7E) || (0xA1 <=? b) && (b <=? 0xAC) || (0xAE <=? b) && (b <=? 0xFF))%N.

(** The decoder is, or contains, one of the kinds Replace, ByteFallback, Fuse and Strip. *)
Fixpoint has_stub (d : decoder) : bool :=
  match d with
  | DReplace _ _ | DByteFallback | DFuse | DStrip _ _ _ => true
  | DWordPiece _ _ | DByteLevel => false
  | DSequence l => (fix any (l : list decoder) : bool := match l with [] => false | q :: r => has_stub q || any r end) l
  end.
