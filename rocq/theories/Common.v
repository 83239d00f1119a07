(** src/common.cpp, include/tokenizers/common.h *)
From Verif Require Import Base Unicode.

(** include/tokenizers/common.h:12-29 class Encoding. Offsets and word indices are never negative in the code
    modelled here and are kept as nat. *)
Inductive encoding := mkEnc {
  en_ids : list Z;
  en_type_ids : list Z;
  en_tokens : list bytes;
  en_words : list (option nat);
  en_offsets : list (nat * nat);
  en_smask : list Z;
  en_amask : list Z;
  en_overflowing : list encoding
}.

(** src/common.cpp:35-42 Encoding::Encoding() *)
Definition empty_enc : encoding := mkEnc [] [] [] [] [] [] [] [].

(** include/tokenizers/common.h:31-38 class Token *)
Record token := mkTok { tk_id : Z; tk_value : bytes; tk_off : nat * nat }.

(** include/tokenizers/common.h:45-52 class Split *)
Record split := mkSplit { sp_text : bytes; sp_off : nat * nat; sp_tokens : list token }.

(** include/tokenizers/common.h:40 and src/common.cpp:22-28 get_split_delimiter_behavior *)
Inductive behavior := REMOVED | ISOLATED.
(** common.cpp:22-28 get_split_delimiter_behavior *)
Definition get_split_delimiter_behavior (b : bytes) : behavior :=
  if leqb b (str "Isolated") then ISOLATED else REMOVED.

(** src/common.cpp:72-80 the bytes that stand for themselves *)
Definition printable_byte (b : N) : bool :=
  ((0x21 <=? b) && (b <=? 0x7E) || (0xA1 <=? b) && (b <=? 0xAC) || (0xAE <=? b) && (b <=? 0xFF))%N.

(** common.cpp:81-91: the loop over all byte values *)
Definition byte_range : list N := map N.of_nat (seq 0 256).

(** src/common.cpp:81-91: printable bytes first, then the others numbered from 256 upwards in ascending order. *)
Definition byte_table : list (N * N) :=
  let bs := filter printable_byte byte_range in
  let rest := filter (fun b => negb (printable_byte b)) byte_range in
  map (fun b => (b, b)) bs ++ combine rest (map (fun n => 256 + N.of_nat n)%N (seq 0 (length rest))).

(** std::unordered_map::at / find with an integer key (BYTES_CHAR: post_processor.cpp:219, 228, pre_tokenizer.cpp:268) *)
Fixpoint nfind {V} (k : N) (m : list (N * V)) : option V :=
  match m with
  | [] => None
  | (k', v) :: r => if N.eqb k k' then Some v else nfind k r
  end.

(** src/common.cpp:69-110 bytes_char: byte -> UTF-8 text of its character. All code points are below 0x10000. *)
Definition bytes_char : list (N * bytes) := map (fun p => (fst p, utf8_enc (snd p))) byte_table.
