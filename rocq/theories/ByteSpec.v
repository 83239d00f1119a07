(** Specification vocabulary for byte-level BPE tokenizers. *)
From Verif Require Import Base Unicode Common PreTokenizer WordPiece Bpe BpeSpec AddedVocab Decoder PostProcessor Tokenizer PreSpec.

(** The pieces the ByteLevel pre-tokenizer makes of a text: cut at apostrophes, or the whole text. *)
Definition byte_pieces (use_regex : bool) (s : wstr) (pieces : list wstr) : Prop :=
  if use_regex then apostrophe_pieces s pieces else pieces = [s].

(** A printable ASCII character, other than the space, that is a token of the vocabulary by itself. *)
Definition keeps (vocab : smap Z) (c : N) : bool :=
  ((33 <=? c) && (c <=? 126))%N && match sfind [c] vocab with Some _ => true | None => false end.

(** The one-byte tokens are ASCII characters, as they must be when the vocabulary comes from a JSON file. *)
Definition ascii_singles (vocab : smap Z) : Prop := forall b i, sfind [b] vocab = Some i -> (b < 128)%N.

(** the byte is a token by itself *)
Definition single (vocab : smap Z) (b : N) : bool := match sfind [b] vocab with Some _ => true | None => false end.

(** A byte-level BPE tokenizer over the vocabulary, in any state it can reach by encoding: ByteLevel pre-tokenizer without prefix space; a BPE model without affixes and
    byte fallback whose unknown token, if one is configured, is not in the vocabulary; no truncation, post-processing or padding. *)
Definition byte_level_bpe (E : env) (t : tokenizer) (vocab : smap Z) (use_regex : bool) : Prop :=
  tz_pre t = Some (TByteLevel false use_regex) /\ tz_trunc t = None /\ tz_post t = None /\ tz_pad t = None /\
  exists merges dropout unk fuse b c, tz_model t = Some (MBpe b c) /\ new_bpe vocab merges dropout unk [] [] fuse false false = Ok b /\ reach_cache E b c /\
    (unk = [] \/ sfind unk vocab = None).
