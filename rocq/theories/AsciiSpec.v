(** Vocabulary for C107: vocabularies whose texts are UTF-8, as all that come from a configuration file are. *)
From Verif Require Import Base Unicode Common WordPiece.

(** Every text of the vocabulary is the UTF-8 form of some characters. *)
Definition utf8_texts (vocab : smap Z) : Prop := forall k i, In (k, i) vocab -> exists cs, forallb valid_cp cs = true /\ k = utf8_encs cs.
(** Bytes below 128: plain ASCII. *)
Definition plain (k : bytes) : Prop := Forall (fun x => (x < 128)%N) k.
