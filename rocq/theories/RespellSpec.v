(** What decoding the encoding of a text shows (C125). *)
From Verif Require Import Base Unicode Common WordPiece WpSpec RoundSpec.
Import ListNotations.
(** what stands for one word: the word itself if WordPiece can write it, else the unknown token *)
Definition shown (w : wordpiece) (x : wstr) (b : bytes) : Prop := segmentable w x /\ b = utf8_encs x \/ ~ segmentable w x /\ b = wp_unk w.
(** the four marks before which clean-up removes the space *)
Definition close_marks : list N := [46; 63; 33; 44]%N.
Definition no_gap (cleanup : bool) (b : list N) : bool := cleanup && match b with [c] => existsb (N.eqb c) close_marks | _ => false end.
(** the words with one space between neighbours; with clean-up none before a full stop, question mark, exclamation mark or comma *)
Definition gapped (cleanup : bool) (b : list N) : list N := if no_gap cleanup b then b else 32%N :: b.
Definition respelled (cleanup : bool) (l : list (list N)) : list N := match l with [] => [] | x :: r => x ++ flat_map (gapped cleanup) r end.
(** the characters the clean-up rules are about, besides letters *)
Definition cleanup_marks : list N := [46; 63; 33; 44; 39]%N.
(** they are punctuation, as in Unicode; the space is white space *)
Definition marks_ok (space punct : N -> bool) : Prop := space 32%N = true /\ Forall (fun c => punct c = true) cleanup_marks.
(** a text without any of them and without spaces *)
Definition markless (b : bytes) : Prop := Forall (fun c => ~ In c (32%N :: cleanup_marks)) b.
(** The tokenizer cannot be confused by the way words, prefix and unknown token are written. *)
Definition legible (w : wordpiece) (cleanup : bool) (sp pu : N -> bool) (n : wstr) (ws : list wstr) : Prop :=
  (cleanup = true -> marks_ok sp pu /\ markless (wp_unk w)) /\ whole_chars (wp_vocab w) n /\ sfind (wp_unk w) (wp_vocab w) <> None /\
  (forall r, wp_unk w <> wp_prefix w ++ r) /\ Forall (fun x => forall r, utf8_encs x <> wp_prefix w ++ r) ws.


(** ** Special tokens *)
From Verif Require Import Bpe AddedVocab AvSpec HistSpec.
(** the id of a token registered as special *)
Definition special_id (v : smap Z) (ops : list added_token) (av : added_vocab) (i : Z) : Prop := exists x, denotes v av i x /\ registered_special ops x.
(** [l'] is [l] without some of the elements of which [P] holds *)
Inductive some_removed {A} (P : A -> Prop) : list A -> list A -> Prop :=
| sr_nil : some_removed P [] []
| sr_remove x l l' : P x -> some_removed P l l' -> some_removed P (x :: l) l'
| sr_keep x l l' : some_removed P l l' -> some_removed P (x :: l) (x :: l').
