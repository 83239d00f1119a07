(** Vocabularies with more entries. *)
From Verif Require Import Base Unicode Common WordPiece.
Import ListNotations.
(** [v'] has the entries of [v], with the same ids, and perhaps others *)
Definition extends (v v' : smap Z) : Prop := forall x i, sfind x v = Some i -> sfind x v' = Some i.
(** the same WordPiece model with more entries *)
Definition more_entries (w w' : wordpiece) : Prop := wp_unk w' = wp_unk w /\ wp_max w' = wp_max w /\ wp_prefix w' = wp_prefix w /\ extends (wp_vocab w) (wp_vocab w').
(** tokens that are entries of [w], the unknown token excepted *)
Definition settled (w : wordpiece) (tokens : list bytes) : Prop := Forall (fun x => x <> wp_unk w /\ exists i, sfind x (wp_vocab w) = Some i) tokens.

(** entries on which two WordPiece models differ: [x] is looked up at the start of a word, [prefix ++ z] inside a word *)
From Verif Require Import Normalizer AddedVocab RelevSpec.
Definition differ_on (v v' : smap Z) (x : bytes) : Prop := sfind x v' <> sfind x v.
(** the entries on which the two models differ stand nowhere in the text, neither whole nor without the continuation prefix *)
Definition irrelevant_entries (E : env) (norm : option normalizer) (s : wstr) (w w' : wordpiece) : Prop :=
  wp_unk w' = wp_unk w /\ wp_max w' = wp_max w /\ wp_prefix w' = wp_prefix w /\ sfind (wp_unk w) (wp_vocab w') = sfind (wp_unk w) (wp_vocab w) /\
  forall x, differ_on (wp_vocab w) (wp_vocab w') x -> (x <> [] -> absent E norm s x) /\ (forall z, z <> [] -> x = wp_prefix w ++ z -> absent E norm s z).
