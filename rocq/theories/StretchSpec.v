(** The parts of a text with added tokens that are normalized. *)
From Verif Require Import Base Unicode Common Normalizer PreTokenizer WordPiece AddedVocab NormSpec PreSpec CutSpec AvSpec MixSpec PartsSpec TextsSpec.
Import ListNotations.

(** [x] is one of the stretches of the text [s] before, between and after the tokens with normalized = false. *)
Definition token_stretch (v : smap Z) (ops : list added_token) (s x : wstr) : Prop :=
  exists tokens segs pos, fields (takes_part v ops false) (fun _ _ none => none = []) 0 s tokens /\
    divided 0 s (map (fun p => (fst p, fst p + units (snd p))) tokens) segs /\ In ((pos, x), false) segs.
