(** Normalizers that rewrite the text and leave the alignment table alone, described on texts only. *)
From Verif Require Import Base Unicode Common Normalizer NormSpec DropSpec.
Import ListNotations.

(** What Strip takes for white space: a character whose low byte is one of the six ASCII white-space characters. *)
Definition strips (c : N) : Prop := ((c mod 256 = 32) \/ (9 <= c mod 256 <= 13))%N.

(** [settled E f s n]: the normalizer [f] makes [n] out of [s] without inserting or moving anything.
    - Strip cuts white space off the ends; StripAccents drops U+0300..U+036F;
    - a Unicode form finds the text already in that form;
    - BertNormalizer finds nothing to delete, pad or strip, and may change case and turn white space into U+0020;
    - a Sequence does what its members do in turn. *)
Inductive settled (E : env) : normalizer -> wstr -> wstr -> Prop :=
| se_strip l r s n : stripped (fun c => space_letter (c mod 256)%N) l r s n -> settled E (NStrip l r) s n
| se_accents s : settled E NStripAccents s (filter (fun c => negb ((0x300 <=? c) && (c <=? 0x36F))%N) s)
| se_form f s : forallb valid_cp s = true -> e_norm E f s = Some s -> settled E (NForm f) s s
| se_bert cl ch st lo s m n : forallb valid_cp m = true -> (cl = true -> Forall (fun c => unwanted E c = false) s) -> m = (if cl then map (fun c => if blank E c then 32%N else c) s else s) ->
    only_lowered E ch st lo m n -> settled E (NBert cl ch st lo) s n
| se_nil s : settled E (NSequence []) s s
| se_cons f l s m n : settled E f s m -> settled E (NSequence l) m n -> settled E (NSequence (f :: l)) s n.
