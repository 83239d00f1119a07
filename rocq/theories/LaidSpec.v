(** The words of a text in which added tokens may occur, with their positions, for normalizers that put one text in place of another; written without the model's tables, matching and splitting code. *)
From Verif Require Import Base Unicode Common Normalizer PreTokenizer WordPiece AddedVocab NormSpec PreSpec CutSpec AvSpec MixSpec PartsSpec.

(** [in_place E q x n]: the normalizer [q] makes [n] of [x] without inserting, splitting or deleting through the tables of its argument. Strip and StripAccents do so with every text; the BERT normalizer with a
    text in which there is nothing to remove, no ideograph to space and nothing to decompose, so that it only replaces white space by spaces and letters by lower-case ones; a normalization form with a text
    that already is in this form. *)
Fixpoint in_place (E : env) (q : normalizer) (x n : wstr) {struct q} : Prop :=
  match q with
  | NBert cl ch st lo =>
    let y := if cl then map (fun c => if blank E c then 32%N else c) x else x in
    (cl = true -> Forall (fun c => unwanted E c = false) x) /\ (ch = true -> Forall (fun c => cjk_seen c = false) y) /\
    (st || lo = true -> e_norm E NFD (map repaired y) = Some y /\ Forall (fun c => e_is_mn E c = false) y) /\
    n = if lo then map (e_towlower E) y else y
  | NForm f => e_norm E f (map repaired x) = Some x /\ n = x
  | NStrip l r => stripped (fun c => space_letter (c mod 256)%N) l r x n
  | NStripAccents => n = filter (fun c => negb ((0x300 <=? c) && (c <=? 0x36F))%N) x
  | NSequence l => (fix go (l : list normalizer) (x : wstr) : Prop :=
      match l with [] => n = x | q :: r => exists y, in_place E q x y /\ go r y end) l x
  | NPrepend _ | NReplace _ _ => False
  end.
Definition in_place_to (E : env) (norm : option normalizer) (x n : wstr) : Prop := match norm with Some q => in_place E q x n | None => n = x end.
(** Every stretch of the text is normalized in place, to a text of the basic plane. *)
Definition works_in_place (E : env) (norm : option normalizer) (s : wstr) : Prop :=
  forall a x b, s = a ++ x ++ b -> x <> [] -> exists n, in_place_to E norm x n /\ bmp n /\ forallb valid_cp n = true.

(** [laid … pos segs l]: the segments [segs] of a text - tokens with normalized = false (flag true) and the stretches between them (flag false) - are laid one after the other from position [pos] on, the
    tokens as they are and the stretches normalized, and consist of the words [l]: every token is a word; in a normalized stretch the tokens with normalized = true are words, and what is between these is
    cut by the pre-tokenizer. *)
Inductive laid (E : env) (v : smap Z) (ops : list added_token) (norm : option normalizer) (pre : option pre_tokenizer) : nat -> list ((nat * wstr) * bool) -> list (nat * wstr) -> Prop :=
| laid_none pos : laid E v ops norm pre pos [] []
| laid_token pos o x segs l : laid E v ops norm pre (pos + length x) segs l -> laid E v ops norm pre pos (((o, x), true) :: segs) ((pos, x) :: l)
| laid_stretch pos o x n segs l l' : in_place_to E norm x n -> parts (takes_part v ops true) (words_at E pre) pos n l -> laid E v ops norm pre (pos + length n) segs l' ->
    laid E v ops norm pre pos (((o, x), false) :: segs) (l ++ l').

(** The words of the text [s] with their positions. If there is no token in the text and nothing is left of it, the text itself is cut. *)
Definition laid_words (E : env) (v : smap Z) (ops : list added_token) (norm : option normalizer) (pre : option pre_tokenizer) (s : wstr) (l : list (nat * wstr)) : Prop :=
  exists tokens segs, fields (takes_part v ops false) (fun _ _ none => none = []) 0 s tokens /\ divided 0 s (map (fun p => (fst p, fst p + units (snd p))) tokens) segs /\
    let nothing := tokens = [] /\ in_place_to E norm s [] in
    (nothing /\ words_at E pre 0 s l) \/ (~ nothing /\ laid E v ops norm pre 0 segs l).

(** The word [x] at position [p] of the text [s] stands for the characters at this position: it is part of the normalized stretch around them, as far into it as they are into the stretch; or it is a token of
    the text itself. *)
Definition stands_there (E : env) (norm : option normalizer) (s : wstr) (w : nat * wstr) : Prop :=
  exists a y b n c d, s = a ++ y ++ b /\ (n = y \/ in_place_to E norm y n) /\ length n = length y /\ n = c ++ snd w ++ d /\ fst w = length a + length c.
