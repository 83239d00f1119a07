(** The words of a text that contains added tokens, for any pre-tokenizer and without the model's matching, cutting and normalizing code. *)
From Verif Require Import Base Unicode Common Normalizer PreTokenizer WordPiece NormSpec PreSpec WpSpec TzSpec RefSpec AddedVocab AvSpec MixSpec CutSpec.

(** [parts tok other pos s l]: the ASCII text [s] standing at position [pos] consists of the words [l]. The tokens in it are found field by field (fields are separated by spaces; the shortest token at the
    beginning of a field, then the shortest token at the beginning of what remains of the field, and so on); they divide the text; every token is a word, and [other] says which words every stretch between
    them, spaces included, consists of. *)
Definition parts (tok : wstr -> Prop) (other : nat -> wstr -> list (nat * wstr) -> Prop) (pos : nat) (s : wstr) (l : list (nat * wstr)) : Prop :=
  exists tokens segs out, fields tok (fun _ _ none => none = []) pos s tokens /\ divided pos s (map (fun p => (fst p, fst p + units (snd p))) tokens) segs /\
    Forall2 (fun q ws => if (snd q : bool) then ws = [fst q] else other (fst (fst q)) (snd (fst q)) ws) segs out /\ l = concat out.

(** The words a pre-tokenizer makes of the stretch [x] at position [pos]. *)
Definition words_at (E : env) (pre : option pre_tokenizer) (pos : nat) (x : wstr) (l : list (nat * wstr)) : Prop :=
  match pre with Some t => cuts_into E t [(pos, x)] l | None => l = [(pos, x)] end.

(** The words of a text: the tokens with normalized = false are found in the text itself; the stretches between them are normalized, letter by letter, by [g]; in each the tokens with normalized = true are
    found; and the stretches between these are cut by the pre-tokenizer. *)
Definition added_words (E : env) (v : smap Z) (ops : list added_token) (g : N -> N) (pre : option pre_tokenizer) : wstr -> list (nat * wstr) -> Prop :=
  parts (takes_part v ops false) (fun pos x l => parts (takes_part v ops true) (words_at E pre) pos (map g x) l) 0.

(** [letterwise E n g]: on printable ASCII the normalizer [n] replaces every character by [g] of it. *)
Fixpoint letterwise (E : env) (n : normalizer) (g : N -> N) {struct n} : Prop :=
  match n with
  | NBert _ _ _ lo => forall c, printable c -> g c = if lo then lower_ascii c else c
  | NForm f => (forall s, Forall printable s -> e_norm E f s = Some s) /\ forall c, printable c -> g c = c
  | NSequence l => (fix go (l : list normalizer) (g : N -> N) : Prop :=
      match l with
      | [] => forall c, printable c -> g c = c
      | q :: r => exists g1 g2, letterwise E q g1 /\ go r g2 /\ forall c, printable c -> g c = g2 (g1 c)
      end) l g
  | _ => False
  end.
Definition letters (E : env) (norm : option normalizer) (g : N -> N) : Prop := match norm with Some n => letterwise E n g | None => forall c, printable c -> g c = c end.

(** Pre-tokenizers that cut ASCII text on every platform: ones that keep the characters, and ByteLevel, which may also come last in a sequence of such. *)
Fixpoint cuts_ascii (E : env) (t : pre_tokenizer) : Prop :=
  match t with
  | TByteLevel aps _ => aps = false
  | TSequence l => (fix go (l : list pre_tokenizer) : Prop := match l with [] => True | [q] => cuts_ascii E q | q :: r => (cuttable E q /\ keeps_characters E q) /\ go r end) l
  | _ => cuttable E t /\ keeps_characters E t
  end.
