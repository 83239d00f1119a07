(** How the pre-tokenizers cut a text into words, written in characters and without the model's splitting code. *)
From Verif Require Import Base Unicode Common PreTokenizer DecSpec PreSpec UnicodeProofs RefSpec ByteSpec.

(** [divided pos x ms segs]: the text [x], which starts at position [pos] (in UTF-16 units), is divided at the matches [ms] of a pattern into the segments [segs]: the
    matches (flag true) and the non-empty stretches before, between and after them (flag false). *)
Inductive divided : nat -> wstr -> list (nat * nat) -> list ((nat * wstr) * bool) -> Prop :=
| dv_end pos : divided pos [] [] []
| dv_rest pos x : x <> [] -> divided pos x [] [((pos, x), false)]
| dv_gap pos x rest a b ms segs : x <> [] -> a = pos + units x -> divided a rest ((a, b) :: ms) segs -> divided pos (x ++ rest) ((a, b) :: ms) (((pos, x), false) :: segs)
| dv_match pos x rest ms segs : divided (pos + units x) rest ms segs -> divided pos (x ++ rest) ((pos, pos + units x) :: ms) (((pos, x), true) :: segs).

(** The pieces Split makes of one word: cut at the matches the engine finds in it; Removed drops the matches. *)
Definition split_word (E : env) (pat : bytes) (b : behavior) (p : nat * wstr) (ps : list (nat * wstr)) : Prop :=
  exists ms segs, regex_matches E pat (flat_map utf16_enc (snd p)) = Ok ms /\ divided 0 (snd p) ms segs /\
  ps = map (fun q => (fst p + fst (fst q), snd (fst q))) (match b with ISOLATED => segs | REMOVED => filter (fun q => negb (snd q)) segs end).

(** Consecutive words from a position on. *)
Fixpoint place (pos : nat) (l : list wstr) : list (nat * wstr) := match l with [] => [] | w :: r => (pos, w) :: place (pos + units w) r end.

(** The pieces ByteLevel (without prefix space) makes of one word: cut at apostrophes on request, every byte replaced by its character. *)
Definition byte_word (E : env) (rx : bool) (p : nat * wstr) (ps : list (nat * wstr)) : Prop :=
  (e_char_signed E = false \/ ascii (snd p)) /\
  exists pieces, byte_pieces rx (snd p) pieces /\ ps = map (fun q => (fst q, map gpt2_cp (utf8_encs (snd q)))) (place (fst p) pieces).

(** [cuts_into E t l l']: the pre-tokenizer turns the words [l] into the words [l'], each word on its own. *)
Definition each (R : nat * wstr -> list (nat * wstr) -> Prop) (l l' : list (nat * wstr)) : Prop := exists out, Forall2 R l out /\ l' = concat out.
Fixpoint cuts_into (E : env) (t : pre_tokenizer) (l l' : list (nat * wstr)) {struct t} : Prop :=
  match t with
  | TBert => each (fun p ps => bert_split (e_u_space E) (e_u_punct E) (fst p) (snd p) ps) l l'
  | TSplit pat b _ => each (split_word E pat b) l l'
  | TByteLevel true _ => False
  | TByteLevel false rx => each (byte_word E rx) l l'
  | TSequence ts => (fix go (ts : list pre_tokenizer) (l : list (nat * wstr)) : Prop :=
      match ts with [] => l' = l | q :: r => exists m, cuts_into E q l m /\ go r m end) ts l
  end.
Definition words_of (E : env) (pre : option pre_tokenizer) (n : wstr) (l : list (nat * wstr)) : Prop :=
  match pre with Some t => cuts_into E t [(0, n)] l | None => l = [(0, n)] end.

(** Pre-tokenizers that can cut every text: the engine compiles the patterns and returns proper matches, and ByteLevel runs where char is unsigned. *)
Fixpoint cuttable (E : env) (t : pre_tokenizer) : Prop :=
  match t with
  | TBert => True
  | TSplit pat _ _ => forall cs, forallb valid_cp cs = true -> engine_ok E pat (flat_map utf16_enc cs)
  | TByteLevel aps _ => aps = false /\ e_char_signed E = false
  | TSequence l => (fix go (l : list pre_tokenizer) : Prop := match l with [] => True | q :: r => cuttable E q /\ go r end) l
  end.
(** Pre-tokenizers that keep the characters, whose patterns do not match the empty string in a non-empty text. *)
Fixpoint keeps_characters (E : env) (t : pre_tokenizer) : Prop :=
  match t with
  | TBert => True
  | TSplit pat _ _ => forall cs ms, regex_matches E pat (flat_map utf16_enc cs) = Ok ms -> Forall (fun m => fst m < snd m) ms
  | TByteLevel _ _ => False
  | TSequence l => (fix go (l : list pre_tokenizer) : Prop := match l with [] => True | q :: r => keeps_characters E q /\ go r end) l
  end.
