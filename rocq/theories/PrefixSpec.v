(** Tokenizers whose pre-tokenizer is, or begins with, ByteLevel with add_prefix_space (the RoBERTa style). *)
From Verif Require Import Base Unicode Common Normalizer PreTokenizer AddedVocab Tokenizer NormSpec PreSpec WpSpec TzSpec RefSpec AvSpec HistSpec MixSpec CutSpec PartsSpec.

(** ByteLevel with add_prefix_space comes first; [rest] follows it. *)
Inductive prefixing (rx : bool) : list pre_tokenizer -> pre_tokenizer -> Prop :=
| pf_alone : prefixing rx [] (TByteLevel true rx)
| pf_first rest : prefixing rx rest (TSequence (TByteLevel true rx :: rest)).
(** No ByteLevel with add_prefix_space in it. *)
Fixpoint no_prefix (t : pre_tokenizer) : Prop :=
  match t with
  | TByteLevel aps _ => aps = false
  | TSequence l => (fix go (l : list pre_tokenizer) : Prop := match l with [] => True | q :: r => no_prefix q /\ go r end) l
  | _ => True
  end.

(** The same tokenizer with another pre-tokenizer, and without normalizer and added tokens. *)
Definition with_pre (t : tokenizer) (p : pre_tokenizer) : tokenizer := mkTz (tz_trunc t) (tz_pad t) (tz_av t) (tz_norm t) (Some p) (tz_model t) (tz_dec t) (tz_post t).
Definition unprepared (t : tokenizer) : tokenizer := mkTz (tz_trunc t) (tz_pad t) None None (tz_pre t) (tz_model t) (tz_dec t) (tz_post t).

(** What comes before the pre-tokenizer leaves the positions alone: either no added token occurs in the text and it is normalized in place (see C95), or the text is printable ASCII, it is normalized letter by
    letter, and simple added tokens occur anywhere in it (see C121). *)
Definition keeps_positions (E : env) (t : tokenizer) (s : wstr) : Prop :=
  (exists n, forallb valid_cp n = true /\ normalized_in_place E t s n) \/
  (ascii_env E /\ Forall printable s /\ exists av v ops g, tz_av t = Some av /\ dense v /\ v <> [] /\ history v ops av /\ Forall simple_token ops /\ one_flag ops /\ letters E (tz_norm t) g).

(** The words of the text with a space in front. *)
Definition prefixed_words (E : env) (rx : bool) (rest : list pre_tokenizer) (s : wstr) (l : list (nat * wstr)) : Prop := cuts_into E (TSequence (TByteLevel false rx :: rest)) [(0, 32%N :: s)] l.
(** Where encode says that the words are: one position to the left of where they are in the text with the space, but the first one, which starts with the space, stays at 0. *)
Definition reported (l : list (nat * wstr)) : list (nat * wstr) := map (fun p => (fst p - 1, snd p)) l.
