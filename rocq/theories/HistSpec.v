(** Specification vocabulary for decode and for histories of API calls. *)
From Verif Require Import Base Unicode Common Utils PostProcessor Decoder Normalizer PreTokenizer WordPiece Bpe AddedVocab Tokenizer AvSpec.

(** The text an id stands for: the added token with that id; if there is none, the token of the model's vocabulary with that id. *)
Definition denotes (v : smap Z) (av : added_vocab) (i : Z) (text : bytes) : Prop :=
  assigned av text = Some i \/ ((forall t, assigned av t <> Some i) /\ In (text, i) v).

(** A token text that was registered as special by one of the tokens [ops] given to the tokenizer. *)
Definition registered_special (ops : list added_token) (text : bytes) : Prop :=
  text <> [] /\ exists tok, In tok ops /\ at_special tok = true /\ at_content tok = text.

(** [kept] is [l] without the elements satisfying [drop], in the same order. *)
Inductive without {A} (drop : A -> Prop) : list A -> list A -> Prop :=
| wo_nil : without drop [] []
| wo_drop x l k : drop x -> without drop l k -> without drop (x :: l) k
| wo_keep x l k : ~ drop x -> without drop l k -> without drop (x :: l) (x :: k).

(** ** Histories of calls *)
Inductive call :=
| CallEncode (text : wstr) (add_special : bool)
| CallDecode (ids : list Z) (skip_special : bool)
| CallAddTokens (l : list added_token)
| CallAddSpecialTokens (l : list added_token).
Inductive answer := AnsEncoding (r : res encoding) | AnsText (r : res bytes) | AnsCount (r : res Z).

(** One call: the tokenizer afterwards and what the caller gets. A failing addition leaves the tokenizer as it was. *)
Definition adding (t : tokenizer) (r : res (tokenizer * Z)) : tokenizer * answer :=
  match r with
  | Ok (t', n) => (t', AnsCount (Ok n))
  | Throw e => (t, AnsCount (Throw e))
  | Undef u => (t, AnsCount (Undef u))
  | Diverge => (t, AnsCount Diverge)
  end.
Definition do_call (E : env) (fuel : nat) (t : tokenizer) (c : call) : tokenizer * answer :=
  match c with
  | CallEncode s b => let '(t', r) := encode E fuel t s b in (t', AnsEncoding r)
  | CallDecode ids b => (t, AnsText (decode t ids b))
  | CallAddTokens l => adding t (add_tokens false t l)
  | CallAddSpecialTokens l => adding t (add_special_tokens false t l)
  end.
Definition after (E : env) (fuel : nat) (t : tokenizer) (h : list call) : tokenizer := fold_left (fun t c => fst (do_call E fuel t c)) h t.
Definition reply (E : env) (fuel : nat) (t : tokenizer) (c : call) : answer := snd (do_call E fuel t c).

(** the calls of a history that add tokens *)
Definition adds (c : call) : bool := match c with CallAddTokens _ | CallAddSpecialTokens _ => true | _ => false end.

(** A tokenizer as its constructor leaves it: [t0] is what was read from the configuration (its added tokens not yet registered), the cache of a BPE
    model is empty. *)
Definition constructed (t : tokenizer) : Prop := exists t0,
  (forall a, tz_av t0 = Some a -> exists l, a = new_added_vocab l) /\
  (forall b c, tz_model t0 = Some (MBpe b c) -> c = []) /\
  finish_construction t0 = Ok t.

(** the vocabulary of the tokenizer's model, empty if it has no model *)
Definition tz_vocab (t : tokenizer) : smap Z := match tz_model t with Some m => model_vocab m | None => [] end.

(** the tokens a history gives to the tokenizer, in order *)
Definition given (h : list call) : list added_token := flat_map (fun c => match c with CallAddTokens l | CallAddSpecialTokens l => l | _ => [] end) h.
