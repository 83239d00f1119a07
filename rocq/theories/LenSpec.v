(** Specification vocabulary: how many positions encode's stages produce. *)
From Verif Require Import Base Common Utils PostProcessor Tokenizer Spec.

(** Number of positions after truncating an encoding of [n] positions: max_length when truncation is active (Spec.v), else all. *)
Definition kept_length (t : option truncation) (n k : nat) : Prop :=
  match t with
  | None => k = n
  | Some tr => (truncation_active tr n -> Z.of_nat k = t_max tr) /\ (~ truncation_active tr n -> k = n)
  end.

(** Number of positions a template piece contributes: the text for a Sequence piece, the declared ids for a SpecialToken piece (only if special tokens are
    asked for), nothing otherwise. *)
Definition piece_length (specials : list special_token) (add : bool) (n : nat) (p : piece) : nat :=
  if leqb (pc_kind p) (str "Sequence") then n
  else if leqb (pc_kind p) (str "SpecialToken") && add then
    match find (fun s => leqb (st_id s) (pc_id p)) specials with Some s => length (st_ids s) | None => 0 end
  else 0.
(** Number of positions a post-processor makes of [n]. *)
Fixpoint post_length (p : post_processor) (add : bool) (n : nat) : nat :=
  match p with
  | PTemplate single specials => list_sum (map (piece_length specials add n) single)
  | PByteLevel _ _ => n
  | PSequence l => (fix go (l : list post_processor) (n : nat) : nat := match l with [] => n | q :: r => go r (post_length q add n) end) l n
  end.
Definition tz_post_length (t : tokenizer) (add : bool) (n : nat) : nat := match tz_post t with Some p => post_length p add n | None => n end.

(** Number of positions after padding [n] positions. *)
Definition padded_length (t : tokenizer) (n k : nat) : Prop :=
  match tz_pad t with
  | None => k = n
  | Some p => match p_dir p with PUnknown => k = n | _ => exists target, is_pad_target p n target /\ k = Nat.max n target end
  end.

(** Some component of the post-processor is a template. *)
Fixpoint has_template (p : post_processor) : bool :=
  match p with
  | PTemplate _ _ => true
  | PByteLevel _ _ => false
  | PSequence l => (fix any (l : list post_processor) : bool := match l with [] => false | q :: r => has_template q || any r end) l
  end.

(** The numbers involved fit in a C++ int. *)
Definition int_config (t : tokenizer) : Prop :=
  (forall tr, tz_trunc t = Some tr -> int32 (t_max tr)) /\ (forall p, tz_pad t = Some p -> int32 (p_multiple p) /\ int32 (p_fixed p)).

(** The overflowing parts of [r] are those of [ov], padded to a common length if padding is configured. *)
Definition padded_over (t : tokenizer) (ov : list encoding) (r : encoding) : Prop :=
  match tz_pad t with None => en_overflowing r = ov | Some p => exists target, Forall2 (padded target p) ov (en_overflowing r) end.
