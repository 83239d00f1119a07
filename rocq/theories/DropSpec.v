(** Vocabulary for C110: texts from which clean_text deletes characters. *)
From Verif Require Import Base Unicode Common Normalizer NormSpec.

(** clean_text gets through the text: at most one character is deleted, or the text is ASCII and the deletions, of which the j-th is at position p, satisfy p + 2j + 1 <= length. *)
Definition gets_through (E : env) (s : wstr) : Prop :=
  length (positions (unwanted E) s 0) <= 1 \/
  Forall (fun c => (c < 0x80)%N) s /\ forall j p, nth_error (positions (unwanted E) s 0) j = Some p -> p + 2 * j + 1 <= length s.
(** The other steps find nothing to do in the cleaned text [c] except lower-casing. *)
Definition only_lowered (E : env) (ch st lo : bool) (c n : wstr) : Prop :=
  (ch = true -> Forall (fun x => cjk x = false) c) /\
  (st || lo = true -> e_norm E NFD c = Some c /\ Forall (fun x => e_is_mn E x = false) c) /\
  n = if lo then map (e_towlower E) c else c.
(** Where the characters that are kept stand in the text. *)
Definition kept_at (E : env) (s : wstr) : list nat := positions (fun c => negb (unwanted E c)) s 0.
(** How many characters before position [p] are deleted. *)
Definition deleted_before (E : env) (s : wstr) (p : nat) : nat := length (filter (unwanted E) (firstn p s)).
