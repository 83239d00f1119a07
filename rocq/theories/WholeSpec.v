(** Vocabulary for C135: what a BERT normalizer, with any of its switches, makes of any text: deletions, padding and decomposition together. [deletions_fit], [cleaned], [spaced] and [cjk_seen] are in NormSpec.v,
    [unit_bytes], [changed] and [entry_sizes] in FormSpec.v, [marks_fit], [kept_entries] and [place] in UncasedSpec.v, [doomed], [bytes_left], [units_of_bytes] and [ranked] in EraseSpec.v. *)
From Verif Require Import Base Unicode Common Normalizer NormSpec AccentSpec FormSpec UncasedSpec EraseSpec.
Import ListNotations.

(** The text after the clean-up and the numbers of the characters deleted. *)
Definition text_left (E : env) (cl : bool) (s : wstr) : wstr := if cl then cleaned E s else s.
Definition numbers_gone (E : env) (cl : bool) (s : wstr) : list nat := if cl then doomed E s else [].
(** What is left of a list of entries: every deletion takes out, of what is left, the one with the number the character has in the original text. *)
Definition left_of {A} (l : list A) (ps : list nat) : list A := fold_left (fun l p => firstn p l ++ skipn (S p) l) ps l.
(** The byte every entry starts at in the original text. *)
Definition starts (z : list nat) : list nat := map (fun k => list_sum (firstn k z)) (seq 0 (length z)).

(** Padding from the first padded character on: entry by entry; a padded character's entry gets an entry of one byte before and behind it, and the first of its bytes is there three times. If it has no byte there is nothing to copy. *)
Fixpoint pad_walk {A} (f : N -> bool) (m : wstr) (z : list nat) (bytes : list A) : option (list nat * list A) :=
  match m, z with
  | c :: m', n :: z' =>
    if f c then match bytes with
                | [] => None
                | b :: _ => match pad_walk f m' z' (skipn n bytes) with Some (s, bs) => Some (1 :: n :: 1 :: s, b :: b :: firstn n bytes ++ bs) | None => None end
                end
    else match pad_walk f m' z' (skipn n bytes) with Some (s, bs) => Some (n :: s, firstn n bytes ++ bs) | None => None end
  | _, _ => Some (z, bytes)
  end.
Fixpoint first_such (f : N -> bool) (m : wstr) : option nat := match m with [] => None | c :: r => if f c then Some 0 else option_map S (first_such f r) end.
(** The padding: the bytes are counted from where the entry of the first padded character starts in the original text. [st] are the starts, [z] the sizes. *)
Definition pad_table {A} (f : N -> bool) (m : wstr) (st z : list nat) (bytes : list A) : option (list nat * list A) :=
  match first_such f m with
  | None => Some (z, bytes)
  | Some i => match pad_walk f (skipn i m) (skipn i z) (skipn (nth i st 0) bytes) with Some (s, bs) => Some (firstn i z ++ s, firstn (nth i st 0) bytes ++ bs) | None => None end
  end.
Definition is_padded (ch : bool) (c : N) : bool := ch && cjk_seen c.

(** After clean-up and padding: the text, and the entries with the bytes (none if a deletion or a padding has nothing to work on). *)
Definition text_padded (E : env) (cl ch : bool) (s : wstr) : wstr := spaced (is_padded ch) (text_left E cl s).
Definition table_padded (E : env) (cl ch : bool) (s : wstr) (z bytes : list nat) : Prop :=
  let u := unit_bytes s in let ps := numbers_gone E cl s in deletions_fit u 0 0 ps /\
  pad_table (is_padded ch) (text_left E cl s) (left_of (starts u) ps) (left_of u ps) (bytes_left u 0 ps (units_of_bytes u 0)) = Some (z, bytes).
(** The result [n], the bytes [e] counted for each of its positions, and the unit reported for every byte; the bytes of the last unit of the original text are there once more. *)
Definition bert_made (E : env) (cl ch st lo : bool) (s n : wstr) (e bytes : list nat) : Prop :=
  let p := text_padded E cl ch s in let u := unit_bytes s in exists z b, table_padded E cl ch s z b /\ bytes = ranked b ++ repeat (length u - 1) (last u 0) /\
  if st || lo then exists r, e_norm E NFD p = Some r /\ marks_fit (e_is_mn E) r (entry_sizes z (changed p r)) /\
    n = (let kept := filter (fun c => negb (e_is_mn E c)) r in if lo then map (e_towlower E) kept else kept) /\ e = kept_entries (e_is_mn E) r (entry_sizes z (changed p r))
  else n = p /\ e = z.
(** The clean-up or the padding has nothing to work on, or a mark stands beyond the entries. *)
Definition bert_breaks (E : env) (cl ch st lo : bool) (s : wstr) : Prop :=
  (forall z b, ~ table_padded E cl ch s z b) \/
  (exists z b r, table_padded E cl ch s z b /\ st || lo = true /\ e_norm E NFD (text_padded E cl ch s) = Some r /\ ~ marks_fit (e_is_mn E) r (entry_sizes z (changed (text_padded E cl ch s) r))).
