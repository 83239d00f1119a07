(** Vocabulary for C133: what a BERT normalizer makes of any text without characters to delete (no restriction to the basic plane or to short decompositions), and where the words of
    the result are reported. [whitened] is in BertSpec.v, [unit_bytes], [changed] and [entry_sizes] in FormSpec.v, [spaced] and [cjk_seen] in NormSpec.v. *)
From Verif Require Import Base Unicode Common Normalizer NormSpec AccentSpec BertSpec FormSpec.
Import ListNotations.

(** The units of the text, numbered from [k], with their bytes: when the character with the same number is to be padded, the unit gets one byte before and one behind (so the numbers agree only as
    long as all characters are single units). *)
Fixpoint pad_units (f : N -> bool) (m : wstr) (z : list nat) (k : nat) : list (nat * nat) :=
  match z with
  | [] => []
  | n :: z' => match m with [] => (k, n) :: pad_units f [] z' (S k) | c :: m' => (if f c then [(k, 1); (k, n); (k, 1)] else [(k, n)]) ++ pad_units f m' z' (S k) end
  end.
(** The entries left when the ones standing where [r] has marks are taken out. *)
Fixpoint kept_entries (mark : N -> bool) (r : wstr) (e : list nat) : list nat :=
  match r, e with c :: r', n :: e' => if mark c then kept_entries mark r' e' else n :: kept_entries mark r' e' | _, _ => e end.
(** Every mark of [r] stands where there is an entry. *)
Definition marks_fit (mark : N -> bool) (r : wstr) (e : list nat) : Prop := forall i c, nth_error r i = Some c -> mark c = true -> i < length e.

(** After white space and padding: the text, and the units with their bytes. *)
Definition padded_text (E : env) (cl ch : bool) (s : wstr) : wstr := spaced (fun c => ch && cjk_seen c) (whitened E cl s).
Definition padded_units (E : env) (cl ch : bool) (s : wstr) : list (nat * nat) := pad_units (fun c => ch && cjk_seen c) (whitened E cl s) (unit_bytes s) 0.
(** The unit of every byte; the bytes of the last unit of the text are there once more. *)
Definition byte_units (E : env) (cl ch : bool) (s : wstr) : list nat :=
  flat_map (fun b => repeat (fst b) (snd b)) (padded_units E cl ch s) ++ repeat (length (unit_bytes s) - 1) (last (unit_bytes s) 0).
(** The result [n] and the bytes [e] counted for each of its positions. *)
Definition bert_result (E : env) (cl ch st lo : bool) (s n : wstr) (e : list nat) : Prop :=
  let p := padded_text E cl ch s in let z := map snd (padded_units E cl ch s) in
  if st || lo then exists r, e_norm E NFD p = Some r /\ marks_fit (e_is_mn E) r (entry_sizes z (changed p r)) /\
    n = (let kept := filter (fun c => negb (e_is_mn E c)) r in if lo then map (e_towlower E) kept else kept) /\ e = kept_entries (e_is_mn E) r (entry_sizes z (changed p r))
  else n = p /\ e = z.
(** The unit reported for position [j]: the one of the byte counted up to there. *)
Definition place (e bytes : list nat) (j : nat) : option nat := if j <? length e then nth_error bytes (list_sum (firstn j e)) else None.
