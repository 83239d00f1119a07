(** Vocabulary for C104: what a BERT normalizer does to a text of the basic plane, and where the words of the result are reported. *)
From Verif Require Import Base Unicode Common Normalizer NormSpec AccentSpec.

(** White space becomes a space (the theorems are about texts with nothing to delete). *)
Definition whitened (E : env) (cl : bool) (s : wstr) : wstr := map (fun c => if cl && blank E c then 32%N else c) s.
(** The bytes counted for every character after padding: one for each added space. *)
Fixpoint padded_sizes (f : N -> bool) (m : wstr) (z : list nat) : list nat :=
  match m, z with c :: m', n :: z' => (if f c then [1; n; 1] else [n]) ++ padded_sizes f m' z' | _, _ => [] end.
(** The bytes counted for the kept characters when the text [before ps], with sizes [z], is replaced by [after ps]. *)
Fixpoint parts_counted (keep : N -> bool) (ps : list (N * wstr)) (z : list nat) : list nat :=
  match ps, z with p :: ps', n :: z' => map (fun _ => match snd p with [_] => n | _ => 1 end) (filter keep (snd p)) ++ parts_counted keep ps' z' | _, _ => [] end.
(** Accent stripping and lower-casing. *)
Inductive stripped_to (E : env) (on lo : bool) (m : wstr) (z : list nat) : wstr -> list nat -> Prop :=
| st_off : on = false -> stripped_to E on lo m z m z
| st_on ps : on = true -> before ps = m -> Forall simple_piece ps -> e_norm E NFD m = Some (after ps) ->
    stripped_to E on lo m z (let kept := filter (fun c => negb (e_is_mn E c)) (after ps) in if lo then map (e_towlower E) kept else kept) (parts_counted (fun c => negb (e_is_mn E c)) ps z).
(** The whole normalizer: [n] is the result, [src] the source (in the text) of every character after padding, [z] the bytes counted for each of these, [cnt] those counted for
    every character of the result. *)
Definition bert_steps (E : env) (cl ch st lo : bool) (s n : wstr) (src z cnt : list nat) : Prop :=
  let m := whitened E cl s in
  (cl = true -> Forall (fun c => unwanted E c = false) s) /\
  src = (if ch then spaced_src cjk m 0 else seq 0 (length s)) /\
  z = (if ch then padded_sizes cjk m (map width s) else map width s) /\
  stripped_to E (st || lo) lo (if ch then spaced cjk m else m) z n cnt.
(** The position reported for position [j] of the result: the source of the character holding the byte counted up to [j]. *)
Definition reported (src z cnt : list nat) (j : nat) : nat := nth (char_of_byte z (list_sum (firstn j cnt))) src 0.
