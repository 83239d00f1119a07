(** Several threads calling encode and decode on one object, with additions of tokens made while nobody else is at work.

    Concurrent.v splits encode into its accesses to shared members. Here decode joins in, one id at a time (tokenizer.cpp:107-124 reads
    added_tokens_map_r, which encode extends), and add_tokens / add_special_tokens, which change the added vocabulary and its tries without a lock:
    they may only run alone, as under a readers-writer lock around the object.
    Simplification: one access of encode is one step, one id of decode is one step (the set of special tokens, which decode reads second, is
    written by additions only). *)
From Verif Require Import Base Unicode Common Utils PostProcessor Decoder Normalizer PreTokenizer WordPiece Bpe AddedVocab Tokenizer HistSpec Concurrent.

(** what is left to do of a call *)
(** tokenizer.cpp:92-133 *)
Inductive left_over :=
| LeftEncode (p : prog encoding)
| LeftDecode (ids : list Z) (skip : bool) (kept : list bytes)    (* ids not yet looked up; the token texts so far *)
| Finished (a : answer).
(** a call in progress or finished; [j_adds] are the additions made before it began *)
(** models no code of its own *)
Record job := mkJob { j_adds : list HistSpec.call; j_call : HistSpec.call; j_left : left_over }.
(** models no code of its own *)
Definition finished (j : job) : Prop := exists a, j_left j = Finished a.

(** the beginning of a call (additions never stand in the middle) *)
(** tokenizer.cpp:92-105, 107-124 *)
Definition begin (E : env) (fuel : nat) (t : tokenizer) (k : HistSpec.call) : option left_over :=
  match k with
  | CallEncode s add => Some (LeftEncode (encode_prog E fuel t s add))
  | CallDecode ids skip => Some (LeftDecode ids skip [])
  | _ => None
  end.
(** tokenizer.cpp:111-121: one id; 122-123 after the last *)
Definition decode_step (t : tokenizer) (ids : list Z) (skip : bool) (kept : list bytes) : left_over :=
  match ids with
  | [] => Finished (AnsText (match tz_dec t with None => Undef NullDeref | Some d => out <- decode_chain d kept ;; Ok (concat out) end))
  | i :: r =>
    match decode_ids t skip [i] with
    | Ok l => LeftDecode r skip (kept ++ l)
    | Throw e => Finished (AnsText (Throw e))
    | Undef u => Finished (AnsText (Undef u))
    | Diverge => Finished (AnsText Diverge)
    end
  end.

(** one step of one call: the tokenizer and what is left afterwards *)
(** tokenizer.cpp:92-124 *)
Inductive job_step (t : tokenizer) : left_over -> tokenizer -> left_over -> Prop :=
| js_access p sh' p' : pstep (shared_of t) p sh' p' -> job_step t (LeftEncode p) (with_shared t sh') (LeftEncode p')
| js_return r : job_step t (LeftEncode (Done r)) t (Finished (AnsEncoding r))
| js_decode ids skip kept : job_step t (LeftDecode ids skip kept) t (decode_step t ids skip kept).

(** The tokenizer, the additions made so far, and the calls begun so far. *)
(** models no code of its own *)
Record pool := mkPool { pl_tz : tokenizer; pl_adds : list HistSpec.call; pl_jobs : list job }.
(** models no code of its own: the interleavings of tokenizer.cpp:92-133 in which an addition runs alone *)
Inductive move (E : env) (fuel : nat) : pool -> pool -> Prop :=
| mv_begin t A js k l : begin E fuel t k = Some l -> move E fuel (mkPool t A js) (mkPool t A (js ++ [mkJob A k l]))
| mv_step t A js1 j js2 t' l : job_step t (j_left j) t' l -> move E fuel (mkPool t A (js1 ++ j :: js2)) (mkPool t' A (js1 ++ mkJob (j_adds j) (j_call j) l :: js2))
| mv_add t A js k : adds k = true -> Forall finished js ->
    move E fuel (mkPool t A js) (mkPool (fst (do_call E fuel t k)) (A ++ [k]) (js ++ [mkJob A k (Finished (snd (do_call E fuel t k)))])).
(** models no code of its own *)
Inductive leads_to (E : env) (fuel : nat) : pool -> pool -> Prop :=
| lt_here x : leads_to E fuel x x
| lt_move x y z : leads_to E fuel x y -> move E fuel y z -> leads_to E fuel x z.

(** the next access of a call to a member that calls in progress may write *)
(** added_vocabulary.cpp:47-53, 209; model.cpp:428, 434 *)
Definition touches (t : tokenizer) (l : left_over) : option (member * bool) :=
  match l with
  | LeftEncode p => next_access (shared_of t) p
  | LeftDecode (_ :: _) _ _ => Some (AddedTokensMapR, false)
  | _ => None
  end.
(** a data race in the sense of the C++ standard *)
(** models no code of its own *)
Definition racing (x : pool) : Prop :=
  exists i j ji jj m wi wj, i <> j /\ nth_error (pl_jobs x) i = Some ji /\ nth_error (pl_jobs x) j = Some jj /\
  touches (pl_tz x) (j_left ji) = Some (m, wi) /\ touches (pl_tz x) (j_left jj) = Some (m, wj) /\ wi || wj = true.

(** An encode call during which an addition is made: it looks for tokens with normalized = false in the tries of [t], before the addition
    (added_vocabulary.cpp:252-254), and does everything else on [t'], after it (added_vocabulary.cpp:294-295 reads the other trie). *)
(** tokenizer.cpp:92-105, added_vocabulary.cpp:248-321 *)
Definition encode_across (E : env) (fuel : nat) (t t' : tokenizer) (s : wstr) (add : bool) : res encoding :=
  snd (encode E fuel (set_av t' (match tz_av t, tz_av t' with
    | Some a, Some a' => Some (mkAv (av_added a') (av_specials a') (av_special_set a') (av_map a') (av_map_r a') (av_trie_norm a') (av_trie_raw a))
    | _, o => o end)) s add).
