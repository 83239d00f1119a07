(** How much work the loops do: the functions of WordPiece.v, Bpe.v and AddedVocab.v once more, each returning in addition how often its loop
    body did the expensive thing. PropsCost.v proves that the results are those of the functions counted. *)
From Verif Require Import Base Unicode Common PreTokenizer WordPiece Bpe AddedVocab Tokenizer.
From Coq Require QArith_base.
Import ListNotations.

(** ** WordPiece: candidates made and looked up in the vocabulary *)
(** model.cpp:163-179: one candidate per turn of the inner loop (a candidate that is found is looked up once more at 172, not counted) *)
Fixpoint wp_longest_n (w : wordpiece) (u : ustr) (start k : nat) : option (Z * nat) * nat :=
  match k with
  | O => (None, 0)
  | S k' =>
    match sfind (wp_candidate w u start k) (wp_vocab w) with
    | Some i => (Some (i, k), 1)
    | None => let '(r, n) := wp_longest_n w u start k' in (r, S n)
    end
  end.
(** model.cpp:160-186 *)
Fixpoint wp_loop_n (fuel : nat) (w : wordpiece) (u : ustr) (start : nat) : res (option (list token)) * nat :=
  match fuel with
  | O => (Diverge, 0)
  | S f =>
    if start <? length u then
      match wp_longest_n w u start (length u - start) with
      | (None, n) => (Ok None, n)
      | (Some (i, k), n) =>
        let '(r, n') := wp_loop_n f w u (start + k) in
        (r' <- r ;; Ok (match r' with
                        | None => None
                        | Some ts => Some (mkTok i (wp_candidate w u start k) (start, start + k) :: ts)
                        end), n + n')
      end
    else (Ok (Some []), 0)
  end.
(** model.cpp:145-196: one split; the look-up of the unknown token (149, 188) counts too *)
Definition wp_word_n (w : wordpiece) (t : bytes) : res (list token) * nat :=
  let u := from_utf8 t in
  if (wp_max w <? Z.of_nat (length u))%Z then (Ok [wp_unk_token w (length u)], 1)
  else
    let '(r, n) := wp_loop_n (S (length u)) w u 0 in
    (r' <- r ;; Ok (match r' with None => [wp_unk_token w (length u)] | Some ts => ts end),
     match r with Ok None => S n | _ => n end).
(** model.cpp:143-199: all splits *)
Fixpoint wp_splits_n (w : wordpiece) (l : list split) : res (list split) * nat :=
  match l with
  | [] => (Ok [], 0)
  | s :: r =>
    let '(ts, n) := wp_word_n w (sp_text s) in
    match ts with
    | Ok ts' => let '(rest, n') := wp_splits_n w r in (x <- rest ;; Ok (mkSplit (sp_text s) (sp_off s) ts' :: x), n + n')
    | Throw e => (Throw e, n)
    | Undef u => (Undef u, n)
    | Diverge => (Diverge, n)
    end
  end.

(** ** BPE: elements taken from the queue, and searches of the merge table *)
(** model.cpp:232-238: one search per pair of neighbours *)
Fixpoint init_queue_n (m : merge_map) (i : nat) (w : list symbol) : list merge * nat :=
  match w with
  | a :: ((b :: _) as r) =>
    let '(q, n) := init_queue_n m (S i) r in
    (match mfind (s_c a) (s_c b) m with
     | Some (rank, new) => mkMerge i rank new :: q
     | None => q
     end, S n)
  | _ => ([], 0)
  end.
(** model.cpp:252-293: one search for the pair, after a merge one for each new neighbour *)
Definition merge_step_n (m : merge_map) (w : list symbol) (top : merge) : res (list symbol * list merge) * nat :=
  match vat w (mg_pos top) with
  | Ok cur =>
    if s_len cur =? 0 then (Ok (w, []), 0)
    else match s_next cur with
         | None => (Ok (w, []), 0)
         | Some np =>
           match nth_error w np with
           | None => (Ok (w, []), 0)
           | Some rt =>
             match mfind (s_c cur) (s_c rt) m with
             | None => (Ok (w, []), 1)
             | Some (_, new) =>
               if negb (new =? mg_new top)%Z then (Ok (w, []), 1)
               else
                 let cur' := mkSym (mg_new top) (s_prev cur) (s_next rt) (s_len cur + s_len rt) in
                 match (w1 <- vset w (mg_pos top) cur' ;;
                        w2 <- vset w1 np (mkSym (s_c rt) (s_prev rt) (s_next rt) 0) ;;
                        match s_next rt with
                        | Some nn => match nth_error w2 nn with
                                     | Some x => vset w2 nn (mkSym (s_c x) (Some (mg_pos top)) (s_next x) (s_len x))
                                     | None => Ok w2
                                     end
                        | None => Ok w2
                        end) with
                 | Ok w3 =>
                   let '(q1, n1) := match s_prev cur' with
                             | Some pv => match nth_error w3 pv with
                                          | Some ps => (match mfind (s_c ps) (s_c cur') m with
                                                        | Some (rank, new) => [mkMerge pv rank new]
                                                        | None => []
                                                        end, 1)
                                          | None => ([], 0)
                                          end
                             | None => ([], 0)
                             end in
                   let '(q2, n2) := match s_next cur' with
                             | Some nx => match nth_error w3 nx with
                                          | Some ns => (match mfind (s_c cur') (s_c ns) m with
                                                        | Some (rank, new) => [mkMerge (mg_pos top) rank new]
                                                        | None => []
                                                        end, 1)
                                          | None => ([], 0)
                                          end
                             | None => ([], 0)
                             end in
                   (Ok (w3, q1 ++ q2), 1 + n1 + n2)
                 | Throw e => (Throw e, 1)
                 | Undef u => (Undef u, 1)
                 | Diverge => (Diverge, 1)
                 end
             end
           end
         end
  | Throw e => (Throw e, 0)
  | Undef u => (Undef u, 0)
  | Diverge => (Diverge, 0)
  end.
(** model.cpp:241-294: (result, elements taken from the queue, searches) *)
Fixpoint merge_loop_n (E : env) (fuel : nat) (m : merge_map) (dropout : QArith_base.Q) (k : nat)
         (w : list symbol) (queue skip : list merge) : res (list symbol) * (nat * nat) :=
  match e_pq E queue with
  | None => (Ok w, (0, 0))
  | Some (top, queue') =>
    match fuel with
    | O => (Diverge, (0, 0))
    | S f =>
      if dropped E dropout k then
        let '(r, (p, n)) := merge_loop_n E f m dropout (S k) w queue' (skip ++ [top]) in (r, (S p, n))
      else
        match merge_step_n m w top with
        | (Ok (w', new), n) =>
          let '(r, (p, n')) := merge_loop_n E f m dropout (S k) w' (queue' ++ skip ++ new) [] in (r, (S p, n + n'))
        | (Throw e, n) => (Throw e, (1, n))
        | (Undef u, n) => (Undef u, (1, n))
        | (Diverge, n) => (Diverge, (1, n))
        end
    end
  end.
(** model.cpp:226-298; the merge table is passed by value (227), so each call also copies all its entries: [copied_entries] *)
Definition merge_all_n (E : env) (m : merge_map) (dropout : QArith_base.Q) (w : list symbol) : res (list symbol) * (nat * nat) :=
  match w with
  | [] => (Undef OobIndex, (0, 0))
  | _ =>
    let '(q, n) := init_queue_n m 0 w in
    let '(r, (p, n')) := merge_loop_n E (merge_fuel (length w)) m dropout 0 w q [] in
    (w' <- r ;; Ok (filter (fun s => negb (s_len s =? 0)) w'), (p, n + n'))
  end.
(** model.cpp:421-436: does the word reach merge_word? *)
Definition merges_word (b : bpe) (c : cache) (s : bytes) : nat :=
  match (if b_ignore_merges b then sfind s (b_vocab b) else None) with
  | Some _ => 0
  | None => match sfind s c with Some _ => 0 | None => 1 end
  end.
(** model.cpp:439-447: how often merge_word is called for the splits *)
Fixpoint bpe_splits_n (E : env) (b : bpe) (c : cache) (l : list split) : (cache * res (list split)) * nat :=
  match l with
  | [] => ((c, Ok []), 0)
  | s :: r =>
    let here := if QArith_base.Qeq_bool (b_dropout b) (QArith_base.Qmake 0 1) then merges_word b c (sp_text s) else 1 in
    match bpe_word E b c (sp_text s) with
    | (c', Ok ts) =>
      let '((c'', rest), n) := bpe_splits_n E b c' r in
      ((c'', x <- rest ;; Ok (mkSplit (sp_text s) (sp_off s) ts :: x)), here + n)
    | (c', Throw e) => ((c', Throw e), here)
    | (c', Undef u) => ((c', Undef u), here)
    | (c', Diverge) => ((c', Diverge), here)
    end
  end.
(** model.cpp:226-229, 406: entries of the merge table copied by so many calls of merge_word *)
Definition copied_entries (b : bpe) (calls : nat) : nat := calls * length (b_merges b).

(** ** Added tokens: UTF-16 units copied while looking for them *)
(** added_vocabulary.cpp:184-203: every turn copies the units from cur to i *)
Fixpoint raw_matches_n (ids : smap Z) (u : ustr) (todo i cur : nat) : list (nat * nat * Z) * nat :=
  match todo with
  | O =>
    if i =? cur then ([], 0)
    else (match sfind (to_utf8 (usub u cur (i - cur))) ids with
          | Some k => [(cur, i, k)]
          | None => []
          end, length (usub u cur (i - cur)))
  | S n =>
    let hit := sfind (to_utf8 (usub u cur (i - cur))) ids in
    let cur1 := match hit with Some _ => i | None => cur end in
    let cur2 := if (nth i u 0 =? 32)%N then S i else cur1 in
    let '(rest, c) := raw_matches_n ids u n (S i) cur2 in
    (match hit with Some k => (cur, i, k) :: rest | None => rest end, length (usub u cur (i - cur)) + c)
  end.

(** ** encode *)
(** tokenizer.cpp:92-105, model.cpp:143-199: look-ups in the vocabulary (WordPiece) made by encode *)
Definition encode_lookups (E : env) (t : tokenizer) (s : wstr) : nat :=
  match prepare E t s, tz_model t with
  | Ok (_, p), Some (MWordPiece w) => snd (wp_splits_n w (pt_splits p))
  | _, _ => 0
  end.
(** tokenizer.cpp:92-105, model.cpp:438-449: entries of the merge table copied (BPE) by encode *)
Definition encode_copies (E : env) (t : tokenizer) (s : wstr) : nat :=
  match prepare E t s, tz_model t with
  | Ok (_, p), Some (MBpe b c) => copied_entries b (snd (bpe_splits_n E b c (pt_splits p)))
  | _, _ => 0
  end.
(** added_vocabulary.cpp:248-255: units copied by the search for added tokens in the text that encode begins with *)
Definition encode_search (E : env) (t : tokenizer) (s : wstr) : nat :=
  match tz_av t, convert_to_string s with
  | Some av, Ok sentence => let u := from_utf8 sentence in snd (raw_matches_n (word_ids (av_trie_raw av)) u (length u) 0 0)
  | _, _ => 0
  end.
