(** src/model.cpp:201-449: classes Symbol, Merge, Word and BPE *)
From Verif Require Import Base Unicode Common PreTokenizer WordPiece.
From Coq Require QArith_base.
From Coq Require Import Permutation.

(** model.cpp:201-202 class Symbol; prev/next -1 is None *)
Record symbol := mkSym { s_c : Z; s_prev : option nat; s_next : option nat; s_len : nat }.

(** merge table: (left id, right id) -> (rank, new id) *)
(** model.h:96 merges: (left id, right id) -> (rank, new id) *)
Definition merge_map := list ((Z * Z) * (Z * Z)).
(** merges.find (model.cpp:234, 264, 279, 289) *)
Fixpoint mfind (a b : Z) (m : merge_map) : option (Z * Z) :=
  match m with
  | [] => None
  | ((x, y), v) :: r => if (a =? x)%Z && (b =? y)%Z then Some v else mfind a b r
  end.
(** merges.insert (model.cpp:331): keeps an existing entry *)
Definition minsert (a b : Z) (v : Z * Z) (m : merge_map) : merge_map :=
  match mfind a b m with Some _ => m | None => m ++ [((a, b), v)] end.

(** include/tokenizers/model.h:70 Merge::operator< *)
Definition merge_lt (a b : merge) : bool := (mg_rank a <? mg_rank b)%Z.

(** Contract of std::priority_queue<Merge> (max-heap with respect to operator<): top() is an element no other
    element of which is greater; pop() removes it. Ties are broken arbitrarily. *)
(** model.cpp:230 std::priority_queue<Merge> *)
Definition pq_ok (E : env) : Prop :=
  forall q, match e_pq E q with
            | None => q = []
            | Some (t, q') => Permutation q (t :: q') /\ (forall x, In x q -> merge_lt t x = false)
            end.

(** model.cpp:215-224 Word::add *)
Definition word_add (w : list symbol) (c : Z) (len : nat) : list symbol :=
  match rev w with
  | [] => [mkSym c None None len]
  | l :: r =>
    rev r ++ [mkSym (s_c l) (s_prev l) (Some (length w)) (s_len l);
              mkSym c (Some (length w - 1)) None len]
  end.

(** model.cpp:232-238: initial queue, for i from [i]; (symbols.size() - 1 on an empty word is handled in merge_all) *)
Fixpoint init_queue (m : merge_map) (i : nat) (w : list symbol) : list merge :=
  match w with
  | a :: ((b :: _) as r) =>
    match mfind (s_c a) (s_c b) m with
    | Some (rank, new) => mkMerge i rank new :: init_queue m (S i) r
    | None => init_queue m (S i) r
    end
  | _ => []
  end.

(** model.cpp:252-293: one accepted pop; returns the symbols and the merges to enqueue *)
Definition merge_step (m : merge_map) (w : list symbol) (top : merge) : res (list symbol * list merge) :=
  cur <- vat w (mg_pos top) ;;
  if s_len cur =? 0 then Ok (w, [])
  else match s_next cur with
       | None => Ok (w, [])
       | Some np =>
         match nth_error w np with
         | None => Ok (w, [])                                             (* next_pos >= symbols.size() *)
         | Some rt =>
           match mfind (s_c cur) (s_c rt) m with
           | None => Ok (w, [])
           | Some (_, new) =>
             if negb (new =? mg_new top)%Z then Ok (w, [])
             else
               (* Symbol::merge_with (model.cpp:204-208) *)
               let cur' := mkSym (mg_new top) (s_prev cur) (s_next rt) (s_len cur + s_len rt) in
               w1 <- vset w (mg_pos top) cur' ;;
               w2 <- vset w1 np (mkSym (s_c rt) (s_prev rt) (s_next rt) 0) ;;
               w3 <- match s_next rt with
                     | Some nn => match nth_error w2 nn with
                                  | Some x => vset w2 nn (mkSym (s_c x) (Some (mg_pos top)) (s_next x) (s_len x))
                                  | None => Ok w2
                                  end
                     | None => Ok w2
                     end ;;
               let q1 := match s_prev cur' with
                         | Some pv => match nth_error w3 pv with
                                      | Some ps => match mfind (s_c ps) (s_c cur') m with
                                                   | Some (rank, new) => [mkMerge pv rank new]
                                                   | None => []
                                                   end
                                      | None => []
                                      end
                         | None => []
                         end in
               let q2 := match s_next cur' with
                         | Some nx => match nth_error w3 nx with
                                      | Some ns => match mfind (s_c cur') (s_c ns) m with
                                                   | Some (rank, new) => [mkMerge (mg_pos top) rank new]
                                                   | None => []
                                                   end
                                      | None => []
                                      end
                         | None => []
                         end in
               Ok (w3, q1 ++ q2)
           end
         end
       end.

(** model.cpp:244: dropout != 0.0f && dist(rng) < dropout; floats idealised as rationals *)
Definition dropped (E : env) (dropout : QArith_base.Q) (k : nat) : bool :=
  negb (QArith_base.Qeq_bool dropout (QArith_base.Qmake 0 1)) && negb (QArith_base.Qle_bool dropout (e_draw E k)).

(** model.cpp:241-294: the loop. [k] counts the random draws made so far (a draw happens only when
    dropout != 0; with dropout = 0 the counter is irrelevant). *)
Fixpoint merge_loop (E : env) (fuel : nat) (m : merge_map) (dropout : QArith_base.Q) (k : nat)
         (w : list symbol) (queue skip : list merge) : res (list symbol) :=
  match e_pq E queue with
  | None => Ok w
  | Some (top, queue') =>
    match fuel with
    | O => Diverge
    | S f =>
      if dropped E dropout k then merge_loop E f m dropout (S k) w queue' (skip ++ [top])
      else
        '(w', new) <- merge_step m w top ;;
        merge_loop E f m dropout (S k) w' (queue' ++ skip ++ new) []
    end
  end.

(** fuel that suffices for every word of n symbols (proved in BpeProofs.v) *)
Definition merge_fuel (n : nat) : nat := (4 * n + 1) * (4 * n + 2).

(** model.cpp:226-298 Word::merge_all; [symbols.size() - 1] wraps around on an empty word, so symbols[0] is read out
    of range (232-233) *)
Definition merge_all (E : env) (m : merge_map) (dropout : QArith_base.Q) (w : list symbol) : res (list symbol) :=
  match w with
  | [] => Undef OobIndex
  | _ =>
    w' <- merge_loop E (merge_fuel (length w)) m dropout 0 w (init_queue m 0 w) [] ;;
    Ok (filter (fun s => negb (s_len s =? 0)) w')
  end.

(** model.h class BPE *)
(** model.h:94-117 class BPE *)
Record bpe := mkBpe {
  b_vocab : smap Z; b_merges : merge_map; b_dropout : QArith_base.Q; b_unk : bytes; b_prefix : bytes;
  b_suffix : bytes; b_fuse_unk : bool; b_byte_fallback : bool; b_ignore_merges : bool }.

(** model.cpp:318-320: the first two whitespace-separated fields of a merge rule *)
Definition is_space_ascii (b : N) : bool := ((b =? 32) || (9 <=? b) && (b <=? 13))%N.
(** model.cpp:320: operator>> skips white space *)
Fixpoint skip_spaces (l : bytes) : bytes :=
  match l with [] => [] | x :: r => if is_space_ascii x then skip_spaces r else l end.
(** model.cpp:320: operator>> reads up to white space *)
Fixpoint take_word (l : bytes) : bytes * bytes :=
  match l with
  | [] => ([], [])
  | x :: r => if is_space_ascii x then ([], l) else let '(a, b) := take_word r in (x :: a, b)
  end.
(** model.cpp:320: iss >> part1 >> part2 *)
Definition two_fields (l : bytes) : option (bytes * bytes) :=
  let '(a, r) := take_word (skip_spaces l) in
  let '(b, _) := take_word (skip_spaces r) in
  if is_nil a || is_nil b then None else Some (a, b).

(** model.cpp:317-335: the merge table; part2.substr(prefix_len) throws when the prefix is longer than part2 *)
Fixpoint build_merges (vocab : smap Z) (prefix_len : nat) (i : Z) (l : list bytes) (m : merge_map) : res merge_map :=
  match l with
  | [] => Ok m
  | r :: rest =>
    m' <- match two_fields r with
          | None => Ok m
          | Some (p1, p2) =>
            match sfind p1 vocab, sfind p2 vocab with
            | Some a, Some b =>
              if length p2 <? prefix_len then Throw OutOfRange
              else match sfind (p1 ++ skipn prefix_len p2) vocab with
                   | Some new => Ok (minsert a b (i, new) m)
                   | None => Ok m
                   end
            | _, _ => Ok m
            end
          end ;;
    build_merges vocab prefix_len (i + 1) rest m'
  end.

(** model.cpp:300-336 BPE::BPE *)
Definition new_bpe (vocab : smap Z) (merges : list bytes) (dropout : QArith_base.Q) (unk prefix suffix : bytes)
           (fuse byte_fallback ignore : bool) : res bpe :=
  m <- build_merges vocab (length prefix) 0 merges [] ;;
  Ok (mkBpe vocab m dropout unk prefix suffix fuse byte_fallback ignore).

(** model.cpp:347-356: the vocabulary key of byte [x] *)
Definition bpe_piece (b : bpe) (x : N) (is_first is_last : bool) : bytes :=
  (if is_first then [] else b_prefix b) ++ [x] ++ (if is_last then b_suffix b else []).

(** model.cpp:369-373: the key looked up for a byte: hex/setw/setfill do not format a char as a number, so this is
    "<000" followed by the byte itself and ">" *)
Definition fallback_key (x : N) : bytes := str "<000" ++ [x] ++ str ">".

(** model.cpp:342-402: the loop over bytes; [unk] is the pending unknown symbol (id, length) *)
Fixpoint bpe_symbols (b : bpe) (is_first : bool) (l : bytes) (w : list symbol) (unk : option (Z * nat))
  : list symbol * option (Z * nat) :=
  match l with
  | [] => (w, unk)
  | x :: r =>
    let p := bpe_piece b x is_first (is_nil r) in
    match sfind p (b_vocab b) with
    | Some i =>
      let w' := match unk with Some (u, n) => word_add w u n | None => w end in
      bpe_symbols b false r (word_add w' i 1) None
    | None =>
      let found := if b_byte_fallback b
                   then flat_map (fun y => match sfind (fallback_key y) (b_vocab b) with Some i => [i] | None => [] end) p
                   else [] in
      match found with
      | _ :: _ => bpe_symbols b false r (fold_left (fun w i => word_add w i 1) found w) unk
      | [] =>
        if is_nil (b_unk b) then bpe_symbols b false r w unk
        else
          match unk with
          | Some (u, n) =>
            if b_fuse_unk b then bpe_symbols b false r w (Some (u, n + 1))
            else
              let w' := word_add w u n in
              bpe_symbols b false r w'
                (match sfind (b_unk b) (b_vocab b) with Some i => Some (i, 1) | None => unk end)
          | None =>
            bpe_symbols b false r w (match sfind (b_unk b) (b_vocab b) with Some i => Some (i, 1) | None => None end)
          end
      end
    end
  end.

(** model.cpp:339-405: initial symbols of a word *)
Definition initial_symbols (b : bpe) (s : bytes) : list symbol :=
  let '(w, unk) := bpe_symbols b true s [] None in
  match unk with Some (u, n) => word_add w u n | None => w end.

(** model.cpp:338-408 BPE::merge_word *)
Definition merge_word (E : env) (b : bpe) (s : bytes) : res (list symbol) :=
  merge_all E (b_merges b) (b_dropout b) (initial_symbols b s).

(** model.cpp:410-419 word_to_tokens; vocab_r.at throws for an id without a text *)
Fixpoint word_to_tokens (vocab : smap Z) (pos : nat) (w : list symbol) : res (list token) :=
  match w with
  | [] => Ok []
  | s :: r =>
    match model_id_to_token vocab (s_c s) with
    | None => Throw OutOfRange
    | Some t =>
      rest <- word_to_tokens vocab (pos + s_len s) r ;;
      Ok (mkTok (s_c s) t (pos, pos + s_len s) :: rest)
    end
  end.

(** the mutable cache: word -> merged symbols *)
(** model.h:113 cache *)
Definition cache := smap (list symbol).

(** model.cpp:421-436 tokenize_with_cache; returns the cache as it is afterwards, also on an exception *)
Definition tokenize_with_cache (E : env) (b : bpe) (c : cache) (s : bytes) : cache * res (list token) :=
  let direct := if b_ignore_merges b then sfind s (b_vocab b) else None in
  match direct with
  | Some i => (c, Ok [mkTok i s (0, 0)])
  | None =>
    match sfind s c with
    | Some w => (c, word_to_tokens (b_vocab b) 0 w)
    | None =>
      match merge_word E b s with
      | Ok w =>
        match word_to_tokens (b_vocab b) 0 w with
        | Ok ts => (sinsert s w c, Ok ts)
        | o => (c, o)
        end
      | Throw e => (c, Throw e)
      | Undef u => (c, Undef u)
      | Diverge => (c, Diverge)
      end
    end
  end.

(** model.cpp:440-446: one split *)
Definition bpe_word (E : env) (b : bpe) (c : cache) (s : bytes) : cache * res (list token) :=
  if QArith_base.Qeq_bool (b_dropout b) (QArith_base.Qmake 0 1) then tokenize_with_cache E b c s
  else (c, w <- merge_word E b s ;; word_to_tokens (b_vocab b) 0 w).

(** model.cpp:439-447: the loop over the splits *)
Fixpoint bpe_splits (E : env) (b : bpe) (c : cache) (l : list split) : cache * res (list split) :=
  match l with
  | [] => (c, Ok [])
  | s :: r =>
    match bpe_word E b c (sp_text s) with
    | (c', Ok ts) =>
      let '(c'', rest) := bpe_splits E b c' r in
      (c'', x <- rest ;; Ok (mkSplit (sp_text s) (sp_off s) ts :: x))
    | (c', Throw e) => (c', Throw e)
    | (c', Undef u) => (c', Undef u)
    | (c', Diverge) => (c', Diverge)
    end
  end.

(** model.cpp:438-449 BPE::tokenize *)
Definition bpe_tokenize (E : env) (b : bpe) (c : cache) (p : pretok) : cache * res pretok :=
  let '(c', r) := bpe_splits E b c (pt_splits p) in
  (c', l <- r ;; Ok (mkPt (pt_norm p) l)).
