(** Specification vocabulary for BPE: rewriting of sequences of (id, length) pairs. *)
From Verif Require Import Base Common PreTokenizer WordPiece Bpe.
From Coq Require Import Relations.

(** A symbol sequence: ids with the number of bytes they cover. *)
Definition seqn := list (Z * nat).

(** One merge of the adjacent pair (a, b), listed in the table with the given rank and resulting id. *)
Inductive step_at (m : merge_map) (rank : Z) : seqn -> seqn -> Prop :=
| step_intro A a la b lb B n :
    mfind a b m = Some (rank, n) ->
    step_at m rank (A ++ (a, la) :: (b, lb) :: B) (A ++ (n, la + lb) :: B).

Definition step (m : merge_map) (x y : seqn) : Prop := exists rank, step_at m rank x y.

(** Some adjacent pair of the sequence is listed with this rank. *)
Definition applicable (m : merge_map) (rank : Z) (x : seqn) : Prop := exists y, step_at m rank x y.

(** Merging with the highest (lowest) applicable rank. *)
Definition step_highest (m : merge_map) (x y : seqn) : Prop :=
  exists rank, step_at m rank x y /\ forall r, applicable m r x -> (r <= rank)%Z.
Definition step_lowest (m : merge_map) (x y : seqn) : Prop :=
  exists rank, step_at m rank x y /\ forall r, applicable m r x -> (rank <= r)%Z.

Definition steps (R : seqn -> seqn -> Prop) : seqn -> seqn -> Prop := clos_refl_trans_1n seqn R.

(** The word holding these symbols, built by appending them one by one. *)
Definition word_of (l : seqn) : list symbol := fold_left (fun w p => word_add w (fst p) (snd p)) l [].

(** What a word looks like from outside. *)
Definition contents (w : list symbol) : seqn := map (fun s => (s_c s, s_len s)) w.

Definition total_len (l : seqn) : nat := fold_right (fun p n => snd p + n) 0 l.

(** Different pairs of the table produce different ids. *)
Definition distinct_results (m : merge_map) : Prop :=
  forall a b r a' b' r' n, mfind a b m = Some (r, n) -> mfind a' b' m = Some (r', n) -> a = a' /\ b = b'.

(** Initial symbols: for each byte the vocabulary id of its piece, or None. With an unknown token, unknown bytes give
    the unknown id, one symbol per byte or one per maximal run. *)
Inductive fused (unk : Z) : list (option Z) -> seqn -> Prop :=
| fused_nil : fused unk [] []
| fused_known i l r : fused unk l r -> fused unk (Some i :: l) ((i, 1) :: r)
| fused_run k l r : 0 < k -> hd_error l <> Some None -> fused unk l r -> fused unk (repeat None k ++ l) ((unk, k) :: r).

Definition unfused (unk : Z) (l : list (option Z)) : seqn :=
  map (fun o => match o with Some i => (i, 1) | None => (unk, 1) end) l.

(** The vocabulary text looked up for the i-th byte x of a word of n bytes: the continuing-subword prefix except on the
    first byte, the byte, the end-of-word suffix on the last byte. *)
Definition piece_at (prefix suffix : bytes) (n i : nat) (x : N) : bytes :=
  (if i =? 0 then [] else prefix) ++ [x] ++ (if S i =? n then suffix else []).
Definition pieces (prefix suffix : bytes) (s : bytes) : list bytes :=
  map (fun p => piece_at prefix suffix (length s) (fst p) (snd p)) (combine (seq 0 (length s)) s).

(** The vocabulary id of each byte of the word, if any. *)
Definition lookups (b : bpe) (s : bytes) : list (option Z) :=
  map (fun p => sfind p (b_vocab b)) (pieces (b_prefix b) (b_suffix b) s).

(** The id of the unknown token: configured (non-empty) and in the vocabulary. *)
Definition unk_id (b : bpe) : option Z := if is_nil (b_unk b) then None else sfind (b_unk b) (b_vocab b).

Fixpoint known_only (l : list (option Z)) : seqn :=
  match l with [] => [] | Some i :: r => (i, 1) :: known_only r | None :: r => known_only r end.

(** The k-th merge line turns the adjacent ids a, b into n: its two fields are vocabulary texts with those ids and their
    concatenation, without the prefix of the second, is the vocabulary text of n. *)
Definition rule_gives (vocab : smap Z) (prefix_len : nat) (line : bytes * bytes) (a b n : Z) : Prop :=
  sfind (fst line) vocab = Some a /\ sfind (snd line) vocab = Some b /\
  sfind (fst line ++ skipn prefix_len (snd line)) vocab = Some n.
Definition first_rule (vocab : smap Z) (prefix_len : nat) (lines : list (bytes * bytes)) (a b : Z) (k : nat) (n : Z) : Prop :=
  (exists line, nth_error lines k = Some line /\ rule_gives vocab prefix_len line a b n) /\
  (forall k' line n', k' < k -> nth_error lines k' = Some line -> ~ rule_gives vocab prefix_len line a b n').

(** White space of the C locale: tab, line feed, vertical tab, form feed, carriage return and space. *)
Definition white (x : N) : Prop := In x [9; 10; 11; 12; 13; 32]%N.
(** A field of a merge line: non-empty, no white space. *)
Definition field (p : bytes) : Prop := p <> [] /\ Forall (fun x => ~ white x) p.
Definition merge_line (p : bytes * bytes) : bytes := fst p ++ [32%N] ++ snd p.

(** A token list seen as ids with the number of bytes covered. *)
Definition token_seq (ts : list token) : seqn := map (fun t => (tk_id t, snd (tk_off t) - fst (tk_off t))) ts.

(** Caches that can exist: empty, then any sequence of tokenize calls (successful or not). *)
Inductive reach_cache (E : env) (b : bpe) : cache -> Prop :=
| reach_empty : reach_cache E b []
| reach_call c p c' r : reach_cache E b c -> bpe_tokenize E b c p = (c', r) -> reach_cache E b c'.

(** The symbols a word starts with (characterised by C31, C32 and C33). *)
Definition initial (b : bpe) (s : bytes) : seqn := contents (initial_symbols b s).
