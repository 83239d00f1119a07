(** Specification: what becomes of the bytes of a word that are not in a BPE vocabulary, in every configuration. *)
From Verif Require Import Base Common WordPiece Bpe BpeSpec.

(** A byte of the word, with its affixes, that is not a vocabulary text. *)
Definition unknown (b : bpe) (p : bytes) : Prop := sfind p (b_vocab b) = None.

(** The ids found for it when byte fallback is on: the vocabulary ids of "<000y>" for its bytes y. *)
Definition fallback_ids (b : bpe) (p : bytes) : seqn :=
  if b_byte_fallback b
  then flat_map (fun y => match sfind (str "<000" ++ [y] ++ str ">") (b_vocab b) with Some i => [(i, 1)] | None => [] end) p
  else [].
Definition replaced (b : bpe) (p : bytes) : Prop := fallback_ids b p <> [].
Definition missed (b : bpe) (p : bytes) : Prop := fallback_ids b p = [].
Definition missed_count (b : bpe) (run : list bytes) : nat := length (filter (fun p => is_nil (fallback_ids b p)) run).

(** Not fused: the unknown symbol of a missed piece comes after the replacements of the pieces that follow it. *)
Inductive delayed (b : bpe) (u : Z) : list bytes -> seqn -> Prop :=
| delayed_none g : Forall (replaced b) g -> delayed b u g (flat_map (fallback_ids b) g)
| delayed_miss run out m g : delayed b u run out -> missed b m -> Forall (replaced b) g ->
    delayed b u (run ++ m :: g) (out ++ flat_map (fallback_ids b) g ++ [(u, 1)]).

(** A run of unknown pieces. Fused: all replacements, then one unknown symbol for all missed pieces. *)
Definition run_symbols (b : bpe) (run : list bytes) (out : seqn) : Prop :=
  match unk_id b with
  | None => out = flat_map (fallback_ids b) run
  | Some u => if b_fuse_unk b
              then out = flat_map (fallback_ids b) run ++ match missed_count b run with 0 => [] | n => [(u, n)] end
              else delayed b u run out
  end.

(** The whole word: runs of unknown pieces, each ended by a known piece or by the end of the word. *)
Inductive word_symbols (b : bpe) : list bytes -> seqn -> Prop :=
| ws_end run out : Forall (unknown b) run -> run_symbols b run out -> word_symbols b run out
| ws_known run out p i rest more : Forall (unknown b) run -> run_symbols b run out -> sfind p (b_vocab b) = Some i ->
    word_symbols b rest more -> word_symbols b (run ++ p :: rest) (out ++ (i, 1) :: more).

(** How many symbols of length one a piece gives rise to. *)
Definition piece_weight (b : bpe) (p : bytes) : nat :=
  match sfind p (b_vocab b) with
  | Some _ => 1
  | None => match length (fallback_ids b p) with
            | 0 => match unk_id b with Some _ => 1 | None => 0 end
            | n => n
            end
  end.
Definition covered (b : bpe) (s : bytes) : nat := fold_right (fun p n => piece_weight b p + n) 0 (pieces (b_prefix b) (b_suffix b) s).
