(** Specification vocabulary for WordPiece. *)
From Verif Require Import Base Unicode Common.

(** The vocabulary text standing for units [start, start+k) of the word: the UTF-8 text of those units, with the
    continuation prefix when not at the start. *)
Definition piece_text (prefix : bytes) (u : ustr) (start k : nat) : bytes :=
  (if start =? 0 then [] else prefix) ++ to_utf8 (firstn k (skipn start u)).

(** Greedy longest-match-first segmentation of [u] from position [start] on. *)
Inductive greedy (vocab : smap Z) (prefix : bytes) (u : ustr) : nat -> list token -> Prop :=
| greedy_end : greedy vocab prefix u (length u) []
| greedy_step start k id ts :
    0 < k -> start + k <= length u ->
    sfind (piece_text prefix u start k) vocab = Some id ->
    (forall k', k < k' -> start + k' <= length u -> sfind (piece_text prefix u start k') vocab = None) ->
    greedy vocab prefix u (start + k) ts ->
    greedy vocab prefix u start (mkTok id (piece_text prefix u start k) (start, start + k) :: ts).

(** Consecutive non-empty intervals covering [a, b). *)
Inductive tiles : nat -> nat -> list (nat * nat) -> Prop :=
| tiles_nil a : tiles a a []
| tiles_cons a m b l : a < m -> tiles m b l -> tiles a b ((a, m) :: l).
