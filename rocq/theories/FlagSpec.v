(** Specification vocabulary for C91: what the text contributes to an encoding. *)
From Verif Require Import Base Common PostProcessor TzSpec.

(** The positions of an encoding that come from the text (not special tokens, not padding), in order. *)
Definition text_rows (e : encoding) : list row := filter (fun r => Z.eqb (r_smask r) 0) (rows e).
(** a position without its offsets *)
Definition no_offset (r : row) : row := mkRow (r_id r) (r_type r) (r_token r) (r_word r) (0, 0) (r_smask r) (r_amask r).

(** The two encodings, and their overflowing parts one by one, have the same text positions as seen through [view]. *)
Inductive same_text (view : row -> row) : encoding -> encoding -> Prop :=
| st_enc a b : map view (text_rows a) = map view (text_rows b) -> Forall2 (same_text view) (en_overflowing a) (en_overflowing b) -> same_text view a b.

(** no component trims offsets with add_prefix_space (the only trimming that depends on where in the encoding a token stands) *)
Fixpoint position_free (p : post_processor) : Prop :=
  match p with
  | PTemplate _ _ => True
  | PByteLevel aps trim => trim = false \/ aps = false
  | PSequence l => (fix go (l : list post_processor) : Prop := match l with [] => True | q :: r => position_free q /\ go r end) l
  end.
