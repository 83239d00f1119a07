(** Specification vocabulary, independent of the model's helper functions.  Everything here is about plain data
    (encodings, lists, positions); nothing refers to how the code computes. *)
From Verif Require Import Base Common.

(** All seven columns have the length of [ids]. *)
Definition flat_parallel (e : encoding) : Prop :=
  length (en_type_ids e) = length (en_ids e) /\ length (en_tokens e) = length (en_ids e) /\
  length (en_words e) = length (en_ids e) /\ length (en_offsets e) = length (en_ids e) /\
  length (en_smask e) = length (en_ids e) /\ length (en_amask e) = length (en_ids e).

(** ... also in every overflowing encoding, at every depth. *)
Inductive parallel : encoding -> Prop :=
| par_enc e : flat_parallel e -> Forall parallel (en_overflowing e) -> parallel e.

(** The positions [a, b) of every column, with no overflowing parts. *)
Definition cut {A} (l : list A) (a b : nat) : list A := firstn (b - a) (skipn a l).
Definition window (e : encoding) (a b : nat) : encoding :=
  mkEnc (cut (en_ids e) a b) (cut (en_type_ids e) a b) (cut (en_tokens e) a b) (cut (en_words e) a b)
        (cut (en_offsets e) a b) (cut (en_smask e) a b) (cut (en_amask e) a b) [].

(** An encoding with the same columns and the given overflowing parts. *)
Definition with_overflow (e : encoding) (o : list encoding) : encoding :=
  mkEnc (en_ids e) (en_type_ids e) (en_tokens e) (en_words e) (en_offsets e) (en_smask e) (en_amask e) o.

(** Values of a C++ int. *)
Definition int32 (z : Z) : Prop := (- 2 ^ 31 <= z < 2 ^ 31)%Z.

(** Configurations on which truncation is active and its loop never ends. *)
From Verif Require Import Utils.
Definition truncation_active (t : truncation) (n : nat) : Prop :=
  (t_strat t = LongestFirst \/ t_strat t = OnlyFirst) /\ (0 < t_max t < Z.of_nat n)%Z.
Definition truncation_loops (t : truncation) (n : nat) : Prop :=
  truncation_active t n /\
  ((t_dir t = TRight /\ t_stride t = t_max t) \/ (t_dir t = TLeft /\ (t_max t - t_stride t <= 1)%Z)).

(** [r] is [e] brought to [target] positions by padding with the values of [p]: each column of [e] is kept as a
    block, at the start (Right) or at the end (Left); the missing positions hold the pad id, pad type id, pad token,
    word 0, offsets (0,0), special mask 1 and attention 0. Overflowing parts likewise. *)
Definition padded_col {A} (d : pdir) (k : nat) (x : A) (l : list A) : list A :=
  match d with PRight => l ++ repeat x k | PLeft => repeat x k ++ l | PUnknown => l end.
Inductive padded (target : nat) (p : padding) : encoding -> encoding -> Prop :=
| padded_enc e r :
    let k := target - length (en_ids e) in
    en_ids r = padded_col (p_dir p) k (p_id p) (en_ids e) ->
    en_type_ids r = padded_col (p_dir p) k (p_type_id p) (en_type_ids e) ->
    en_tokens r = padded_col (p_dir p) k (p_token p) (en_tokens e) ->
    en_words r = padded_col (p_dir p) k (Some 0) (en_words e) ->
    en_offsets r = padded_col (p_dir p) k (0, 0) (en_offsets e) ->
    en_smask r = padded_col (p_dir p) k 1%Z (en_smask e) ->
    en_amask r = padded_col (p_dir p) k 0%Z (en_amask e) ->
    Forall2 (padded target p) (en_overflowing e) (en_overflowing r) ->
    padded target p e r.

(** The padding target: the fixed size (or the current length), rounded up to the configured multiple. *)
Definition is_pad_target (p : padding) (n target : nat) : Prop :=
  let l := match p_strat p with Fixed => p_fixed p | _ => Z.of_nat n end in
  (l <= Z.of_nat target)%Z /\
  ((0 < p_multiple p)%Z -> (p_multiple p | Z.of_nat target)%Z /\ (Z.of_nat target < l + p_multiple p)%Z) /\
  ((p_multiple p <= 0)%Z -> Z.of_nat target = l).
