(** What the mask-filling example should do (C120), independent of Mask.v. *)
From Verif Require Import Base.

(** position [k] is the first that holds [x] *)
Definition first_at (x : Z) (l : list Z) (k : nat) : Prop := nth_error l k = Some x /\ forall j, j < k -> nth_error l j <> Some x.
(** the scores that are used: those at the position of the first id 103 ([MASK] in BERT), or those at the last position if there is none *)
Definition used_scores (ids : list Z) (scores : list (list Z)) (row : list Z) : Prop :=
  (exists k, first_at 103 ids k /\ nth_error scores k = Some row) \/ (~ In 103%Z ids /\ exists front, scores = front ++ [row]).
(** [i] is the first index of the greatest score *)
Definition winner (row : list Z) (i : nat) : Prop :=
  exists x, nth_error row i = Some x /\ (forall j y, nth_error row j = Some y -> (y <= x)%Z) /\ forall j y, j < i -> nth_error row j = Some y -> (y < x)%Z.
