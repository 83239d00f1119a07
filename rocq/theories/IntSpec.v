(** When the int arithmetic of truncation and padding overflows. *)
From Verif Require Import Base Common Utils Spec TzSpec.

(** The windows of a Right truncation begin at 0, o, 2*o, ... below the length n; the loop computes, for each of these, the next one, and the end of the window until one has
    reached the end of the text. One of these numbers is not an int. *)
Definition windows_overflow (n maxl o : Z) : Prop :=
  (0 < o)%Z /\ exists k, (0 <= k)%Z /\ (k * o < n)%Z /\ ((2 ^ 31 <= (k + 1) * o)%Z \/ ((k - 1) * o + maxl < n)%Z /\ (2 ^ 31 <= k * o + maxl)%Z).
(** Truncation is active and either max_length - stride is not an int, or the direction is Left and the stride is at least max_length (then the loop walks up), or the direction is
    Right and the windows go beyond the ints. *)
Definition truncation_overflows (t : truncation) (n : nat) : Prop :=
  truncation_active t n /\ ((2 ^ 31 <= t_max t - t_stride t)%Z \/ (t_dir t = TLeft /\ (t_max t <= t_stride t)%Z) \/
                            (t_dir t = TRight /\ (t_max t - t_stride t < 2 ^ 31)%Z /\ windows_overflow (Z.of_nat n) (t_max t) (t_max t - t_stride t))).

(** No multiple of pad_to_multiple_of that is at least the (positive) length asked for is an int. *)
Definition rounding_overflows (p : padding) (n : nat) : Prop :=
  let l := match p_strat p with Fixed => p_fixed p | _ => Z.of_nat n end in
  (0 < p_multiple p)%Z /\ (0 < l)%Z /\ forall k, ~ (l <= p_multiple p * k < 2 ^ 31)%Z.

(** The fixed size asked for is so far below zero that its distance from the length of a part is not an int. *)
Definition size_wraps (p : padding) (e : encoding) : Prop :=
  p_strat p = Fixed /\ (p_fixed p < 0)%Z /\ exists x, part e x /\ (p_fixed p - Z.of_nat (length (en_ids x)) < - 2 ^ 31)%Z.

(** The ids of a token table are ints up to [M]. *)
Definition ids_up_to (M : Z) (m : smap Z) : Prop := forall c i, In (c, i) m -> (- 2 ^ 31 <= i <= M)%Z.
