(** What the object of an added token in a configuration means (C117). *)
From Verif Require Import Base Common AddedVocab Config EscSpec ConfigSpec.

(** the value of the last entry with this key *)
Definition latest (o : list (bytes * json)) (k : String.string) (v : json) : Prop :=
  exists before after, o = before ++ (str k, v) :: after /\ ~ In (str k) (map fst after).
(** [keyed R d o k x]: the key [k] of [o] means [x]; [d] if the key is missing, otherwise what its last value stands for *)
Definition keyed {A} (R : json -> A -> Prop) (d : A) (o : list (bytes * json)) (k : String.string) (x : A) : Prop :=
  lacks o k /\ x = d \/ exists v, latest o k v /\ R v x.
Definition as_bool (v : json) (b : bool) : Prop := v = JBool b.
Definition as_text (v : json) (s : bytes) : Prop := exists raw, v = JStr raw /\ json_string raw s.
(** a 64-bit integer, narrowed to 32 bits *)
Definition as_int (v : json) (n : Z) : Prop := exists z q, v = JInt z /\ (- 2 ^ 63 <= z < 2 ^ 63)%Z /\ z = (n + q * 2 ^ 32)%Z /\ (- 2 ^ 31 <= n < 2 ^ 31)%Z.

(** every key of an added token may be missing; the defaults are id 0, no text, and no flag but "normalized" *)
Definition token_object (o : list (bytes * json)) (t : added_token) : Prop :=
  keyed as_int 0%Z o "id" (at_id t) /\ keyed as_text [] o "content" (at_content t) /\
  keyed as_bool false o "single_word" (at_single_word t) /\ keyed as_bool false o "lstrip" (at_lstrip t) /\ keyed as_bool false o "rstrip" (at_rstrip t) /\
  keyed as_bool true o "normalized" (at_normalized t) /\ keyed as_bool false o "special" (at_special t).
(** every entry under one of these keys has the right type; other keys are free *)
Definition token_typed (o : list (bytes * json)) : Prop :=
  forall k v e, In (k, v) o -> In e added_keys -> k = str (fst e) -> of_kind (snd e) v.
