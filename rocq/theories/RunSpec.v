(** What the example program should print: decimal numerals, lists and strings as Python prints them (C115). Independent of Run.v. *)
From Verif Require Import Base Common.

(** [numeral z b]: [b] is the decimal numeral of [z]: digits without leading zeros, after a minus sign if [z] is negative *)
Definition value (digits : bytes) : Z := fold_left (fun a d => (10 * a + (Z.of_N d - 48))%Z) digits 0%Z.
Definition digits_ok (ds : bytes) : Prop := Forall (fun d => (48 <= d <= 57)%N) ds /\ ds <> [] /\ (hd 48%N ds = 48%N -> ds = [48%N]).
Definition numeral (z : Z) (b : bytes) : Prop :=
  exists ds, digits_ok ds /\ ((0 <= z)%Z /\ b = ds /\ value ds = z \/ (z < 0)%Z /\ b = 45%N :: ds /\ value ds = (- z)%Z).
(** None, or the numeral *)
Definition optional_numeral (w : option nat) (b : bytes) : Prop := match w with None => b = str "None" | Some n => numeral (Z.of_nat n) b end.
(** (a, b) *)
Definition numeral_pair (o : nat * nat) (b : bytes) : Prop :=
  exists x y, numeral (Z.of_nat (fst o)) x /\ numeral (Z.of_nat (snd o)) y /\ b = str "(" ++ x ++ str ", " ++ y ++ str ")".
(** elements between brackets, separated by a comma and a space *)
Fixpoint join (l : list bytes) : bytes := match l with [] => [] | [x] => x | x :: r => x ++ str ", " ++ join r end.
Definition listing {A} (P : A -> bytes -> Prop) (l : list A) (b : bytes) : Prop := exists xs, Forall2 P l xs /\ b = str "[" ++ join xs ++ str "]".

(** Python's repr of a string of printable ASCII characters: single quotes (code 39), unless there are single quotes and no double quotes (34) in it; the quote used and
    the backslash (92) are escaped by a backslash *)
Definition ascii_printable (t : bytes) : Prop := Forall (fun c => (32 <= c <= 126)%N) t.
Inductive py_quote (t : bytes) : N -> Prop :=
| pq_double : In 39%N t -> ~ In 34%N t -> py_quote t 34%N
| pq_single : (~ In 39%N t \/ In 34%N t) -> py_quote t 39%N.
Definition py_string (t : bytes) (b : bytes) : Prop :=
  exists q, py_quote t q /\ b = q :: flat_map (fun c => if ((c =? q) || (c =? 92))%N then [92%N; c] else [c]) t ++ [q].

(** what the program puts around a token: double quotes around a single quote, single quotes around everything else *)
Definition quoted (t : bytes) (b : bytes) : Prop := (t = [39%N] /\ b = [34; 39; 34]%N) \/ (t <> [39%N] /\ b = 39%N :: t ++ [39%N]).

(** the report on a text, a result and its decoding, with a given notation for tokens; with [py_string] it is the output of scripts/compare_outputs/run.py:7-20 *)
Definition line (name : String.string) (b : bytes) : bytes := str name ++ b ++ [10%N].
Inductive report (tok : bytes -> bytes -> Prop) (text : bytes) (e : encoding) (decoded : bytes) : bytes -> Prop :=
| report_lines ids types toks words offs mask : listing numeral (en_ids e) ids -> listing numeral (en_type_ids e) types -> listing tok (en_tokens e) toks -> listing optional_numeral (en_words e) words ->
    listing numeral_pair (en_offsets e) offs -> listing numeral (en_amask e) mask ->
    report tok text e decoded (line "Encoding: " text ++ line "ids: " ids ++ line "type_ids: " types ++ line "tokens: " toks ++ line "words: " words ++ line "offsets: " offs ++ line "attention_mask: " mask ++
                               line "Decoding: " ids ++ line "tokens: " decoded).
(** tokens Python quotes with single quotes and nothing escaped, and the one made of a single quote *)
Definition plainly_quoted (t : bytes) : Prop := ~ In 92%N t /\ (~ In 39%N t \/ t = [39%N]).
