(** The encoding forms of Unicode as bit patterns (RFC 3629 section 3, RFC 2781 section 2): nothing here uses the model. *)
From Coq Require Export List NArith.
Import ListNotations.
(** the number a list of bits spells, most significant bit first *)
Definition number (l : list bool) : N := fold_left (fun a (b : bool) => (2 * a + (if b then 1 else 0))%N) l 0%N.
(** one line of the table of RFC 3629: the character, its bytes. The x of the table are the bits of [x], [y], [z], [w]. *)
Inductive utf8_row : N -> list N -> Prop :=
| row1 : forall x, length x = 7 -> utf8_row (number x) [number (false :: x)]
| row2 : forall x y, length x = 5 -> length y = 6 -> (0x80 <= number (x ++ y))%N ->
    utf8_row (number (x ++ y)) [number ([true; true; false] ++ x); number ([true; false] ++ y)]
| row3 : forall x y z, length x = 4 -> length y = 6 -> length z = 6 -> (0x800 <= number (x ++ y ++ z))%N -> ~ (0xD800 <= number (x ++ y ++ z) <= 0xDFFF)%N ->
    utf8_row (number (x ++ y ++ z)) [number ([true; true; true; false] ++ x); number ([true; false] ++ y); number ([true; false] ++ z)]
| row4 : forall x y z w, length x = 3 -> length y = 6 -> length z = 6 -> length w = 6 -> (0x10000 <= number (x ++ y ++ z ++ w) <= 0x10FFFF)%N ->
    utf8_row (number (x ++ y ++ z ++ w)) [number ([true; true; true; true; false] ++ x); number ([true; false] ++ y); number ([true; false] ++ z); number ([true; false] ++ w)].
(** RFC 2781: a character below 0x10000 that is not a surrogate is its own unit; the 20 bits of c - 0x10000 are shared by two units starting with 110110 and 110111. *)
Inductive utf16_row : N -> list N -> Prop :=
| unit1 : forall c, (c < 0xD800 \/ 0xE000 <= c < 0x10000)%N -> utf16_row c [c]
| unit2 : forall y x, length y = 10 -> length x = 10 ->
    utf16_row (0x10000 + number (y ++ x)) [number ([true; true; false; true; true; false] ++ y); number ([true; true; false; true; true; true] ++ x)].
(** a text and its encoding, character by character *)
Definition spelled (row : N -> list N -> Prop) (s : list N) (b : list N) : Prop := exists rows, Forall2 row s rows /\ b = concat rows.
