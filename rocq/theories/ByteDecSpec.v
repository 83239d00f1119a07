(** What the ByteLevel decoder makes of any text (C127). *)
From Verif Require Import Base.
Import ListNotations.
(** one character of a token: the low byte of its code point; a character above U+FFFF (two UTF-16 units) gives that byte twice *)
Definition low_bytes (c : N) : bytes := if (c <? 0x10000)%N then [(c mod 256)%N] else [(c mod 256)%N; (c mod 256)%N].
