(** What a JSON string stands for (RFC 8259, section 7), for the texts between the quotes of a string; written without reference to the reader. *)
From Verif Require Import Base Unicode.

(** the hexadecimal digits, in both cases *)
Definition hex_value (digit : N) (n : nat) : Prop := nth_error (str "0123456789abcdef") n = Some digit \/ nth_error (str "0123456789ABCDEF") n = Some digit.
(** [code_unit h c]: [h] are the four digits of [c] *)
Inductive code_unit : bytes -> N -> Prop :=
| cu x3 x2 x1 x0 n3 n2 n1 n0 : hex_value x3 n3 -> hex_value x2 n2 -> hex_value x1 n1 -> hex_value x0 n0 ->
    code_unit [x3; x2; x1; x0] (N.of_nat n3 * 4096 + N.of_nat n2 * 256 + N.of_nat n1 * 16 + N.of_nat n0)%N.
(** the characters after a backslash that stand for one byte: quote, backslash, slash, backspace, form feed, line feed, carriage return, tab *)
Definition short_escapes : list (N * N) := [(34, 34); (92, 92); (47, 47); (98, 8); (102, 12); (110, 10); (114, 13); (116, 9)]%N.
(** [json_string raw s]: the text [raw] between the quotes stands for the bytes [s] *)
Inductive json_string : bytes -> bytes -> Prop :=
| js_end : json_string [] []
| js_byte b r s : b <> 92%N -> json_string r s -> json_string (b :: r) (b :: s)
| js_short e b r s : In (e, b) short_escapes -> json_string r s -> json_string (92 :: e :: r)%N (b :: s)
(* \uXXXX for a character outside the surrogates *)
| js_unicode h c r s : code_unit h c -> (c < 0xD800 \/ 0xDFFF < c)%N -> json_string r s -> json_string (92 :: 117 :: h ++ r)%N (utf8_enc c ++ s)
(* \uXXXX\uXXXX for a supplementary character: a high and a low surrogate *)
| js_pair h1 h2 c1 c2 r s : code_unit h1 c1 -> code_unit h2 c2 -> (0xD800 <= c1 <= 0xDBFF)%N -> (0xDC00 <= c2 <= 0xDFFF)%N -> json_string r s ->
    json_string (92 :: 117 :: h1 ++ 92 :: 117 :: h2 ++ r)%N (utf8_enc (0x10000 + (c1 - 0xD800) * 0x400 + (c2 - 0xDC00)) ++ s)%N.
