(** Character encodings: UTF-8 (std::codecvt_utf8 and ICU) and UTF-16 (icu::UnicodeString). *)
From Verif Require Import Base.

(** surrogate values, rejected by std::codecvt_utf8 (common.cpp:59-67) and replaced by ICU (normalizer.cpp:47, 256) *)
Definition is_surrogate (c : N) : bool := (N.leb 0xD800 c && N.leb c 0xDFFF)%N.
(** Unicode scalar values: what common.cpp:59-62 converts without throwing *)
Definition valid_cp (c : N) : bool := (negb (is_surrogate c) && N.leb c 0x10FFFF)%N.

(** UTF-8 bytes of a code point (Unicode Standard, table 3-6). *)
Definition utf8_enc (c : N) : bytes :=
  (if c <? 0x80 then [c]
   else if c <? 0x800 then [0xC0 + c / 64; 0x80 + c mod 64]
   else if c <? 0x10000 then [0xE0 + c / 4096; 0x80 + (c / 64) mod 64; 0x80 + c mod 64]
   else [0xF0 + c / 262144; 0x80 + (c / 4096) mod 64; 0x80 + (c / 64) mod 64; 0x80 + c mod 64])%N.

(** common.cpp:61 to_bytes on a whole string of scalar values *)
Definition utf8_encs (l : list N) : bytes := flat_map utf8_enc l.

(** a UTF-8 continuation byte (common.cpp:66 from_bytes; fromUTF8 at model.cpp:146, decoder.cpp:205, pre_tokenizer.cpp:151) *)
Definition cont (b : N) : bool := (N.leb 0x80 b && N.leb b 0xBF)%N.

(** One decoding step: the next code point, or None for an ill-formed maximal subpart
    (Unicode Standard, table 3-7 and "best practice" replacement, which ICU follows), and the remaining bytes.
    libstdc++'s read_utf8_code_point accepts exactly the same well-formed sequences. *)
Definition utf8_step (b : N) (r : bytes) : option N * bytes :=
  (if b <? 0x80 then (Some b, r)
   else if b <? 0xC2 then (None, r)
   else if b <? 0xE0 then
     match r with
     | b1 :: r1 => if cont b1 then (Some ((b - 0xC0) * 64 + (b1 - 0x80)), r1) else (None, r)
     | [] => (None, r)
     end
   else if b <? 0xF0 then
     match r with
     | b1 :: r1 =>
       if cont b1 && (if b =? 0xE0 then 0xA0 <=? b1 else true) && (if b =? 0xED then b1 <=? 0x9F else true) then
         match r1 with
         | b2 :: r2 => if cont b2 then (Some ((b - 0xE0) * 4096 + (b1 - 0x80) * 64 + (b2 - 0x80)), r2)
                       else (None, r1)
         | [] => (None, r1)
         end
       else (None, r)
     | [] => (None, r)
     end
   else if b <? 0xF5 then
     match r with
     | b1 :: r1 =>
       if cont b1 && (if b =? 0xF0 then 0x90 <=? b1 else true) && (if b =? 0xF4 then b1 <=? 0x8F else true) then
         match r1 with
         | b2 :: r2 =>
           if cont b2 then
             match r2 with
             | b3 :: r3 =>
               if cont b3 then
                 (Some ((b - 0xF0) * 262144 + (b1 - 0x80) * 4096 + (b2 - 0x80) * 64 + (b3 - 0x80)), r3)
               else (None, r2)
             | [] => (None, r2)
             end
           else (None, r1)
         | [] => (None, r1)
         end
       else (None, r)
     | [] => (None, r)
     end
   else (None, r))%N.

(** common.cpp:66 from_bytes / fromUTF8 (model.cpp:146, decoder.cpp:205, pre_tokenizer.cpp:151): [utf8_step] until the bytes are used up *)
Fixpoint utf8_dec_fuel (fuel : nat) (l : bytes) : list (option N) :=
  match fuel, l with
  | _, [] => []
  | O, _ => []
  | S f, b :: r => let '(c, r') := utf8_step b r in c :: utf8_dec_fuel f r'
  end.

(** The UTF-8 decoding of common.cpp:65-66 and of fromUTF8 (model.cpp:146). Every step consumes at least one byte, so the length is enough fuel. *)
Definition utf8_dec (l : bytes) : list (option N) := utf8_dec_fuel (length l) l.

(** src/common.cpp:59-62 convert_to_string: std::wstring_convert<codecvt_utf8<wchar_t>>::to_bytes;
    throws std::range_error on a surrogate or a value above 0x10FFFF. *)
Definition convert_to_string (s : wstr) : res bytes :=
  if forallb valid_cp s then Ok (utf8_encs s) else Throw RangeError.

(** common.cpp:66 from_bytes throws as soon as one sequence is ill-formed *)
Fixpoint all_some {A} (l : list (option A)) : option (list A) :=
  match l with
  | [] => Some []
  | Some x :: r => match all_some r with Some xs => Some (x :: xs) | None => None end
  | None :: _ => None
  end.

(** src/common.cpp:64-67 convert_from_string: from_bytes; throws std::range_error on ill-formed or
    incomplete input. *)
Definition convert_from_string (s : bytes) : res wstr :=
  match all_some (utf8_dec s) with Some l => Ok l | None => Throw RangeError end.

(** ** UTF-16 *)
(** the UTF-16 units icu::UnicodeString keeps for one code point (normalizer.cpp:47, model.cpp:146) *)
Definition utf16_enc (c : N) : ustr :=
  (if c <? 0x10000 then [c]
   else [0xD800 + (c - 0x10000) / 1024; 0xDC00 + (c - 0x10000) mod 1024])%N.

(** lead surrogates in an icu::UnicodeString (char32At: normalizer.cpp:53, decoder.cpp:207) *)
Definition is_lead (u : N) : bool := (N.leb 0xD800 u && N.leb u 0xDBFF)%N.
(** trail surrogates in an icu::UnicodeString (normalizer.cpp:53, decoder.cpp:207) *)
Definition is_trail (u : N) : bool := (N.leb 0xDC00 u && N.leb u 0xDFFF)%N.
(** the code point of a surrogate pair (normalizer.cpp:53, decoder.cpp:207) *)
Definition pair_cp (hi lo : N) : N := (0x10000 + (hi - 0xD800) * 1024 + (lo - 0xDC00))%N.

(** icu::UnicodeString::fromUTF32: ill-formed values become U+FFFD. *)
Definition from_utf32 (s : wstr) : ustr :=
  flat_map (fun c => if valid_cp c then utf16_enc c else [0xFFFD%N]) s.

(** icu::UnicodeString::fromUTF8 (post_processor.cpp:215, model.cpp:146, decoder.cpp:205, pre_tokenizer.cpp:108, 151, added_vocabulary.cpp:183): ill-formed subparts become U+FFFD. *)
Definition from_utf8 (s : bytes) : ustr :=
  flat_map (fun o => match o with Some c => utf16_enc c | None => [0xFFFD%N] end) (utf8_dec s).

(** Code points of a UTF-16 string, as toUTF8String, toUTF32 and countChar32 see them (e.g. common.cpp:105, normalizer.cpp:266-268), with their widths in units; an unpaired surrogate stands for itself. *)
Fixpoint utf16_cps (u : ustr) : list (N * nat) :=
  match u with
  | [] => []
  | x :: r =>
    if is_lead x then
      match r with
      | y :: r' => if is_trail y then (pair_cp x y, 2) :: utf16_cps r' else (x, 1) :: utf16_cps r
      | [] => [(x, 1)]
      end
    else (x, 1) :: utf16_cps r
  end.

(** toUTF8String (e.g. model.cpp:167): an unpaired surrogate becomes U+FFFD. *)
Definition utf8_of_cp (c : N) : bytes := if is_surrogate c then utf8_enc 0xFFFD else utf8_enc c.
(** toUTF8String: model.cpp:167, post_processor.cpp:218, pre_tokenizer.cpp:168, added_vocabulary.cpp:187, common.cpp:105 *)
Definition to_utf8 (u : ustr) : bytes := flat_map (fun p => utf8_of_cp (fst p)) (utf16_cps u).

(** toUTF32 / countChar32 *)
Definition to_utf32 (u : ustr) : wstr :=
  map (fun p => if is_surrogate (fst p) then 0xFFFD%N else fst p) (utf16_cps u).

(** char32At(i) (decoder.cpp:207, normalizer.cpp:53): the code point containing unit i (the whole pair for both of its units). *)
Definition char32_at (u : ustr) (i : nat) : N :=
  match nth_error u i with
  | None => 0xFFFF%N
  | Some x =>
    if is_lead x then
      match nth_error u (S i) with
      | Some y => if is_trail y then pair_cp x y else x
      | None => x
      end
    else if is_trail x then
      match i with
      | O => x
      | S j => match nth_error u j with
               | Some h => if is_lead h then pair_cp h x else x
               | None => x
               end
      end
    else x
  end.

(** tempSubString(start, len) / tempSubStringBetween(a, b): clamped to the string. *)
(** tempSubString: model.cpp:166, post_processor.cpp:218, 227, added_vocabulary.cpp:187, 199 *)
Definition usub (u : ustr) (start len : nat) : ustr := firstn len (skipn start u).
(** tempSubStringBetween: pre_tokenizer.cpp:167 *)
Definition usub_between (u : ustr) (a b : nat) : ustr := usub u a (b - a).
