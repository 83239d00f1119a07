(** android/tokenizers_android/src/main/cpp/tokenizers_android_jni.cpp: the Android binding.
    A Java String is a list of UTF-16 units. jchar -> wchar_t widens every unit. The JNI functions themselves are the JVM's: GetStringChars /
    GetStringLength give the units, GetStringUTFChars gives modified UTF-8, NewStringUTF expects it. The release calls and
    allocation failures are not modelled; objects and their handles are in Android.v. *)
From Verif Require Import Base Unicode Common Decoder Tokenizer.

(** tokenizers_android_jni.cpp:11, 40: modified UTF-8 of a Java string (JNI specification): NUL is C0 80, every other unit (surrogates included) is encoded on its own. *)
Definition mutf8_unit (u : N) : bytes :=
  (if u =? 0 then [0xC0; 0x80]
   else if u <? 0x80 then [u]
   else if u <? 0x800 then [0xC0 + u / 64; 0x80 + u mod 64]
   else [0xE0 + u / 4096; 0x80 + (u / 64) mod 64; 0x80 + u mod 64])%N.
(** jni.cpp:11 GetStringUTFChars *)
Definition get_string_utf_chars (j : ustr) : bytes := flat_map mutf8_unit j.

(** c_str() seen as a C string: up to the first NUL *)
Fixpoint c_string (b : bytes) : bytes := match b with [] => [] | x :: r => if (x =? 0)%N then [] else x :: c_string r end.

(** NewStringUTF: the Java string whose modified UTF-8 is [b]; None when there is none (the JNI specification leaves the outcome open). *)
Fixpoint mutf8_dec (fuel : nat) (b : bytes) : option ustr :=
  match fuel with
  | O => None
  | S f =>
    match b with
    | [] => Some []
    | x :: r =>
      if (x =? 0)%N then None
      else if (x <? 0x80)%N then option_map (cons x) (mutf8_dec f r)
      else if ((0xC0 <=? x) && (x <? 0xE0))%N then
        match r with
        | y :: r' => let u := ((x - 0xC0) * 64 + (y - 0x80))%N in
                     if (cont y && ((0x80 <=? u) || (u =? 0)))%N then option_map (cons u) (mutf8_dec f r') else None
        | [] => None
        end
      else if ((0xE0 <=? x) && (x <? 0xF0))%N then
        match r with
        | y :: z :: r' => let u := ((x - 0xE0) * 4096 + (y - 0x80) * 64 + (z - 0x80))%N in
                          if (cont y && cont z && (0x800 <=? u))%N then option_map (cons u) (mutf8_dec f r') else None
        | _ => None
        end
      else None
    end
  end.
(** jni.cpp:40 NewStringUTF *)
Definition new_string_utf (b : bytes) : option ustr := mutf8_dec (S (length b)) b.

(** jni.cpp:16-30 encode: the units become wide characters; only the ids are returned *)
Definition jni_encode (E : env) (fuel : nat) (t : tokenizer) (j : ustr) (add : bool) : tokenizer * res (list Z) :=
  let '(t', r) := encode E fuel t j add in (t', e <- r ;; Ok (en_ids e)).

(** jni.cpp:31-41 decode *)
Definition jni_decode (t : tokenizer) (ids : list Z) (skip : bool) : res (option ustr) :=
  d <- decode t ids skip ;; Ok (new_string_utf (c_string d)).

(** jni.cpp:8-15 newTokenizer: the configuration text handed to the constructor *)
Definition jni_config (config : ustr) : bytes := c_string (get_string_utf_chars config).
