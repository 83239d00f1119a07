(** The Java interface (C128) and the example activity (C129). *)
From Verif Require Import Base Common Decoder Tokenizer Config Jni Android RunSpec.
Import ListNotations.
(** the configurations of the objects constructed, in order *)
Definition configs (calls : list jcall) : list ustr := flat_map (fun c => match c with JNew g => [g] | _ => [] end) calls.
(** what a call answers on a tokenizer constructed anew from the configuration of its object; [made]: the configurations of the objects so far *)
Definition anew (E : env) (fuel : nat) (parse : bytes -> option json) (made : list ustr) (c : jcall) : res janswer :=
  let fresh k := match nth_error made k with Some g => construct (fun _ => None) parse [] (jni_config g) | None => Undef OobIndex end in
  match c with
  | JNew g => t <- construct (fun _ => None) parse [] (jni_config g) ;; Ok (JObject (length made))
  | JEncode k s add => t <- fresh k ;; ids <- snd (jni_encode E fuel t s add) ;; Ok (JIds ids)
  | JDecode k ids skip => t <- fresh k ;; x <- jni_decode t ids skip ;; Ok (JText x)
  end.
(** a process whose calls are answered by [f]: it goes on as long as they succeed and ends with the first that does not *)
Inductive behaves (f : list ustr -> jcall -> res janswer) : list ustr -> list jcall -> list janswer -> res unit -> Prop :=
| bh_done made : behaves f made [] [] (Ok tt)
| bh_goes made c calls a l r : f made c = Ok a -> behaves f (made ++ configs [c]) calls l r -> behaves f made (c :: calls) (a :: l) r
| bh_throws made c calls e : f made c = Throw e -> behaves f made (c :: calls) [] (Throw e)
| bh_undefined made c calls u : f made c = Undef u -> behaves f made (c :: calls) [] (Undef u)
| bh_hangs made c calls : f made c = Diverge -> behaves f made (c :: calls) [] Diverge.
(** a configuration whose vocabulary has no id twice, or no empty token *)
Definition orderly (parse : bytes -> option json) (g : ustr) : Prop :=
  forall t m, construct (fun _ => None) parse [] (jni_config g) = Ok t -> tz_model t = Some m -> NoDup (map snd (model_vocab m)) \/ sfind [] (model_vocab m) = None.
(** a line of the file: no LF, no CR *)
Definition plain_line (l : ustr) : Prop := Forall (fun c => c <> 10%N /\ c <> 13%N) l.
(** the lines, each followed by [ending], then [last] *)
Definition file_of (ending : ustr) (lines : list ustr) (last : ustr) : ustr := flat_map (fun l => l ++ ending) lines ++ last.
Definition line_ending (e : ustr) : Prop := In e [[10]; [13]; [13; 10]]%N.
(** what is on the screen: the ids as a list of numerals, then the decoded text *)
Definition on_screen (ids : list Z) (decoded text : ustr) : Prop :=
  exists b, listing numeral ids b /\ text = str "Encoded: " ++ b ++ [10%N] ++ str "Decoded: " ++ decoded.
(** one click, on a tokenizer [t] constructed anew: nothing is said about the screen if the decoded text is not a Java string in the sense of JNI *)
Definition shown_for (E : env) (fuel : nat) (t : tokenizer) (input : ustr) (s : option ustr) : Prop :=
  exists ids d, snd (jni_encode E fuel t input true) = Ok ids /\ jni_decode t ids false = Ok d /\
    match d with Some text => exists x, on_screen ids text x /\ s = Some x | None => s = None end.
(** a text of ASCII characters other than NUL *)
Definition ascii_text (b : bytes) : Prop := Forall (fun c => (0 < c < 128)%N) b.
