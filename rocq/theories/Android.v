(** android/tokenizers_android/src/main/java/xyz/omkar/tokenizers/Tokenizer.java and android/app/src/main/java/xyz/omkar/tokenizers/MainActivity.kt: a process with Java Tokenizer
    objects, and the example activity. The native methods are in Jni.v. A C++ exception that leaves a native method (nothing in tokenizers_android_jni.cpp catches one) cannot pass the
    virtual machine's frames and ends the process. *)
From Verif Require Import Base Unicode Common Utils Decoder Tokenizer Config Jni Run.
Import ListNotations.

(** Tokenizer.java:7-9, 11-13, 15-17: the calls a program can make; objects are numbered in the order of their construction *)
Inductive jcall :=
| JNew (config : ustr)
| JEncode (object : nat) (sequence : ustr) (add_special : bool)
| JDecode (object : nat) (ids : list Z) (skip_special : bool).
(** Tokenizer.java:7-17: what they return; for a decoded text which is not modified UTF-8 the JNI specification says nothing (None) *)
Inductive janswer := JObject (object : nat) | JIds (ids : list Z) | JText (text : option ustr).

(** Tokenizer.java:7-26, tokenizers_android_jni.cpp:8-40. [heap] holds the native tokenizers, in the order of construction: nativePtr is final and nothing is ever deleted. *)
Definition java_step (E : env) (fuel : nat) (parse : bytes -> option json) (heap : list tokenizer) (c : jcall) : res (list tokenizer * janswer) :=
  match c with
  | JNew config => t <- construct (fun _ => None) parse [] (jni_config config) ;; Ok (heap ++ [t], JObject (length heap))
  | JEncode k s add =>
    t <- vat heap k ;;
    let '(t', r) := jni_encode E fuel t s add in
    ids <- r ;; heap' <- vset heap k t' ;; Ok (heap', JIds ids)
  | JDecode k ids skip => t <- vat heap k ;; x <- jni_decode t ids skip ;; Ok (heap, JText x)
  end.

(** Tokenizer.java:3-28: a process making the calls one after the other: the answers it got, and how it ended *)
Fixpoint java_run (E : env) (fuel : nat) (parse : bytes -> option json) (heap : list tokenizer) (calls : list jcall) : list janswer * res (list tokenizer) :=
  match calls with
  | [] => ([], Ok heap)
  | c :: rest =>
    match java_step E fuel parse heap c with
    | Ok (heap', a) => let '(l, r) := java_run E fuel parse heap' rest in (a :: l, r)
    | Throw e => ([], Throw e)
    | Undef u => ([], Undef u)
    | Diverge => ([], Diverge)
    end
  end.

(** MainActivity.kt:44-48: BufferedReader.readLine ends a line at LF, CR or CR LF; [cur] is the line read so far, [cr] whether the last character was a CR *)
Fixpoint read_lines (u cur : ustr) (cr : bool) : list ustr :=
  match u with
  | [] => if is_nil cur then [] else [cur]
  | x :: r =>
    if (x =? 10)%N then (if cr then read_lines r [] false else cur :: read_lines r [] false)
    else if (x =? 13)%N then cur :: read_lines r [] true
    else read_lines r (cur ++ [x]) false
  end.
(** MainActivity.kt:47 joinToString *)
Fixpoint join_lines (l : list ustr) : ustr := match l with [] => [] | x :: r => x ++ match r with [] => [] | _ => 10%N :: join_lines r end end.
(** MainActivity.kt:44-48 getTokenizerConfig, from the decoded contents of the asset *)
Definition asset_config (asset : ustr) : ustr := join_lines (read_lines asset [] false).

(** MainActivity.kt:40: the text shown; a Kotlin list prints as [1, 2, 3] *)
Definition screen (ids : list Z) (decoded : ustr) : ustr :=
  str "Encoded: " ++ str "[" ++ show_elems show_int ids ++ str "]" ++ [10%N] ++ str "Decoded: " ++ decoded.

(** MainActivity.kt:37-41: the click listener; None: the decoded text is left open by the JNI specification *)
Definition click (E : env) (fuel : nat) (parse : bytes -> option json) (heap : list tokenizer) (input : ustr) : res (list tokenizer * option ustr) :=
  '(h1, a) <- java_step E fuel parse heap (JEncode 0 input true) ;;
  match a with
  | JIds ids =>
    '(h2, b) <- java_step E fuel parse h1 (JDecode 0 ids false) ;;
    Ok (h2, match b with JText (Some d) => Some (screen ids d) | _ => None end)
  | _ => Ok (h1, None)
  end.
(** MainActivity.kt:37-41: several clicks *)
Fixpoint clicks (E : env) (fuel : nat) (parse : bytes -> option json) (heap : list tokenizer) (inputs : list ustr) : res (list tokenizer * list (option ustr)) :=
  match inputs with
  | [] => Ok (heap, [])
  | i :: rest => '(h1, s) <- click E fuel parse heap i ;; '(h2, l) <- clicks E fuel parse h1 rest ;; Ok (h2, s :: l)
  end.
(** MainActivity.kt:21-42 onCreate, then the clicks *)
Definition activity (E : env) (fuel : nat) (parse : bytes -> option json) (asset : ustr) (inputs : list ustr) : res (list (option ustr)) :=
  '(h, _) <- java_step E fuel parse [] (JNew (asset_config asset)) ;;
  '(_, l) <- clicks E fuel parse h inputs ;; Ok l.
