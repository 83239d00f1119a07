(** examples/run/run.cpp: the command-line program, which scripts/compare_outputs/run.sh compares with the reference implementation. *)
From Verif Require Import Base Unicode Common Utils Tokenizer Config.

(** the digits of std::cout << int (run.cpp:23, 27, 36), the last one first; the fuel is at least the number of binary digits *)
Fixpoint show_digits (fuel : nat) (n : N) : bytes :=
  match fuel with
  | O => []
  | S f => (48 + n mod 10)%N :: (if (n <? 10)%N then [] else show_digits f (n / 10))
  end.
(** std::cout << int: run.cpp:22-23, 27, 36 *)
Definition show_int (z : Z) : bytes :=
  let n := Z.to_N (Z.abs z) in (if (z <? 0)%Z then [45%N] else []) ++ rev (show_digits (S (N.size_nat n)) n).
(** std::optional<int>: run.cpp:24-30. Word indices are modelled as natural numbers. *)
Definition show_word (w : option nat) : bytes := match w with Some n => show_int (Z.of_nat n) | None => str "None" end.
(** std::string: run.cpp:31-33. Code 39 is the quote, 34 the double quote. *)
Definition show_token (t : bytes) : bytes := let q := if leqb t [39%N] then [34%N] else [39%N] in q ++ t ++ q.
(** std::pair<int, int>: run.cpp:34-37. Offsets are modelled as natural numbers. *)
Definition show_offsets (o : nat * nat) : bytes := str "(" ++ show_int (Z.of_nat (fst o)) ++ str ", " ++ show_int (Z.of_nat (snd o)) ++ str ")".
(** run.cpp:16-45 print_result: the elements and a newline *)
Fixpoint show_elems {A} (show : A -> bytes) (l : list A) : bytes :=
  match l with
  | [] => []
  | x :: r => show x ++ match r with [] => [] | _ => str ", " ++ show_elems show r end
  end.
(** run.cpp:16-45 print_result *)
Definition print_result {A} (show : A -> bytes) (l : list A) : bytes := str "[" ++ show_elems show l ++ str "]" ++ [10%N].

(** run.cpp:47-76 main. [args] are the arguments after the program's name; with fewer than two of them argv[1] or argv[2] is a null pointer or past the end.
    The result is what was printed and how the program ended: an exception ends it (std::terminate). *)
Definition run_main (E : env) (fuel : nat) (load : bytes -> option bytes) (parse : bytes -> option json) (args : list bytes) : bytes * res unit :=
  match args with
  | path :: text :: _ =>
    match (t <- construct load parse path [] ;; w <- convert_from_string text ;; Ok (t, w)) with
    | Ok (t, w) =>
      let '(t', r) := encode E fuel t w true in
      match (e <- r ;; i <- convert_to_string w ;; Ok (e, i)) with
      | Ok (e, i) =>
        let out := str "Encoding: " ++ i ++ [10%N] ++ str "ids: " ++ print_result show_int (en_ids e) ++ str "type_ids: " ++ print_result show_int (en_type_ids e) ++
                   str "tokens: " ++ print_result show_token (en_tokens e) ++ str "words: " ++ print_result show_word (en_words e) ++
                   str "offsets: " ++ print_result show_offsets (en_offsets e) ++ str "attention_mask: " ++ print_result show_int (en_amask e) in
        match decode t' (en_ids e) true with
        | Ok d => (out ++ str "Decoding: " ++ print_result show_int (en_ids e) ++ str "tokens: " ++ d ++ [10%N], Ok tt)
        | Throw x => (out, Throw x)
        | Undef x => (out, Undef x)
        | Diverge => (out, Diverge)
        end
      | Throw x => ([], Throw x)
      | Undef x => ([], Undef x)
      | Diverge => ([], Diverge)
      end
    | Throw x => ([], Throw x)
    | Undef x => ([], Undef x)
    | Diverge => ([], Diverge)
    end
  | _ => ([], Undef NullDeref)
  end.
