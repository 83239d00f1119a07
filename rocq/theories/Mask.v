(** examples/libtorch-bert/mobilebert-uncased.cpp: filling in a masked word with a neural network. *)
From Verif Require Import Base Unicode Common Utils Tokenizer Config.

(** mobilebert-uncased.cpp:13-19, 39-44: the network, from the ids and the attention mask to the scores of all ids at every position (predictions[0]). Only the order of the scores
    matters, so they are modelled as integers (no NaN). The network is a parameter; forward may throw. *)
Definition network : Type := list Z -> list Z -> res (list (list Z)).

(** mobilebert-uncased.cpp:26-32: the loop that looks for id 103, from position [i] on; -1 if there is none *)
Fixpoint masked_index (ids : list Z) (i : Z) : Z :=
  match ids with
  | [] => -1
  | x :: r => if x =? 103 then i else masked_index r (i + 1)
  end%Z.

(** mobilebert-uncased.cpp:45 Tensor::operator[]: negative indices count from the end; c10::IndexError (modelled as OutOfRange) outside the tensor *)
Definition tensor_at {A} (l : list A) (i : Z) : res A :=
  let n := Z.of_nat (length l) in
  let j := (if i <? 0 then i + n else i)%Z in
  if ((0 <=? j) && (j <? n))%Z then match nth_error l (Z.to_nat j) with Some x => Ok x | None => Throw OutOfRange end else Throw OutOfRange.

(** mobilebert-uncased.cpp:46 Tensor::argmax(): the first index of the greatest score; it throws c10::IndexError for an empty tensor. [best] and [at_] are the greatest score so far and its index. *)
Fixpoint argmax_from (l : list Z) (i at_ : nat) (best : Z) : nat :=
  match l with
  | [] => at_
  | x :: r => if (best <? x)%Z then argmax_from r (S i) i x else argmax_from r (S i) at_ best
  end.
(** mobilebert-uncased.cpp:46 *)
Definition argmax (l : list Z) : res Z :=
  match l with
  | [] => Throw OutOfRange
  | x :: r => Ok (Z.of_nat (argmax_from r 1 0 x))
  end.

(** mobilebert-uncased.cpp:23-47 after the network was loaded: what is printed last. [rest] are the arguments after the first; where one is missing, std::string is made from a null pointer. *)
Definition fill (E : env) (fuel : nat) (net : network) (load : bytes -> option bytes) (parse : bytes -> option json) (rest : list bytes) : res bytes :=
  path <- match rest with [] => Undef NullDeref | p :: _ => Ok p end ;;
  t <- construct load parse path [] ;;
  text <- match rest with _ :: x :: _ => Ok x | _ => Undef NullDeref end ;;
  w <- convert_from_string text ;;
  let '(t', r) := encode E fuel t w true in
  e <- r ;;
  scores <- net (en_ids e) (en_amask e) ;;
  row <- tensor_at scores (masked_index (en_ids e) 0) ;;
  best <- argmax row ;;
  decode t' [best] true.

(** mobilebert-uncased.cpp:12-50 main: what is printed on standard output, and the exit status. [load_net] is torch::jit::load (None: c10::Error, caught at lines 16-19). *)
Definition mask_main (E : env) (fuel : nat) (load_net : bytes -> option network) (load : bytes -> option bytes) (parse : bytes -> option json) (args : list bytes) : bytes * res Z :=
  match args with
  | [] => ([], Undef NullDeref)
  | name :: rest =>
    match load_net name with
    | None => ([], Ok (-1)%Z)
    | Some net =>
      let out := str "loaded the model from " ++ name ++ [10%N] in
      match fill E fuel net load parse rest with
      | Ok d => (out ++ d ++ [10%N], Ok 0%Z)
      | Throw x => (out, Throw x)
      | Undef x => (out, Undef x)
      | Diverge => (out, Diverge)
      end
    end
  end.
