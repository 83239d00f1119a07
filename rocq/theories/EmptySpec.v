(** Encoding the empty text: what becomes of the single empty piece a tokenizer starts with. *)
From Verif Require Import Base Unicode Common Normalizer PreTokenizer.

(** On the empty string a regular expression either does not match or matches once, at 0, with length 0. *)
Definition honest_on_empty (E : env) : Prop :=
  forall pat l, e_icu_matches E pat [] = Some l -> l = [] \/ l = [(0, 0)].

(** How many (empty) pieces are left of [n] empty pieces:
    - BertPreTokenizer and ByteLevel with its pattern drop them all;
    - ByteLevel without the pattern keeps them, and add_prefix_space makes it throw whatever is left;
    - Split keeps them exactly when it isolates the match of a pattern that matches the empty string; an invalid pattern is a null
      pointer dereference as soon as there is a piece to split. *)
Fixpoint left_of_empty (E : env) (t : pre_tokenizer) (n : nat) {struct t} : res nat :=
  match t with
  | TBert => Ok 0
  | TByteLevel true _ => Throw OutOfRange
  | TByteLevel false true => Ok 0
  | TByteLevel false false => Ok n
  | TSplit pat b _ =>
    if n =? 0 then Ok 0
    else if leqb pat (str "\s+") || leqb pat (str "\p{P}") || leqb pat (str "'s|'") then Ok 0
    else match e_icu_matches E pat [] with
         | None => Undef NullDeref
         | Some [] => Ok 0
         | Some (_ :: _) => match b with ISOLATED => Ok n | REMOVED => Ok 0 end
         end
  | TSequence l =>
    (fix go (l : list pre_tokenizer) (n : nat) : res nat :=
       match l with [] => Ok n | q :: r => m <- left_of_empty E q n ;; go r m end) l n
  end.
Definition left_by (E : env) (t : option pre_tokenizer) : res nat :=
  match t with None => Ok 1 | Some p => left_of_empty E p 1 end.
