(** src/utils.cpp, include/tokenizers/utils.h: truncation and padding *)
From Verif Require Import Base Common.

(** utils.h:14-18, 22-27 *)
Inductive tdir := TRight | TLeft | TUnknown.
(** utils.h:22-27 TRUNCATION_STRATEGY *)
Inductive tstrat := LongestFirst | OnlyFirst | OnlySecond | TSUnknown.

(** utils.cpp:15-25 get_truncation_direction *)
Definition get_truncation_direction (d : bytes) : tdir :=
  if leqb d (str "Right") then TRight else if leqb d (str "Left") then TLeft else TUnknown.

(** utils.cpp:27-38 get_truncation_strategy *)
Definition get_truncation_strategy (s : bytes) : tstrat :=
  if leqb s (str "LongestFirst") then LongestFirst
  else if leqb s (str "OnlyFirst") then OnlyFirst
  else if leqb s (str "OnlySecond") then OnlySecond else TSUnknown.

(** utils.h:31-42 class Truncation; int fields as Z *)
Record truncation := mkTrunc { t_dir : tdir; t_strat : tstrat; t_max : Z; t_stride : Z }.

(** utils.cpp:61-67, the loop for direction Right. [n] = encoding.ids.size(). [start < encoding.ids.size()]
    compares an int with a size_t. int overflow of [start] is in IntChecked.v. *)
Fixpoint right_ranges (fuel : nat) (n maxl offset start : Z) (stop_seen : bool) : res (list (Z * Z)) :=
  match fuel with
  | O => Diverge
  | S f =>
    if (size_t_of_int start <? n)%Z then
      if stop_seen then right_ranges f n maxl offset (start + offset) stop_seen
      else
        let stop := Z.min (start + maxl) n in
        rest <- right_ranges f n maxl offset (start + offset) (stop =? n)%Z ;;
        Ok ((start, stop) :: rest)
    else Ok []
  end.

(** utils.cpp:69-76, the loop for direction Left; note [stop += 1] at the top of the body. *)
Fixpoint left_ranges (fuel : nat) (maxl offset stop : Z) (end_seen : bool) : res (list (Z * Z)) :=
  match fuel with
  | O => Diverge
  | S f =>
    if (0 <=? stop)%Z then
      let stop := (stop + 1)%Z in
      let start := (if stop <? maxl then 0 else stop - maxl)%Z in
      if ((start <? stop)%Z && negb end_seen)%bool then
        rest <- left_ranges f maxl offset (stop - offset) (start =? 0)%Z ;;
        Ok ((start, stop) :: rest)
      else left_ranges f maxl offset (stop - offset) end_seen
    else Ok []
  end.

(** utils.cpp:79-93 and 97-112: the sub-encoding of one range; slicing outside a column is undefined. *)
Definition zslice {A} (l : list A) (a b : Z) : res (list A) :=
  if (0 <=? a)%Z then vslice l (Z.to_nat a) (Z.to_nat b) else Undef OobIndex.

(** utils.cpp:79-93, 97-112: the seven columns of one range *)
Definition slice_enc (e : encoding) (r : Z * Z) : res encoding :=
  let '(a, b) := r in
  i <- zslice (en_ids e) a b ;;
  t <- zslice (en_type_ids e) a b ;;
  k <- zslice (en_tokens e) a b ;;
  w <- zslice (en_words e) a b ;;
  o <- zslice (en_offsets e) a b ;;
  s <- zslice (en_smask e) a b ;;
  m <- zslice (en_amask e) a b ;;
  Ok (mkEnc i t k w o s m []).

(** utils.cpp:53-56, 79-112: assignment to overflowing *)
Definition set_overflowing (e : encoding) (o : list encoding) : encoding :=
  mkEnc (en_ids e) (en_type_ids e) (en_tokens e) (en_words e) (en_offsets e) (en_smask e) (en_amask e) o.

(** utils.cpp:47-115 truncate *)
Definition truncate (fuel : nat) (e : encoding) (maxl stride : Z) (d : tdir) : res encoding :=
  let n := Z.of_nat (length (en_ids e)) in
  if (n <=? maxl)%Z then Ok e
  else if (maxl =? 0)%Z then Ok (set_overflowing e [])
  else
    let offset := (maxl - stride)%Z in
    ranges <- match d with
              | TRight => right_ranges fuel n maxl offset 0 false
              | TLeft => left_ranges fuel maxl offset (n - 1) false
              | TUnknown => Ok []
              end ;;
    match ranges with
    | [] => Undef OobIndex                       (* parts_ranges[0] on an empty vector *)
    | first :: others =>
      e0 <- slice_enc e first ;;
      ov <- mapM (slice_enc e) others ;;
      Ok (set_overflowing e0 ov)
    end.

(** utils.cpp:117-135 Truncation::truncate_encoding *)
Definition truncate_encoding (fuel : nat) (t : truncation) (e : encoding) : res encoding :=
  let n := Z.of_nat (length (en_ids e)) in
  if (t_max t =? 0)%Z then truncate fuel e 0 (t_stride t) (t_dir t)
  else if (n <=? size_t_of_int (t_max t))%Z then Ok e
  else
    let to_remove := (n - t_max t)%Z in
    match t_strat t with
    | LongestFirst => truncate fuel e (n - to_remove) (t_stride t) (t_dir t)
    | OnlyFirst => if (to_remove <? n)%Z then truncate fuel e (t_max t) (t_stride t) (t_dir t) else Ok e
    | OnlySecond | TSUnknown => Ok e
    end.

(** utils.h:44-48, 52-56 *)
Inductive pdir := PRight | PLeft | PUnknown.
(** utils.h:52-56 PADDING_STRATEGY *)
Inductive pstrat := BatchLongest | Fixed | PSUnknown.

(** utils.cpp:162-171 get_padding_direction *)
Definition get_padding_direction (d : bytes) : pdir :=
  if leqb d (str "Right") then PRight else if leqb d (str "Left") then PLeft else PUnknown.

(** utils.cpp:173-183 get_padding_strategy *)
Definition get_padding_strategy (s : bytes) : pstrat :=
  if leqb s (str "BatchLongest") then BatchLongest else if leqb s (str "Fixed") then Fixed else PSUnknown.

(** utils.h:60-75 class Padding *)
Record padding := mkPad {
  p_dir : pdir; p_strat : pstrat; p_fixed : Z; p_id : Z; p_type_id : Z; p_token : bytes; p_multiple : Z }.

(** utils.cpp:208-229: insert [k] copies at the front / back of every column; words get the int 0. *)
Definition pad_left (k : nat) (p : padding) (e : encoding) : encoding :=
  mkEnc (repeat (p_id p) k ++ en_ids e) (repeat (p_type_id p) k ++ en_type_ids e)
        (repeat (p_token p) k ++ en_tokens e) (repeat (Some 0) k ++ en_words e)
        (repeat (0, 0) k ++ en_offsets e) (repeat 1%Z k ++ en_smask e) (repeat 0%Z k ++ en_amask e)
        (en_overflowing e).
(** utils.cpp:208-229: direction Right *)
Definition pad_right (k : nat) (p : padding) (e : encoding) : encoding :=
  mkEnc (en_ids e ++ repeat (p_id p) k) (en_type_ids e ++ repeat (p_type_id p) k)
        (en_tokens e ++ repeat (p_token p) k) (en_words e ++ repeat (Some 0) k)
        (en_offsets e ++ repeat (0, 0) k) (en_smask e ++ repeat 1%Z k) (en_amask e ++ repeat 0%Z k)
        (en_overflowing e).

(** utils.cpp:204-230: the body of pad after the recursive calls. [encoding.ids.size() >= target_length]
    compares a size_t with an int, so a negative target reads as a huge value; then
    [pad_length = target - size] is negative and vector::insert of that many (size_t) elements throws. (Exact as long as target - size is an int;
    otherwise the conversion to int wraps around: IntChecked.v pad_one_ck, C96_padding_wraps.) *)
Definition pad_one (target : Z) (p : padding) (e : encoding) : res encoding :=
  let n := Z.of_nat (length (en_ids e)) in
  if (size_t_of_int target <=? n)%Z then Ok e
  else
    let k := (target - n)%Z in
    match p_dir p with
    | PUnknown => Ok e
    | PLeft => if (k <? 0)%Z then Throw LengthError else Ok (pad_left (Z.to_nat k) p e)
    | PRight => if (k <? 0)%Z then Throw LengthError else Ok (pad_right (Z.to_nat k) p e)
    end.

(** utils.cpp:196-231 pad: overflowing encodings first (198-203), recursively, then the encoding itself. *)
Fixpoint pad (target : Z) (p : padding) (e : encoding) {struct e} : res encoding :=
  match e with
  | mkEnc i t k w o s m ov =>
    ov' <- (fix go (l : list encoding) : res (list encoding) :=
              match l with
              | [] => Ok []
              | x :: r => y <- pad target p x ;; ys <- go r ;; Ok (y :: ys)
              end) ov ;;
    pad_one target p (mkEnc i t k w o s m ov')
  end.

(** utils.cpp:233-240 Padding::pad_encoding; C++ % truncates towards zero (Z.rem). *)
Definition pad_target (p : padding) (e : encoding) : Z :=
  let l := match p_strat p with Fixed => p_fixed p | _ => Z.of_nat (length (en_ids e)) end in
  if ((0 <? p_multiple p)%Z && (0 <? Z.rem l (p_multiple p))%Z)%bool
  then (l + (p_multiple p - Z.rem l (p_multiple p)))%Z else l.

(** utils.cpp:233-240 Padding::pad_encoding *)
Definition pad_encoding (p : padding) (e : encoding) : res encoding := pad (pad_target p e) p e.
