(** The int arithmetic of src/utils.cpp and src/added_vocabulary.cpp with its range: every + and - on C++ ints whose result is not an int is undefined behaviour.
    (The other files compute with unbounded integers; here the same functions are transcribed again with the check. Conversions between int and size_t are modular, not
    undefined, and are written as in Utils.v.) *)
From Verif Require Import Base Common Utils PostProcessor PreTokenizer WordPiece Bpe AddedVocab Tokenizer.

(** the result of a signed int operation *)
Definition ck (z : Z) : res Z := if ((- 2 ^ 31 <=? z) && (z <? 2 ^ 31))%Z then Ok z else Undef IntOverflow.

(** utils.cpp:61-67: start + max_length and start += offset *)
Fixpoint right_ranges_ck (fuel : nat) (n maxl offset start : Z) (stop_seen : bool) : res (list (Z * Z)) :=
  match fuel with
  | O => Diverge
  | S f =>
    if (size_t_of_int start <? n)%Z then
      if stop_seen then next <- ck (start + offset) ;; right_ranges_ck f n maxl offset next stop_seen
      else
        sum <- ck (start + maxl) ;;
        let stop := Z.min sum n in
        next <- ck (start + offset) ;;
        rest <- right_ranges_ck f n maxl offset next (stop =? n)%Z ;;
        Ok ((start, stop) :: rest)
    else Ok []
  end.

(** utils.cpp:69-76: stop += 1, stop - max_length and stop -= offset *)
Fixpoint left_ranges_ck (fuel : nat) (maxl offset stop : Z) (end_seen : bool) : res (list (Z * Z)) :=
  match fuel with
  | O => Diverge
  | S f =>
    if (0 <=? stop)%Z then
      stop <- ck (stop + 1) ;;
      start <- (if stop <? maxl then Ok 0 else ck (stop - maxl))%Z ;;
      if ((start <? stop)%Z && negb end_seen)%bool then
        next <- ck (stop - offset) ;;
        rest <- left_ranges_ck f maxl offset next (start =? 0)%Z ;;
        Ok ((start, stop) :: rest)
      else next <- ck (stop - offset) ;; left_ranges_ck f maxl offset next end_seen
    else Ok []
  end.

(** utils.cpp:47-115: offset = max_length - stride (57) *)
Definition truncate_ck (fuel : nat) (e : encoding) (maxl stride : Z) (d : tdir) : res encoding :=
  let n := Z.of_nat (length (en_ids e)) in
  if (n <=? maxl)%Z then Ok e
  else if (maxl =? 0)%Z then Ok (set_overflowing e [])
  else
    offset <- ck (maxl - stride) ;;
    ranges <- match d with
              | TRight => right_ranges_ck fuel n maxl offset 0 false
              | TLeft => left_ranges_ck fuel maxl offset (n - 1) false
              | TUnknown => Ok []
              end ;;
    match ranges with
    | [] => Undef OobIndex
    | first :: others =>
      e0 <- slice_enc e first ;;
      ov <- mapM (slice_enc e) others ;;
      Ok (set_overflowing e0 ov)
    end.

(** utils.cpp:117-135: to_remove and the arguments of truncate are size_t differences converted to int *)
Definition truncate_encoding_ck (fuel : nat) (t : truncation) (e : encoding) : res encoding :=
  let n := Z.of_nat (length (en_ids e)) in
  if (t_max t =? 0)%Z then truncate_ck fuel e 0 (t_stride t) (t_dir t)
  else if (n <=? size_t_of_int (t_max t))%Z then Ok e
  else
    let to_remove := (n - t_max t)%Z in
    match t_strat t with
    | LongestFirst => truncate_ck fuel e (n - to_remove) (t_stride t) (t_dir t)
    | OnlyFirst => if (to_remove <? n)%Z then truncate_ck fuel e (t_max t) (t_stride t) (t_dir t) else Ok e
    | OnlySecond | TSUnknown => Ok e
    end.

(** utils.cpp:233-240: pad_length += pad_to_multiple_of - pad_length % pad_to_multiple_of (237) *)
Definition pad_target_ck (p : padding) (e : encoding) : res Z :=
  let l := match p_strat p with Fixed => p_fixed p | _ => Z.of_nat (length (en_ids e)) end in
  if ((0 <? p_multiple p)%Z && (0 <? Z.rem l (p_multiple p))%Z)%bool
  then missing <- ck (p_multiple p - Z.rem l (p_multiple p)) ;; ck (l + missing) else Ok l.
(** utils.cpp:207: the size_t difference target_length - size converted to int, modulo 2^32 *)
Definition pad_missing (target n : Z) : Z := ((target - n + 2147483648) mod 4294967296 - 2147483648)%Z.
(** utils.cpp:204-230 *)
Definition pad_one_ck (target : Z) (p : padding) (e : encoding) : res encoding :=
  let n := Z.of_nat (length (en_ids e)) in
  if (size_t_of_int target <=? n)%Z then Ok e
  else
    let k := pad_missing target n in
    match p_dir p with
    | PUnknown => Ok e
    | PLeft => if (k <? 0)%Z then Throw LengthError else Ok (pad_left (Z.to_nat k) p e)
    | PRight => if (k <? 0)%Z then Throw LengthError else Ok (pad_right (Z.to_nat k) p e)
    end.
(** utils.cpp:196-231 *)
Fixpoint pad_ck (target : Z) (p : padding) (e : encoding) {struct e} : res encoding :=
  match e with
  | mkEnc i t k w o s m ov =>
    ov' <- (fix go (l : list encoding) : res (list encoding) :=
              match l with
              | [] => Ok []
              | x :: r => y <- pad_ck target p x ;; ys <- go r ;; Ok (y :: ys)
              end) ov ;;
    pad_one_ck target p (mkEnc i t k w o s m ov')
  end.
(** utils.cpp:233-240 *)
Definition pad_encoding_ck (p : padding) (e : encoding) : res encoding := target <- pad_target_ck p e ;; pad_ck target p e.

(** tokenizer.cpp:173-185, 92-105 *)
Definition do_post_process_ck (fuel : nat) (t : tokenizer) (e : encoding) (add_special : bool) : res encoding :=
  e1 <- match tz_trunc t with Some tr => truncate_encoding_ck fuel tr e | None => Ok e end ;;
  e2 <- match tz_post t with Some pp => process pp e1 add_special | None => Ok e1 end ;;
  match tz_pad t with Some pd => pad_encoding_ck pd e2 | None => Ok e2 end.
(** tokenizer.cpp:92-105 *)
Definition encode_ck (E : env) (fuel : nat) (t : tokenizer) (s : wstr) (add_special : bool) : tokenizer * res encoding :=
  match prepare E t s with
  | Ok (av, p) =>
    let t1 := set_av t av in
    let '(t2, r) := match tz_model t1 with
                    | Some m => let '(m', r) := model_tokenize E m p in (set_model t1 (Some m'), r)
                    | None => (t1, Ok p)
                    end in
    (t2, p' <- r ;; e <- into_encoding p' 0 ;; do_post_process_ck fuel t2 e add_special)
  | Throw e => (set_av t (prepare_av E t s), Throw e)
  | Undef u => (set_av t (prepare_av E t s), Undef u)
  | Diverge => (set_av t (prepare_av E t s), Diverge)
  end.

(** added_vocabulary.cpp:72-92: max_val_token->second + 1 (88) *)
Definition choose_id_ck (av : added_vocab) (vocab : option (smap Z)) (content : bytes) : res Z :=
  match sfind content (av_map av) with
  | Some i => Ok i
  | None =>
    match vocab with
    | None => Undef NullDeref
    | Some v =>
      match token_to_id v content with
      | Some i => Ok i
      | None =>
        match max_value (av_map av) with
        | None => if (vocab_size v =? 0)%Z then Undef DerefEnd else Ok (vocab_size v)
        | Some mx => if (vocab_size v =? 0)%Z || (vocab_size v <=? mx)%Z then ck (mx + 1) else Ok (vocab_size v)
        end
      end
    end
  end.
(** added_vocabulary.cpp:66-99 *)
Fixpoint assign_ids_ck (alias : bool) (av : added_vocab) (vocab : option (smap Z)) (l : list added_token) : res added_vocab :=
  match l with
  | [] => Ok av
  | t :: r =>
    if is_nil (at_content t) then assign_ids_ck alias av vocab r
    else
      i <- choose_id_ck av vocab (at_content t) ;;
      let map' := sset (at_content t) i (av_map av) in
      let map_r' := zset i t (av_map_r av) in
      if smem (at_content t) (av_special_set av) then
        assign_ids_ck alias
          (mkAv (av_added av) (av_specials av) (av_special_set av) map' map_r' (av_trie_norm av) (av_trie_raw av))
          vocab r
      else if alias then Undef IterInvalidated
      else
        assign_ids_ck alias
          (mkAv (av_added av ++ [t]) (av_specials av) (av_special_set av) map' map_r' (av_trie_norm av) (av_trie_raw av))
          vocab r
  end.
(** added_vocabulary.cpp:55-104; tokenizer.cpp:126-133 *)
Definition av_add_tokens_ck (alias : bool) (av : added_vocab) (vocab : option (smap Z)) (l : list added_token) : res (added_vocab * Z) :=
  let av1 := fold_left register_special l av in
  av2 <- assign_ids_ck alias av1 vocab l ;;
  av3 <- refresh_added_tokens av2 vocab ;;
  Ok (av3, (Z.of_nat (length l) - Z.of_nat (length (filter (fun t => is_nil (at_content t)) l)))%Z).
(** tokenizer.cpp:126-128 *)
Definition add_tokens_ck (alias : bool) (t : tokenizer) (l : list added_token) : res (tokenizer * Z) :=
  match tz_av t with
  | None => Undef NullDeref
  | Some av =>
    '(av', n) <- av_add_tokens_ck alias av (option_map model_vocab (tz_model t)) l ;;
    Ok (set_av t (Some av'), n)
  end.
