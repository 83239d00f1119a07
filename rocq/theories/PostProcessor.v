(** src/post_processor.cpp, include/tokenizers/post_processor.h *)
From Verif Require Import Base Unicode Common.

(** post_processor.cpp:34-38 class SpecialToken *)
Record special_token := mkSpecial { st_id : bytes; st_ids : list Z; st_tokens : list bytes }.

(** post_processor.cpp:40 class Piece, with the kind string it is paired with in [single] *)
Record piece := mkPiece { pc_kind : bytes; pc_id : bytes; pc_type : Z }.

(** post_processor.h: the concrete post-processors. [PTemplate] omits the [pair] template, which
    process() never reads. *)
(** post_processor.h:51-85, the subclasses of PostProcessor *)
Inductive post_processor :=
| PTemplate (single : list piece) (specials : list special_token)
| PByteLevel (add_prefix_space trim_offsets : bool)
| PSequence (l : list post_processor).

(** post_processor.cpp:159-167: std::find_if by id, default-constructed (empty) when absent *)
Definition find_special (id : bytes) (l : list special_token) : special_token :=
  match find (fun s => leqb (st_id s) id) l with Some s => s | None => mkSpecial [] [] [] end.

(** post_processor.cpp:158-180: the encoding of one special token piece; every column except [tokens] is sized by
    the number of ids. *)
Definition special_enc (specials : list special_token) (p : piece) : encoding :=
  let s := find_special (pc_id p) specials in
  let n := length (st_ids s) in
  mkEnc (st_ids s) (repeat (pc_type p) n) (st_tokens s) (repeat None n) (repeat (0, 0) n)
        (repeat 1%Z n) (repeat 1%Z n) [].

(** post_processor.cpp:150-152: assignment to encoding.type_ids *)
Definition set_type_ids (e : encoding) (t : list Z) : encoding :=
  mkEnc (en_ids e) t (en_tokens e) (en_words e) (en_offsets e) (en_smask e) (en_amask e) (en_overflowing e).

(** post_processor.cpp:147-183: the loop over [single]; [encoding.type_ids] is mutated and stays so for later
    pieces. *)
Fixpoint template_parts (single : list piece) (specials : list special_token) (add_special : bool)
         (e : encoding) : list encoding :=
  match single with
  | [] => []
  | p :: r =>
    if leqb (pc_kind p) (str "Sequence") then
      let e' := if leqb (pc_id p) (str "A")
                then set_type_ids e (repeat (pc_type p) (length (en_type_ids e))) else e in
      e' :: template_parts r specials add_special e'
    else if leqb (pc_kind p) (str "SpecialToken") then
      if add_special then special_enc specials p :: template_parts r specials add_special e
      else template_parts r specials add_special e
    else template_parts r specials add_special e
  end.

(** post_processor.cpp:186-203: append the seven columns; [overflowing] is not copied. *)
Definition append_enc (a b : encoding) : encoding :=
  mkEnc (en_ids a ++ en_ids b) (en_type_ids a ++ en_type_ids b) (en_tokens a ++ en_tokens b)
        (en_words a ++ en_words b) (en_offsets a ++ en_offsets b) (en_smask a ++ en_smask b)
        (en_amask a ++ en_amask b) (en_overflowing a).

(** post_processor.cpp:144-206 TemplateProcessing::process *)
Definition template_process (single : list piece) (specials : list special_token) (add_special : bool)
           (e : encoding) : encoding :=
  fold_left append_enc (template_parts single specials add_special e) empty_enc.

(** post_processor.cpp:219, 228: the text of one UTF-16 unit equals BYTES_CHAR.at(' ') *)
Definition is_space_symbol (u : N) : bool :=
  match nfind 32%N bytes_char with Some s => leqb s (to_utf8 [u]) | None => false end.

(** post_processor.cpp:216-224, 225-233: leading / trailing counts over UTF-16 units *)
Fixpoint count_while (f : N -> bool) (l : list N) : nat :=
  match l with
  | [] => 0
  | x :: r => if f x then S (count_while f r) else 0
  end.
(** post_processor.cpp:216-224 *)
Definition leading_spaces (t : bytes) : nat := count_while is_space_symbol (from_utf8 t).
(** post_processor.cpp:225-233 *)
Definition trailing_spaces (t : bytes) : nat := count_while is_space_symbol (rev (from_utf8 t)).

(** post_processor.cpp:211-250: one iteration *)
Definition trim_offset (add_prefix_space : bool) (i : nat) (t : bytes) (o : nat * nat) : nat * nat :=
  let lead := leading_spaces t in
  let trail := trailing_spaces t in
  let '(s, e) := o in
  let s' :=
    if 0 <? lead then
      let is_first := (i =? 0) || (s =? 0) in
      let lead := if is_first && add_prefix_space && (lead =? 1) then 0 else lead in
      Nat.min (s + lead) e
    else s in
  let e' := if (0 <? trail) && (trail <=? e) then Nat.max (e - trail) s' else e in
  (s', e').

(** post_processor.cpp:211: the loop over ids, indexing tokens[i] and offsets[i] *)
Fixpoint trim_all (add_prefix_space : bool) (i : nat) (ids : list Z) (toks : list bytes) (offs : list (nat * nat))
  : res (list (nat * nat)) :=
  match ids with
  | [] => Ok offs
  | _ :: ids' =>
    match toks, offs with
    | t :: ts, o :: os =>
      r <- trim_all add_prefix_space (S i) ids' ts os ;;
      Ok (trim_offset add_prefix_space i t o :: r)
    | _, _ => Undef OobIndex
    end
  end.

(** post_processor.cpp:249: assignment to the offsets column *)
Definition set_offsets (e : encoding) (o : list (nat * nat)) : encoding :=
  mkEnc (en_ids e) (en_type_ids e) (en_tokens e) (en_words e) o (en_smask e) (en_amask e) (en_overflowing e).

(** post_processor.cpp:208-252 ByteLevelProcessing::process_offsets *)
Definition process_offsets (add_prefix_space : bool) (e : encoding) : res encoding :=
  o <- trim_all add_prefix_space 0 (en_ids e) (en_tokens e) (en_offsets e) ;;
  Ok (set_offsets e o).

(** post_processor.cpp:260-270 ByteLevelProcessing::process: the encoding, then its overflowing ones (one level) *)
Definition byte_level_process (add_prefix_space trim : bool) (e : encoding) : res encoding :=
  if trim then
    e' <- process_offsets add_prefix_space e ;;
    ov <- mapM (process_offsets add_prefix_space) (en_overflowing e') ;;
    Ok (mkEnc (en_ids e') (en_type_ids e') (en_tokens e') (en_words e') (en_offsets e') (en_smask e')
              (en_amask e') ov)
  else Ok e.

(** post_processor.cpp:276-285 SequenceProcessing::process (std::accumulate) and virtual dispatch *)
Fixpoint process (p : post_processor) (e : encoding) (add_special : bool) {struct p} : res encoding :=
  match p with
  | PTemplate single specials => Ok (template_process single specials add_special e)
  | PByteLevel aps trim => byte_level_process aps trim e
  | PSequence l =>
    (fix go (l : list post_processor) (e : encoding) : res encoding :=
       match l with
       | [] => Ok e
       | q :: r => e' <- process q e add_special ;; go r e'
       end) l e
  end.
