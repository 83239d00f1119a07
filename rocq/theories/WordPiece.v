(** src/model.cpp:111-199: class Model and class WordPiece *)
From Verif Require Import Base Unicode Common PreTokenizer.

(** model.cpp:111-115 Model::Model: the reverse map, filled in iteration order (later entries overwrite) *)
Definition make_vocab_r (vocab : smap Z) : zmap bytes :=
  fold_left (fun r p => zset (snd p) (fst p) r) vocab [].

(** model.cpp:119-125 token_to_id, 127-133 id_to_token, 117 get_vocab_size *)
Definition token_to_id (vocab : smap Z) (t : bytes) : option Z := sfind t vocab.
(** model.cpp:127-133 id_to_token *)
Definition model_id_to_token (vocab : smap Z) (i : Z) : option bytes := zfind i (make_vocab_r vocab).
(** model.cpp:117 get_vocab_size *)
Definition vocab_size (vocab : smap Z) : Z := Z.of_nat (length vocab).

(** model.h class WordPiece *)
(** model.h:42-52 class WordPiece; model.cpp:135-141 *)
Record wordpiece := mkWp { wp_vocab : smap Z; wp_unk : bytes; wp_max : Z; wp_prefix : bytes }.

(** model.cpp:164-170: the candidate text of units [start, start + k) *)
Definition wp_candidate (w : wordpiece) (u : ustr) (start k : nat) : bytes :=
  let sub := to_utf8 (usub u start k) in
  if 0 <? start then wp_prefix w ++ sub else sub.

(** model.cpp:163-179: longest candidate in the vocabulary, k = end - start decreasing to 1 *)
Fixpoint wp_longest (w : wordpiece) (u : ustr) (start k : nat) : option (Z * nat) :=
  match k with
  | O => None
  | S k' =>
    match sfind (wp_candidate w u start k) (wp_vocab w) with
    | Some i => Some (i, k)
    | None => wp_longest w u start k'
    end
  end.

(** model.cpp:160-186: the outer loop; None = is_bad *)
Fixpoint wp_loop (fuel : nat) (w : wordpiece) (u : ustr) (start : nat) : res (option (list token)) :=
  match fuel with
  | O => Diverge
  | S f =>
    if start <? length u then
      match wp_longest w u start (length u - start) with
      | None => Ok None
      | Some (i, k) =>
        r <- wp_loop f w u (start + k) ;;
        Ok (match r with
            | None => None
            | Some ts => Some (mkTok i (wp_candidate w u start k) (start, start + k) :: ts)
            end)
      end
    else Ok (Some [])
  end.

(** model.cpp:149-155, 188-194: the unknown token; id 0 when it is not in the vocabulary *)
Definition wp_unk_token (w : wordpiece) (n : nat) : token :=
  mkTok (match sfind (wp_unk w) (wp_vocab w) with Some i => i | None => 0%Z end) (wp_unk w) (0, n).

(** model.cpp:145-196: one split *)
Definition wp_word (w : wordpiece) (t : bytes) : res (list token) :=
  let u := from_utf8 t in
  if (wp_max w <? Z.of_nat (length u))%Z then Ok [wp_unk_token w (length u)]
  else
    r <- wp_loop (S (length u)) w u 0 ;;
    Ok (match r with None => [wp_unk_token w (length u)] | Some ts => ts end).

(** model.cpp:143-199 WordPiece::tokenize: every split, including already recognised ones *)
Definition wp_tokenize (w : wordpiece) (p : pretok) : res pretok :=
  l <- mapM (fun s => ts <- wp_word w (sp_text s) ;; Ok (mkSplit (sp_text s) (sp_off s) ts)) (pt_splits p) ;;
  Ok (mkPt (pt_norm p) l).
