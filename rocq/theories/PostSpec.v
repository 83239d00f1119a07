(** Specification vocabulary for post-processing. *)
From Verif Require Import Base Unicode Common PostProcessor.

(** Columns placed one after another; no overflowing part. *)
Definition concat_enc (l : list encoding) : encoding :=
  mkEnc (flat_map en_ids l) (flat_map en_type_ids l) (flat_map en_tokens l) (flat_map en_words l)
        (flat_map en_offsets l) (flat_map en_smask l) (flat_map en_amask l) [].

(** The type id of the latest [Sequence A] piece among [l]. *)
Fixpoint latest_A (l : list piece) : option Z :=
  match l with
  | [] => None
  | p :: r => match latest_A r with
              | Some t => Some t
              | None => if leqb (pc_kind p) (str "Sequence") && leqb (pc_id p) (str "A") then Some (pc_type p) else None
              end
  end.

(** What piece number [i] of the template contributes. *)
Definition contribution (single : list piece) (specials : list special_token) (add : bool) (e : encoding) (i : nat) : encoding :=
  match nth_error single i with
  | None => empty_enc
  | Some p =>
    if leqb (pc_kind p) (str "Sequence") then
      mkEnc (en_ids e)
            (match latest_A (firstn (S i) single) with
             | Some t => map (fun _ => t) (en_type_ids e)
             | None => en_type_ids e
             end)
            (en_tokens e) (en_words e) (en_offsets e) (en_smask e) (en_amask e) []
    else if leqb (pc_kind p) (str "SpecialToken") && add then
      match find (fun s => leqb (st_id s) (pc_id p)) specials with
      | Some s => mkEnc (st_ids s) (map (fun _ => pc_type p) (st_ids s)) (st_tokens s) (map (fun _ => None) (st_ids s))
                        (map (fun _ => (0, 0)) (st_ids s)) (map (fun _ => 1%Z) (st_ids s)) (map (fun _ => 1%Z) (st_ids s)) []
      | None => empty_enc
      end
    else empty_enc
  end.

(** Every declared special token lists as many tokens as ids. *)
Fixpoint specials_ok (p : post_processor) : Prop :=
  match p with
  | PTemplate _ specials => Forall (fun s => length (st_tokens s) = length (st_ids s)) specials
  | PByteLevel _ _ => True
  | PSequence l => (fix all (l : list post_processor) : Prop := match l with [] => True | q :: r => specials_ok q /\ all r end) l
  end.

(** [k] is the number of leading (trailing) characters U+0120 of the text [t]. *)
Definition leading_count (t : bytes) (k : nat) : Prop :=
  exists rest, from_utf8 t = repeat 0x120%N k ++ rest /\ hd_error rest <> Some 0x120%N.
Definition trailing_count (t : bytes) (k : nat) : Prop :=
  exists rest, from_utf8 t = rest ++ repeat 0x120%N k /\ hd_error (rev rest) <> Some 0x120%N.

(** [r] is [e] with the offsets trimmed: nothing else changes, and each pair (s, t) with s <= t loses as many positions at either end as its token has space symbols U+0120 there
    (never crossing); with add_prefix_space a single leading space symbol of the first token, or of a token starting at 0, does not count. *)
Definition kept_prefix (add_prefix_space : bool) (i s lead : nat) : nat := if add_prefix_space && ((i =? 0) || (s =? 0)) && (lead =? 1) then 0 else lead.
Definition trimmed (add_prefix_space : bool) (e r : encoding) : Prop :=
  en_ids r = en_ids e /\ en_type_ids r = en_type_ids e /\ en_tokens r = en_tokens e /\ en_words r = en_words e /\ en_smask r = en_smask e /\ en_amask r = en_amask e /\
  length (en_offsets r) = length (en_offsets e) /\
  forall i tok s t lead trail, nth_error (en_tokens e) i = Some tok -> nth_error (en_offsets e) i = Some (s, t) -> s <= t -> leading_count tok lead -> trailing_count tok trail ->
  let s' := Nat.min (s + kept_prefix add_prefix_space i s lead) t in
  nth_error (en_offsets r) i = Some (s', if trail <=? t then Nat.max (t - trail) s' else t).
