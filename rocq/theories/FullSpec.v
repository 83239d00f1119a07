(** What truncation, the post-processor and padding make of the rows of a text (C109), position by position. *)
From Verif Require Import Base Unicode Common Utils PostProcessor Tokenizer Spec PostSpec TzSpec.

(** Truncation: the first (Right) or the last (Left) max_length positions when it is active, else all. *)
Definition kept_rows (t : option truncation) (rs ks : list row) : Prop :=
  match t with
  | None => ks = rs
  | Some tr => (~ truncation_active tr (length rs) -> ks = rs) /\
      (truncation_active tr (length rs) -> Z.of_nat (length ks) = t_max tr /\
         match t_dir tr with TRight => exists rest, rs = ks ++ rest | TLeft => exists front, rs = front ++ ks | TUnknown => False end)
  end.

(** A template: every Sequence piece is the text, with the type id of the latest piece A; every SpecialToken piece is what was declared for it. *)
Definition retyped (ty : Z) (r : row) : row := mkRow (r_id r) ty (r_token r) (r_word r) (r_off r) (r_smask r) (r_amask r).
Definition special_position (ty : Z) (p : Z * bytes) : row := mkRow (fst p) ty (snd p) None (0, 0) 1 1.
Inductive template_rows (specials : list special_token) (add : bool) : list piece -> list row -> list row -> Prop :=
| tr_end rs : template_rows specials add [] rs []
| tr_text_a p l rs out : pc_kind p = str "Sequence" -> pc_id p = str "A" -> template_rows specials add l (map (retyped (pc_type p)) rs) out ->
    template_rows specials add (p :: l) rs (map (retyped (pc_type p)) rs ++ out)
| tr_text_b p l rs out : pc_kind p = str "Sequence" -> pc_id p <> str "A" -> template_rows specials add l rs out -> template_rows specials add (p :: l) rs (rs ++ out)
| tr_special p st l rs out : pc_kind p = str "SpecialToken" -> add = true -> find (fun s => leqb (st_id s) (pc_id p)) specials = Some st -> template_rows specials add l rs out ->
    template_rows specials add (p :: l) rs (map (special_position (pc_type p)) (combine (st_ids st) (st_tokens st)) ++ out)
| tr_nothing p l rs out : pc_kind p <> str "Sequence" -> (pc_kind p <> str "SpecialToken" \/ add = false \/ find (fun s => leqb (st_id s) (pc_id p)) specials = None) ->
    template_rows specials add l rs out -> template_rows specials add (p :: l) rs out.

(** ByteLevel with trim_offsets: nothing changes but the offsets, by the symbols U+0120 at either end of the token (see [trimmed] in PostSpec.v). *)
Definition trimmed_row (add_prefix_space : bool) (i : nat) (a b : row) : Prop :=
  r_id b = r_id a /\ r_type b = r_type a /\ r_token b = r_token a /\ r_word b = r_word a /\ r_smask b = r_smask a /\ r_amask b = r_amask a /\
  forall lead trail, fst (r_off a) <= snd (r_off a) -> leading_count (r_token a) lead -> trailing_count (r_token a) trail ->
  let s' := Nat.min (fst (r_off a) + kept_prefix add_prefix_space i (fst (r_off a)) lead) (snd (r_off a)) in
  r_off b = (s', if trail <=? snd (r_off a) then Nat.max (snd (r_off a) - trail) s' else snd (r_off a)).
Definition trimmed_rows (add_prefix_space : bool) (rs out : list row) : Prop :=
  length out = length rs /\ forall i a b, nth_error rs i = Some a -> nth_error out i = Some b -> trimmed_row add_prefix_space i a b.

(** The post-processor. *)
Fixpoint posted_rows (add : bool) (p : post_processor) (rs out : list row) {struct p} : Prop :=
  match p with
  | PTemplate single specials => template_rows specials add single rs out
  | PByteLevel aps trim => if trim then trimmed_rows aps rs out else out = rs
  | PSequence l => (fix go (l : list post_processor) (rs : list row) : Prop := match l with [] => out = rs | q :: r => exists m, posted_rows add q rs m /\ go r m end) l rs
  end.

(** Padding: up to the target, on the configured side, with rows of the pad token (word 0, offsets (0,0), special mask 1, attention 0). *)
Definition padded_rows (p : option padding) (rs out : list row) : Prop :=
  match p with
  | None => out = rs
  | Some p => match p_dir p with
      | PUnknown => out = rs
      | _ => exists target, is_pad_target p (length rs) target /\ out = padded_col (p_dir p) (target - length rs) (mkRow (p_id p) (p_type_id p) (p_token p) (Some 0) (0, 0) 1 0) rs
      end
  end.

(** All three, in the order encode applies them. *)
Definition finished (t : tokenizer) (add : bool) (rs out : list row) : Prop :=
  exists ks ps, kept_rows (tz_trunc t) rs ks /\ match tz_post t with Some p => posted_rows add p ks ps | None => ps = ks end /\ padded_rows (tz_pad t) ps out.
