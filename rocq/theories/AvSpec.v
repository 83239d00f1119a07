(** Specification vocabulary for added tokens. *)
From Verif Require Import Base Unicode Common Normalizer PreTokenizer WordPiece AddedVocab PreSpec.

(** A vocabulary that maps distinct tokens to distinct ids 0 .. size-1. *)
Definition dense (v : smap Z) : Prop :=
  NoDup (map fst v) /\ NoDup (map snd v) /\ Forall (fun p => 0 <= snd p < Z.of_nat (length v))%Z v.

(** The states an added vocabulary can be in: after construction from a configuration, and after any sequence of further additions
    and encodings. [ops] records the tokens given to it so far, oldest first. *)
Inductive history (v : smap Z) : list added_token -> added_vocab -> Prop :=
| h_new l av n : av_add_tokens true (new_added_vocab l) (Some v) l = Ok (av, n) -> history v l av
| h_add ops av l av' n : history v ops av -> av_add_tokens false av (Some v) l = Ok (av', n) -> history v (ops ++ l) av'
| h_encode ops av E norm s : history v ops av ->
    history v ops (mkAv (av_added av) (av_specials av) (av_special_set av) (av_map av) (extract_map E av norm s) (av_trie_norm av) (av_trie_raw av)).

(** the id an added vocabulary has assigned to a token *)
Definition assigned (av : added_vocab) (content : bytes) : option Z := sfind content (av_map av).

(** A segmentation of a text: spans, each with the id of the added token recognised there, if any. *)
Definition segmentation := list (option Z * (nat * nat)).

(** [seg] covers the units of [u] exactly, in order; a recognised span spells a token of [known] with its id; other spans are not empty. *)
Definition partitions (known : list (bytes * Z)) (u : ustr) (seg : segmentation) : Prop :=
  chained 0 (length u) (map snd seg) /\
  Forall (fun p => match fst p with
                   | Some i => In (to_utf8 (slice u (fst (snd p)) (snd (snd p))), i) known
                   | None => fst (snd p) < snd (snd p)
                   end) seg.

(** no added token asks for stripping or whole words *)
Definition plain_token (t : added_token) : Prop := at_single_word t = false /\ at_lstrip t = false /\ at_rstrip t = false.
Definition plain_ids (map_r : zmap added_token) (known : list (bytes * Z)) : Prop :=
  Forall (fun p => exists t, zfind (snd p) map_r = Some t /\ plain_token t) known.

(** White space in the C locale, and the flags of the added token behind an id (the defaults if there is none). *)
Definition c_space (b : N) : bool := ((b =? 32) || (9 <=? b) && (b <=? 13))%N.
Definition flags (map_r : zmap added_token) (i : Z) : added_token := match zfind i map_r with Some t => t | None => mkAt 0 [] false false false true false end.

(** [seg] covers the ASCII text [s]; a recognised span is a token of [known] with white space around it, on the left only if the token asks
    for lstrip, on the right only if it asks for rstrip; and no adjacent white space is left over: the text before an lstrip token does not end with
    white space, the text after an rstrip token does not begin with white space. *)
Definition stripped_segmentation (map_r : zmap added_token) (known : list (bytes * Z)) (s : bytes) (seg : segmentation) : Prop :=
  chained 0 (length s) (map snd seg) /\
  Forall (fun p => match fst p with
                   | Some i => exists l core r, slice s (fst (snd p)) (snd (snd p)) = l ++ core ++ r /\ In (core, i) known /\
                                 Forall (fun b => c_space b = true) l /\ Forall (fun b => c_space b = true) r /\
                                 (at_lstrip (flags map_r i) = false -> l = []) /\ (at_rstrip (flags map_r i) = false -> r = [])
                   | None => fst (snd p) < snd (snd p)
                   end) seg /\
  adjacent (fun p q => (fst p = None -> forall i, fst q = Some i -> at_lstrip (flags map_r i) = true -> c_space (nth (snd (snd p) - 1) s 0%N) = false) /\
                       (fst q = None -> forall i, fst p = Some i -> at_rstrip (flags map_r i) = true -> c_space (nth (fst (snd q)) s 0%N) = false)) seg.

(** the configured normalizer on a text; none leaves it alone *)
Definition run_norm (E : env) (norm : option normalizer) (w : wstr) : res nstring :=
  match norm with Some f => normalize E f (new_nstring w) | None => Ok (new_nstring w) end.
(** no run of units of [u] spells an added token *)
Definition no_added_token (known : list (bytes * Z)) (u : ustr) : Prop :=
  forall a b i, a <= b -> b <= length u -> ~ In (to_utf8 (slice u a b), i) known.

(** The id of an added text: that of its last entry. *)
Definition id_of (known : list (bytes * Z)) (w : ustr) : option Z := sfind (to_utf8 w) (rev known).

(** How added texts are found, reading a text [u] whose first unit has number [pos]; fields are separated by the space U+0020, and within a
    field the shortest added text standing at its beginning is taken, then the shortest at the beginning of what remains, and so on; the rest
    of a field that starts with no added text is passed over. *)
Inductive found (known : list (bytes * Z)) : nat -> ustr -> list (nat * nat * Z) -> Prop :=
| found_end pos : found known pos [] []
| found_space pos r l : found known (S pos) r l -> found known pos (32%N :: r) l
| found_token pos c r k l : c <> [] -> ~ In 32%N c -> id_of known c = Some k ->
    (forall j, 0 < j < length c -> id_of known (firstn j c) = None) ->
    found known (pos + length c) r l -> found known pos (c ++ r) ((pos, pos + length c, k) :: l)
| found_pass pos c r l : c <> [] -> ~ In 32%N c -> (r = [] \/ exists r', r = 32%N :: r') ->
    (forall j, 0 < j <= length c -> id_of known (firstn j c) = None) ->
    found known (pos + length c) r l -> found known pos (c ++ r) l.

(** the recognised spans of a segmentation *)
Definition recognised (seg : segmentation) : list (nat * nat * Z) :=
  flat_map (fun p => match fst p with Some i => [(fst (snd p), snd (snd p), i)] | None => [] end) seg.

(** A letter, digit or underscore; a span of [s] that is not preceded or followed by one. *)
Definition c_word (b : N) : Prop := (48 <= b <= 57 \/ 65 <= b <= 90 \/ 97 <= b <= 122 \/ b = 95)%N.
Definition whole_word (s : bytes) (a b : nat) : Prop := (0 < a -> ~ c_word (nth (a - 1) s 0%N)) /\ (b < length s -> ~ c_word (nth b s 0%N)).

(** What becomes of the added texts found in the ASCII text [s], given where the previous recognised piece ends: those of a single_word token that are not
    whole words are passed over; the others are recognised, together with all the white space on their left if the token asks for lstrip, up to
    the previous piece, and all the white space on their right if it asks for rstrip. *)
Inductive accepted (fl : Z -> added_token) (s : bytes) : nat -> list (nat * nat * Z) -> list (nat * nat * Z) -> Prop :=
| accepted_end prev : accepted fl s prev [] []
| accepted_part prev a b k l out : at_single_word (fl k) = true -> ~ whole_word s a b -> accepted fl s prev l out ->
    accepted fl s prev ((a, b, k) :: l) out
| accepted_token prev a b k l out a' b' : (at_single_word (fl k) = true -> whole_word s a b) ->
    prev <= a' <= a -> b <= b' <= length s ->
    (forall j, a' <= j < a \/ b <= j < b' -> c_space (nth j s 0%N) = true) ->
    (if at_lstrip (fl k) then prev < a' -> c_space (nth (a' - 1) s 0%N) = false else a' = a) ->
    (if at_rstrip (fl k) then b' < length s -> c_space (nth b' s 0%N) = false else b' = b) ->
    accepted fl s b' l out -> accepted fl s prev ((a, b, k) :: l) ((a', b', k) :: out).
