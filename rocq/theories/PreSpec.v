(** Specification vocabulary for pre-tokenization. *)
From Verif Require Import Base Unicode Common Normalizer PreTokenizer.

(** number of UTF-16 units of a text *)
Definition units (cs : wstr) : nat := length (flat_map utf16_enc cs).

(** consecutive spans leading from a to z *)
Fixpoint chained (a z : nat) (l : list (nat * nat)) : Prop :=
  match l with
  | [] => a = z
  | (x, y) :: r => x = a /\ a <= y /\ chained y z r
  end.

(** matches in order, not overlapping, inside the text *)
Fixpoint ordered (cur len : nat) (l : list (nat * nat)) : Prop :=
  match l with
  | [] => cur <= len
  | (a, z) :: r => cur <= a /\ a <= z /\ z <= len /\ ordered z len r
  end.

(** position p of a UTF-16 text is not inside a surrogate pair *)
Definition char_boundary (u : ustr) (p : nat) : Prop :=
  forall q h t, p = S q -> nth_error u q = Some h -> nth_error u p = Some t -> ~ (is_lead h = true /\ is_trail t = true).

(** units a..z of a text *)
Definition slice (u : ustr) (a z : nat) : ustr := firstn (z - a) (skipn a u).

(** A piece of a text: what precedes it and the piece itself; its span in UTF-16 units. *)
Definition piece_span (p : wstr * wstr) : nat * nat := (units (fst p), units (fst p) + units (snd p)).

(** neighbours in a list are related *)
Fixpoint adjacent {A} (R : A -> A -> Prop) (l : list A) : Prop :=
  match l with
  | p :: r => match r with q :: _ => R p q | [] => True end /\ adjacent R r
  | [] => True
  end.

(** The code points of a byte string, ill-formed parts replaced by U+FFFD. *)
Definition decoded (t : bytes) : wstr := map (fun o => match o with Some c => c | None => 0xFFFD%N end) (utf8_dec t).

(** [pieces] are the words of [cs] in BERT's sense: in order, contiguous parts of [cs], none empty, no white space inside,
    punctuation characters on their own, together all that is not white space; two pieces that touch are only separated because one of them is a
    punctuation character. *)
Definition bert_words (space punct : N -> bool) (cs : wstr) (pieces : list (wstr * wstr)) : Prop :=
  Forall (fun p => snd p <> [] /\ (exists post, cs = fst p ++ snd p ++ post) /\
                   Forall (fun c => space c = false) (snd p) /\
                   ((exists c, snd p = [c] /\ punct c = true) \/ Forall (fun c => punct c = false) (snd p))) pieces /\
  concat (map snd pieces) = filter (fun c => negb (space c)) cs /\
  adjacent (fun p q => snd (piece_span p) <= fst (piece_span q) /\
                       (snd (piece_span p) < fst (piece_span q) \/
                        (exists c, snd p = [c] /\ punct c = true) \/ (exists c, snd q = [c] /\ punct c = true))) pieces.

(** the split made from a piece of a split that starts at [base] *)
Definition piece_split (base : nat) (p : wstr * wstr) : split :=
  mkSplit (utf8_encs (snd p)) (fst (piece_span p) + base, snd (piece_span p) + base) [].

(** the piece cut out of split [s] between two unit positions of its text *)
Definition cut_out (s : split) (m : nat * nat) : split :=
  mkSplit (to_utf8 (slice (from_utf8 (sp_text s)) (fst m) (snd m))) (fst m + fst (sp_off s), snd m + fst (sp_off s)) [].

(** A text of [len] units cut into segments: the flagged ones are the given matches, the others the non-empty gaps between them. *)
Definition segments (len : nat) (matches : list (nat * nat)) (segs : list ((nat * nat) * bool)) : Prop :=
  chained 0 len (map fst segs) /\
  map fst (filter snd segs) = matches /\
  Forall (fun m => snd m = false -> fst (fst m) < snd (fst m)) segs /\
  adjacent (fun p q => snd p = true \/ snd q = true) segs.

(** The regular expression engine returns the matches of a pattern in order, not overlapping, never cutting a character. *)
Definition engine_ok (E : env) (pat : bytes) (u : ustr) : Prop :=
  exists l, regex_matches E pat u = Ok l /\ ordered 0 (length u) l /\ Forall (fun m => char_boundary u (fst m) /\ char_boundary u (snd m)) l.

(** [pieces] is [cs] cut at its apostrophes: an apostrophe followed by s makes a piece with it, any other apostrophe a piece of its own, and the
    stretches between are pieces. *)
Inductive apostrophe_pieces : wstr -> list wstr -> Prop :=
| ap_end : apostrophe_pieces [] []
| ap_s r l : apostrophe_pieces r l -> apostrophe_pieces (39 :: 115 :: r)%N ([39; 115]%N :: l)
| ap_alone r l : (forall r', r <> 115%N :: r') -> apostrophe_pieces r l -> apostrophe_pieces (39%N :: r) ([39%N] :: l)
| ap_text w r l : w <> [] -> ~ In 39%N w -> (r = [] \/ exists r', r = 39%N :: r') -> apostrophe_pieces r l -> apostrophe_pieces (w ++ r) (w :: l).

(** the spans, in UTF-16 units, of consecutive pieces from [pos] on *)
Fixpoint spans_from (pos : nat) (l : list wstr) : list (nat * nat) :=
  match l with [] => [] | w :: r => (pos, pos + units w) :: spans_from (pos + units w) r end.
