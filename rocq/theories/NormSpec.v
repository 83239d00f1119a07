(** Specification vocabulary for normalization. *)
From Verif Require Import Base Unicode Common Normalizer.

(** The original span (in UTF-16 units of the input) the i-th table entry of a NormalizedString points to: the span of
    its first byte. This is what token offsets are computed from. *)
Definition origin (ns : nstring) (i : nat) : option (nat * nat) :=
  match nth_error (ns_ranges ns) i with
  | Some (start, _) => nth_error (ns_offsets ns) start
  | None => None
  end.

(** The first n entries point to the given original units. *)
Definition origins (ns : nstring) (n : nat) : list (option (nat * nat)) := map (origin ns) (seq 0 n).
Definition unit_span (k : nat) : option (nat * nat) := Some (k, S k).

(** All characters in the basic multilingual plane: one UTF-16 unit per character. *)
Definition bmp (s : wstr) : Prop := Forall (fun c => (c < 0x10000)%N) s.

(** [out] is [s] without its longest prefix and/or suffix of characters in the class. *)
Definition stripped (f : N -> bool) (left right : bool) (s out : wstr) : Prop :=
  exists pre post, s = pre ++ out ++ post /\
    Forall (fun c => f c = true) pre /\ Forall (fun c => f c = true) post /\
    (left = false -> pre = []) /\ (right = false -> post = []) /\
    (left = true -> match out with c :: _ => f c = false | [] => True end) /\
    (right = true -> match rev out with c :: _ => f c = false | [] => True end).

(** A text written character by character together with what each character is replaced by. *)
Definition before (ps : list (N * wstr)) : wstr := map fst ps.
Definition after (ps : list (N * wstr)) : wstr := concat (map snd ps).
(** each character stays itself or, being outside ASCII, becomes two characters of which the first differs from it *)
Definition simple_piece (p : N * wstr) : Prop :=
  snd p = [fst p] \/ ((0x80 <= fst p)%N /\ exists x y, snd p = [x; y] /\ x <> fst p).
(** the position, counted from k, of the character each kept replacement character comes from *)
Fixpoint kept_src (keep : N -> bool) (ps : list (N * wstr)) (k : nat) : list nat :=
  match ps with [] => [] | (_, p) :: r => map (fun _ => k) (filter keep p) ++ kept_src keep r (S k) end.

(** CJK ideographs: the Unicode blocks Unified Ideographs, Extensions A to E, Compatibility Ideographs and their supplement,
    as in the reference BERT implementation. *)
Definition cjk_blocks : list (N * N) :=
  [(0x4E00, 0x9FFF); (0x3400, 0x4DBF); (0x20000, 0x2A6DF); (0x2A700, 0x2B73F); (0x2B740, 0x2B81F); (0x2B820, 0x2CEAF);
   (0xF900, 0xFAFF); (0x2F800, 0x2FA1F)]%N.
Definition cjk (c : N) : bool := existsb (fun b => (fst b <=? c) && (c <=? snd b))%N cjk_blocks.

(** [l] with a space on both sides of every character of a class, and the position of each output character's source *)
Fixpoint spaced (f : N -> bool) (l : wstr) : wstr :=
  match l with [] => [] | c :: r => (if f c then [32; c; 32]%N else [c]) ++ spaced f r end.
Fixpoint spaced_src (f : N -> bool) (l : wstr) (k : nat) : list nat :=
  match l with [] => [] | c :: r => (if f c then [k; k; k] else [k]) ++ spaced_src f r (S k) end.

(** positions, counted from i, of the characters in a class *)
Fixpoint positions (f : N -> bool) (l : wstr) (i : nat) : list nat :=
  match l with [] => [] | c :: r => if f c then i :: positions f r (S i) else positions f r (S i) end.

(** An environment whose regular expression engine finds single-character patterns literally, left to right. *)
Fixpoint first_at (c : N) (s : wstr) (pos : nat) : option nat :=
  match s with [] => None | x :: r => if (x =? c)%N then Some pos else first_at c r (S pos) end.
Definition finds_literally (E : env) (c : N) : Prop :=
  e_wregex_ok E [c] = true /\
  forall text from we, e_wregex_next E [c] text from we =
    match first_at c (skipn from text) from with Some p => Some (p, 1) | None => None end.

(** The C locale's and Unicode's view of printable ASCII, as far as the BERT pipeline asks for it. *)
Definition printable (c : N) : Prop := (32 <= c < 127)%N.
Definition lower_ascii (c : N) : N := if ((65 <=? c) && (c <=? 90))%N then (c + 32)%N else c.
Record ascii_env (E : env) : Prop := {
  ae_nfd : forall s, Forall printable s -> e_norm E NFD s = Some s;
  ae_mn : forall c, printable c -> e_is_mn E c = false;
  ae_ctrl : forall c, printable c -> e_iswcntrl E c = false;
  ae_space : forall c, printable c -> e_iswspace E c = (c =? 32)%N;
  ae_lower : forall c, printable c -> e_towlower E c = lower_ascii c;
  ae_uspace : forall c, printable c -> e_u_space E c = (c =? 32)%N }.

(** CJK ideographs but for the first 256 of Extension E. *)
Definition cjk_seen (c : N) : bool := cjk c && negb ((0x2B820 <=? c) && (c <=? 0x2B91F))%N.

(** UTF-8 length of the character at every UTF-16 unit of a text (both units of a surrogate pair count the four bytes of their character). *)
Definition widths (s : wstr) : list nat := map (fun i => length (utf8_of_cp (char32_at (from_utf32 s) i))) (seq 0 (length (from_utf32 s))).
(** Whether characters at the given positions can be deleted one after the other from tables of entries of the given widths, when [j] entries
    with [gone] bytes in all have gone already and neither the positions nor the starts of the entries are adjusted. *)
Fixpoint deletions_fit (W : list nat) (gone j : nat) (ps : list nat) : Prop :=
  match ps with
  | [] => True
  | p :: r => p + j < length W /\ list_sum (firstn (p + j + 1) W) + gone <= list_sum W /\ deletions_fit W (gone + nth (p + j) W 0) (S j) r
  end.

(** Text cleaning: tab, newline and carriage return are white space, never control characters; the locale decides about the
    rest. NUL, U+FFFD and control characters are unwanted, white space becomes a space. *)
Definition tab_or_newline (c : N) : bool := existsb (N.eqb c) [9; 10; 13]%N.
(** The six ASCII white-space characters. *)
Definition space_letter (c : N) : bool := existsb (N.eqb c) [9; 10; 11; 12; 13; 32]%N.
Definition blank (E : env) (c : N) : bool := if tab_or_newline c then true else e_iswspace E c.
Definition unwanted (E : env) (c : N) : bool :=
  if existsb (N.eqb c) [0; 0xFFFD]%N then true else if tab_or_newline c then false else e_iswcntrl E c.
Definition cleaned (E : env) (s : wstr) : wstr := map (fun c => if blank E c then 32%N else c) (filter (fun c => negb (unwanted E c)) s).

(** what ICU is given: wide characters that are no Unicode scalar values become U+FFFD *)
Definition repaired (c : N) : N := if ((c <? 0xD800) || ((0xE000 <=? c) && (c <=? 0x10FFFF)))%N then c else 0xFFFD%N.
(** the number of characters of [old] taken to have become two characters in [new], comparing the two texts from the left and
    skipping two characters of [new] after a difference *)
Fixpoint differing (old new : wstr) : nat :=
  match old, new with
  | a :: o, b :: n => if (a =? b)%N then differing o n else S (differing o (tl n))
  | _, _ => 0
  end.
