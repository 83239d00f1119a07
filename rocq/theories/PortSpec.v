(** Vocabulary for C101: the same program on a C++ library whose std::priority_queue breaks ties in another way. *)
From Verif Require Import Base Unicode Common PreTokenizer WordPiece Bpe AddedVocab Tokenizer BpeSpec.
(** The environment with another priority queue; everything else as before. *)
Definition with_queue (E : env) (q : list merge -> option (merge * list merge)) : env := {|
  e_norm := e_norm E; e_is_mn := e_is_mn E; e_iswspace := e_iswspace E; e_iswcntrl := e_iswcntrl E; e_towlower := e_towlower E; e_u_space := e_u_space E; e_u_punct := e_u_punct E;
  e_icu_matches := e_icu_matches E; e_wregex_ok := e_wregex_ok E; e_wregex_next := e_wregex_next E; e_inplace := e_inplace E; e_char_signed := e_char_signed E; e_draw := e_draw E; e_pq := q |}.
(** Whatever has been merged so far, the merge with the highest rank is possible at one place only. *)
Definition one_way (b : bpe) (s : bytes) : Prop :=
  forall x y z, steps (step_highest (b_merges b)) (initial b s) x -> step_highest (b_merges b) x y -> step_highest (b_merges b) x z -> y = z.
(** The same tokenizer with the BPE cache it has after other calls. *)
Definition with_cache (t : tokenizer) (b : bpe) (c : cache) : tokenizer := mkTz (tz_trunc t) (tz_pad t) (tz_av t) (tz_norm t) (tz_pre t) (Some (MBpe b c)) (tz_dec t) (tz_post t).
