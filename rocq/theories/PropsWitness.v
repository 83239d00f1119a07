(** Concrete, non-trivial cases that meet the hypotheses of theorems whose own file has no case next to them. *)
Require Import Coq.Lists.List Coq.ZArith.ZArith Coq.NArith.NArith Coq.Bool.Bool Coq.Arith.Arith Coq.micromega.Lia.
From Verif Require Import Base Unicode Common Utils PostProcessor Decoder Normalizer PreTokenizer WordPiece Bpe AddedVocab Tokenizer Config Env Spec Sample
  UnicodeProofs
  PostSpec DecSpec WpSpec WpProofs BpeSpec NormSpec PreSpec AvSpec TzSpec HistSpec ConfigSpec RefSpec LenSpec
  PropsUtils PropsPost PropsDecoder PropsWordPiece PropsBpe PropsAdded PropsPre PropsEncode PropsConfig PropsLength PropsOffsets PropsReference PropsText.
Import ListNotations.
Local Open Scope nat_scope.

(** C03: a left truncation of five tokens to two with stride 1 loops, with stride 0 it does not and returns. *)
Example C03_case : truncation_loops (mkTrunc TLeft LongestFirst 2 1) 5 /\ ~ truncation_loops (mkTrunc TLeft LongestFirst 3 1) 5 /\
  (exists r, truncate_encoding 7 (mkTrunc TLeft LongestFirst 3 1) (sample 5) = Ok r /\ length (en_ids r) = 3) /\ length (en_ids (sample 5)) = 5.
Proof.
  split; [unfold truncation_loops; vm_compute; intuition congruence|]. split; [unfold truncation_loops; cbn; intuition (try discriminate; try lia)|].
  split; [eexists; vm_compute; split; reflexivity | reflexivity].
Qed.

(** C05: the lower-case name is not recognised; five tokens into two are undefined, two into two are not. *)
Example C05_case : let t := mkTrunc (get_truncation_direction (str "left")) OnlyFirst 2 0 in
  truncation_active t 5 /\ ~ truncation_active t 2 /\ truncate_encoding 7 t (sample 5) = Undef OobIndex /\ exists r, truncate_encoding 7 t (sample 2) = Ok r.
Proof.
  cbv zeta. split; [unfold truncation_active; vm_compute; intuition congruence|]. split; [unfold truncation_active; cbn; intuition (try discriminate; try lia)|].
  split; [vm_compute; reflexivity | eexists; vm_compute; reflexivity].
Qed.

(** C09: two tokens padded to four on the left. *)
Example C09_case : exists r, pad_encoding (mkPad PLeft Fixed 4 9 0 (str "[PAD]") 0) (sample 2) = Ok r /\ padded_words (sample 2) r /\ length (en_words r) = 4 /\ firstn 2 (en_words r) = [Some 0; Some 0].
Proof.
  eexists. split; [vm_compute; reflexivity|]. split; [|split; reflexivity]. exists [Some 0; Some 0], []. split; [reflexivity|]. split; [reflexivity|]. repeat constructor.
Qed.

(** C17: a template followed by another adds both lots of special tokens, the second outside the first. *)
Example C17_case : let tmpl i := PTemplate [mkPiece (str "SpecialToken") (str "x") 0; mkPiece (str "Sequence") (str "A") 0] [mkSpecial (str "x") [i] [str "x"]] in
  exists r, process (PSequence [tmpl 7%Z; tmpl 8%Z]) (sample 2) true = Ok r /\ firstn 2 (en_ids r) = [8; 7]%Z /\ length (en_ids r) = 4.
Proof. cbv zeta. eexists. split; [vm_compute; reflexivity|]. split; reflexivity. Qed.

(** C23: the space is written U+0120, the letter a as itself, the byte 0xAD as U+0143. *)
Example C23_case : nfind 32 bytes_char = Some [0xC4; 0xA0]%N /\ nfind 97 bytes_char = Some [97]%N /\ gpt2_cp 0xAD = 0x143%N /\ nfind 256 bytes_char = None.
Proof. repeat split; vm_compute; reflexivity. Qed.

(** C24, C25, C26: a word with a greedy segmentation (which is not the only segmentation), one without, one that is too long. *)
Example C24_case : greedy (wp_vocab sample_wp) (wp_prefix sample_wp) (from_utf8 (str "unaffable")) 0 [mkTok 4 (str "una") (0, 3); mkTok 5 (str "##ff") (3, 5); mkTok 3 (str "##able") (5, 9)] /\
  (Z.of_nat (length (from_utf8 (str "unaffable"))) <= wp_max sample_wp)%Z.
Proof.
  destruct (C26_unknown sample_wp (str "unaffable")) as [HA HB]. cbv zeta in *. split; [|vm_compute; discriminate].
  destruct (C24_greedy sample_wp (str "unaffable")) as [_ HG]; [vm_compute; discriminate|].
  apply HG; [exact (proj1 wordpiece_witness)|].
  set (u := from_utf8 (str "unaffable")). assert (HL : length u = 9) by reflexivity.
  eexists. apply (greedy_step _ _ _ 0 3 4%Z); [lia | lia | vm_compute; reflexivity | | ].
  { intros k H1 H2. assert (HK : k = 4 \/ k = 5 \/ k = 6 \/ k = 7 \/ k = 8 \/ k = 9) by lia. repeat (destruct HK as [-> | HK]; [vm_compute; reflexivity|]). subst k. vm_compute. reflexivity. }
  apply (greedy_step _ _ _ 3 2 5%Z); [lia | lia | vm_compute; reflexivity | | ].
  { intros k H1 H2. assert (HK : k = 3 \/ k = 4 \/ k = 5 \/ k = 6) by lia. repeat (destruct HK as [-> | HK]; [vm_compute; reflexivity|]). subst k. vm_compute. reflexivity. }
  apply (greedy_step _ _ _ 5 4 3%Z); [lia | lia | vm_compute; reflexivity | intros k H1 H2; lia | ]. apply greedy_end.
Qed.
Example C25_case : wp_word sample_wp (str "unaffable") = Ok [mkTok 4 (str "una") (0, 3); mkTok 5 (str "##ff") (3, 5); mkTok 3 (str "##able") (5, 9)] /\ ascii (str "unaffable").
Proof. split; [exact (proj1 wordpiece_witness) | exact (proj2 (proj2 wordpiece_witness))]. Qed.
Example C26_case : wp_word sample_wp (str "unx") = Ok [mkTok 0 (str "[UNK]") (0, 3)] /\ (wp_max sample_wp < Z.of_nat (length (from_utf8 (repeat 117%N 21))))%Z /\
  wp_word sample_wp (repeat 117%N 21) = Ok [mkTok 0 (str "[UNK]") (0, 21)].
Proof. repeat split; vm_compute; reflexivity. Qed.

(** C27 - C37: the model of PropsBpe with the merges l+o, lo+w, e+r. *)
Definition low (drop : QArith_base.Q) (fuse ignore : bool) : bpe := match low_bpe drop fuse ignore with Ok b => b | _ => mkBpe [] [] drop [] [] [] false false false end.
Definition q0 : QArith_base.Q := QArith_base.Qmake 0 1.
Definition q1 : QArith_base.Q := QArith_base.Qmake 1 1.
Example low_ok : low_bpe q0 true false = Ok (low q0 true false) /\ low_bpe q1 false false = Ok (low q1 false false) /\ low_bpe q0 false true = Ok (low q0 false true).
Proof. repeat split; vm_compute; reflexivity. Qed.
Example C27_case : pq_ok test_env /\ initial (low q0 true false) (str "lower") = [(0%Z, 1); (1%Z, 1); (2%Z, 1); (3%Z, 1); (4%Z, 1)] /\
  exists w, merge_all test_env (b_merges (low q0 true false)) q0 (word_of (initial (low q0 true false) (str "lower"))) = Ok w /\ contents w = [(6%Z, 3); (7%Z, 2)].
Proof. split; [exact test_env_pq|]. split; [vm_compute; reflexivity|]. eexists. split; vm_compute; reflexivity. Qed.
Example C28_case : no_dropout (low q0 true false) /\ not_direct (low q0 true false) (str "lower") /\
  exists ts, snd (bpe_word test_env (low q0 true false) [] (str "lower")) = Ok ts /\ token_seq ts = [(6%Z, 3); (7%Z, 2)] /\ total_len (token_seq ts) = 5.
Proof. split; [reflexivity|]. split; [intros H; vm_compute in H; discriminate|]. eexists. split; [vm_compute; reflexivity|]. split; reflexivity. Qed.
Example C29_case : distinct_results (b_merges (low q0 true false)).
Proof. destruct bpe_witness_hyps as (_ & _ & _ & _ & b & Hb & H). replace (low q0 true false) with b; [exact H|]. unfold low. change q0 with (QArith_base.Qmake 0 1). rewrite Hb. reflexivity. Qed.
Example C30_case : NoDup (map fst low_vocab) /\ NoDup (map snd low_vocab) /\ Forall (fun x => exists i, sfind [x] low_vocab = Some i) (str "lower") /\
  exists ts, snd (bpe_word test_env (low q0 true false) [] (str "lower")) = Ok ts /\ map tk_value ts = [str "low"; str "er"] /\ map tk_off ts = [(0, 3); (3, 5)].
Proof.
  destruct bpe_witness_hyps as (H1 & H2 & _ & H4 & _). split; [exact H1|]. split; [exact H2|]. split; [exact H4|]. eexists. split; [vm_compute; reflexivity|]. split; reflexivity.
Qed.
Example C32_case : unk_id (low q0 true false) = Some 8%Z /\ lookups (low q0 true false) (str "xyl") = [None; None; Some 0%Z] /\
  initial (low q0 true false) (str "xyl") = [(8%Z, 2); (0%Z, 1)] /\ initial (low q0 false true) (str "xyl") = [(8%Z, 1); (8%Z, 1); (0%Z, 1)].
Proof. repeat split; vm_compute; reflexivity. Qed.
Example C34_case : exists c, reach_cache test_env (low q0 true false) c /\ c <> [] /\
  fst (bpe_word test_env (low q0 true false) c (str "low")) = c /\ fst (bpe_word test_env (low q0 true false) [] (str "low")) <> [].
Proof.
  eexists. split; [eapply (reach_call _ _ [] (mkPt (mkNs [] [] []) [mkSplit (str "low") (0, 3) []])); [constructor | vm_compute; reflexivity]|].
  split; [discriminate|]. split; vm_compute; [reflexivity | discriminate].
Qed.
Example C35_case : initial (low q0 true false) (str "xlow") <> [] /\
  exists ts, snd (bpe_word test_env (low q0 true false) [] (str "xlow")) = Ok ts /\ map (fun t => (tk_value t, tk_id t)) ts = [(str "<unk>", 8); (str "low", 6)]%Z.
Proof. split; [vm_compute; discriminate|]. eexists. split; [vm_compute; reflexivity | reflexivity]. Qed.
Example C36_case : ~ no_dropout (low q1 false false) /\ (forall k, QArith_base.Qlt (e_draw test_env k) (b_dropout (low q1 false false))) /\
  exists ts, snd (bpe_word test_env (low q1 false false) [] (str "lower")) = Ok ts /\ token_seq ts = initial (low q1 false false) (str "lower").
Proof.
  split; [intros H; vm_compute in H; discriminate|]. split; [|eexists; split; vm_compute; reflexivity].
  intros k. assert (HE : b_dropout (low q1 false false) = q1) by (vm_compute; reflexivity). rewrite HE. cbn [e_draw test_env]. unfold QArith_base.Qlt, q1. cbn [QArith_base.Qnum QArith_base.Qden].
  assert (HM := Nat.mod_upper_bound k 10 ltac:(lia)). lia.
Qed.
Example C37_case : b_ignore_merges (low q0 false true) = true /\ no_dropout (low q0 false true) /\ sfind (str "lower") (b_vocab (low q0 false true)) = Some 9%Z.
Proof. repeat split; vm_compute; reflexivity. Qed.

(** C39, C40: after adding one new token to the small vocabulary of PropsAdded. *)
Example C39_case : exists av n av', small_result = Ok (av, n) /\ av_add_tokens false av (Some small_vocab) [tok "new" false; tok "" true] = Ok (av', 1%Z) /\
  history small_vocab ([tok "[CLS]" true] ++ [tok "new" false; tok "" true]) av' /\ assigned av' (str "new") = Some 3%Z /\
  decode (mkTz None None (Some av') None None (Some (MWordPiece (mkWp small_vocab (str "[UNK]") 100 (str "##")))) (Some (DWordPiece (str "##") false)) None) [3]%Z false = Ok (str "new").
Proof.
  destruct small_result as [[av n]| | |] eqn:E; try (vm_compute in E; discriminate). exists av, n.
  destruct (av_add_tokens false av (Some small_vocab) [tok "new" false; tok "" true]) as [[av' k]| | |] eqn:E2; try (vm_compute in E; injection E as <- <-; vm_compute in E2; discriminate).
  exists av'. split; [reflexivity|]. assert (HH : history small_vocab ([tok "[CLS]" true] ++ [tok "new" false; tok "" true]) av') by (eapply h_add; [eapply h_new; exact E | exact E2]).
  vm_compute in E. injection E as <- <-. vm_compute in E2. injection E2 as <- <-. split; [reflexivity|]. split; [exact HH|]. split; vm_compute; reflexivity.
Qed.
Example C40_case : exists av n, small_result = Ok (av, n) /\ is_special_token av (str "[CLS]") = true /\ is_special_token av (str "hello") = false /\ is_special_token av [] = false.
Proof. destruct small_result as [[av n]| | |] eqn:E; try (vm_compute in E; discriminate). exists av, n. vm_compute in E. injection E as <- <-. repeat split; reflexivity. Qed.

(** C44: the added token [CLS] of the small vocabulary is one WordPiece token, unless words are limited to four characters. *)
Example C44_case : sfind (utf8_encs (str "[CLS]")) small_vocab = Some 2%Z /\ forallb valid_cp (str "[CLS]") = true /\ units (str "[CLS]") = 5 /\
  wp_word (mkWp small_vocab (str "[UNK]") 5 (str "##")) (str "[CLS]") = Ok [mkTok 2 (str "[CLS]") (0, 5)] /\
  wp_word (mkWp small_vocab (str "[UNK]") 4 (str "##")) (str "[CLS]") = Ok [mkTok 0 (str "[UNK]") (0, 5)].
Proof. repeat split; vm_compute; reflexivity. Qed.

(** C62: an environment whose regular expressions find the dash. *)
Example C62_case : get_split_delimiter_behavior (str "MergedWithNext") = REMOVED /\ str "MergedWithNext" <> str "Isolated" /\ get_split_delimiter_behavior (str "isolated") = REMOVED.
Proof. repeat split; try (vm_compute; reflexivity); discriminate. Qed.

(** C74, C75: a vocabulary with a quoted key in an accepted document, and a component of every kind of the complete configuration. *)
Example C74_case : exists t, read_config quote_doc = Ok t /\ tz_model t <> None.
Proof. destruct C74_double_quote_refuted as (t & H & _). exists t. split; [exact H|]. vm_compute in H. injection H as <-. discriminate. Qed.
Example C75_case : exists t, read_config (render case_config) = Ok t /\ Forall (fun k => has_component t (fst k) = true) supported.
Proof. destruct C79_case as (t & _ & H & _). exists t. split; [exact H|]. vm_compute in H. injection H as <-. repeat constructor. Qed.

(** C81: the demo tokenizer on a text with punctuation, a supplementary character and an unknown word. *)
Example C81_case : normalized_in_place test_env (demo None None (Some demo_template)) smile smile /\ smile <> [] /\ forallb valid_cp smile = true /\
  exists r, snd (encode test_env 10 (bare (demo None None (Some demo_template))) smile true) = Ok r /\ en_tokens r = [str "chess"; str "[UNK]"; str "play"; str "##ing"; str ","] /\ en_words r = [Some 0; Some 1; Some 2; Some 2; Some 3].
Proof. split; [exact (proj1 C82_case)|]. split; [discriminate|]. split; [vm_compute; reflexivity|]. eexists. split; [vm_compute; reflexivity|]. split; reflexivity. Qed.
