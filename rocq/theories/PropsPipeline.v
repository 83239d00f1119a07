(** Whole pipelines: C70. *)
From Verif Require Import Base BaseFacts Unicode UnicodeProofs Common Utils PostProcessor Decoder Normalizer PreTokenizer WordPiece Bpe AddedVocab Tokenizer Spec PostSpec
  NormSpec NormProofs PreSpec PreProofs AvSpec AvProofs ExtractProofs TzSpec TzProofs WpSpec WpProofs OffSpec OffProofs PropsPre PropsEncode PropsOffsets Env.
From Coq Require Import ZifyBool.

(** ** C70 *)
Lemma split_all_norm fn b ns1 ns2 l p : pt_split fn b (mkPt ns1 l) = Ok p -> pt_split fn b (mkPt ns2 l) = Ok (mkPt ns2 (pt_splits p)) /\ pt_norm p = ns1.
Proof. unfold pt_split. cbn [pt_splits pt_norm]. intros H. apply bind_ok in H as (l' & H & E). injection E as <-. rewrite H. cbn [bind pt_splits pt_norm]. auto. Qed.
Lemma pre_norm_irrelevant E : forall t, no_prefix_space t -> forall ns1 ns2 l p, pre_tokenize E t (mkPt ns1 l) = Ok p ->
  pre_tokenize E t (mkPt ns2 l) = Ok (mkPt ns2 (pt_splits p)) /\ pt_norm p = ns1.
Proof.
  fix IH 1. intros [|pat b inv|aps rx|l] Ht ns1 ns2 ls p H.
  - cbn [pre_tokenize] in *. rewrite bert_pre_spec in *. injection H as <-. cbn [pt_norm pt_splits]. auto.
  - exact (split_all_norm _ _ ns1 ns2 ls p H).
  - cbn [no_prefix_space] in Ht. subst aps. cbn [pre_tokenize] in *. unfold byte_level_pre_tokenize in *. cbn [bind] in *. apply bind_ok in H as (p1 & H1 & H). apply bind_ok in H as (l2 & H2 & H). injection H as <-.
    destruct (split_all_norm _ _ ns1 ns2 ls p1 H1) as [K1 K2]. rewrite K1. cbn [bind pt_splits pt_norm]. rewrite H2. cbn [bind]. auto.
  - cbn [pre_tokenize] in *. cbn [no_prefix_space] in Ht. revert ls ns1 ns2 H. induction l as [|q r IHr]; intros ls ns1 ns2 H; [injection H as <-; auto|].
    destruct Ht as [Hq Hr]. apply bind_ok in H as ([n1 l1] & H1 & H). destruct (IH q Hq ns1 ns2 ls _ H1) as [A1 A2]. rewrite A1. cbn [bind pt_splits pt_norm] in *. subst n1. exact (IHr Hr l1 ns1 ns2 H).
Qed.
Lemma model_norm_irrelevant E m ns1 ns2 l p : snd (model_tokenize E m (mkPt ns1 l)) = Ok p -> snd (model_tokenize E m (mkPt ns2 l)) = Ok (mkPt ns2 (pt_splits p)).
Proof.
  destruct m as [w|b c]; cbn [model_tokenize snd].
  - unfold wp_tokenize. cbn [pt_norm pt_splits]. intros H. apply bind_ok in H as (l' & H & E1). injection E1 as <-. rewrite H. reflexivity.
  - unfold bpe_tokenize. cbn [pt_norm pt_splits]. destruct (bpe_splits E b c l) as [c' r]. cbn [snd]. intros H. apply bind_ok in H as (l' & H & E1). injection E1 as <-. rewrite H. reflexivity.
Qed.

(** the pieces of the text that the pre-tokenizer makes from one given piece *)
Lemma pieces_from E t s av ns l : prepare E t s = (p2 <- match tz_pre t with Some pt => pre_tokenize E pt (mkPt ns l) | None => Ok (mkPt ns l) end ;; Ok (av, p2)) ->
  text_pieces E t s = (p2 <- match tz_pre t with Some pt => pre_tokenize E pt (mkPt ns l) | None => Ok (mkPt ns l) end ;;
                       p' <- match tz_model t with Some m => snd (model_tokenize E m p2) | None => Ok p2 end ;; Ok (pt_splits p')).
Proof. intros H. unfold text_pieces. rewrite H. destruct (match tz_pre t with Some pt => pre_tokenize E pt (mkPt ns l) | None => Ok (mkPt ns l) end); reflexivity. Qed.
Lemma pieces_transfer E t1 t2 s1 s2 av1 av2 ns1 ns2 l pieces : tz_pre t2 = tz_pre t1 -> tz_model t2 = tz_model t1 -> (forall p, tz_pre t1 = Some p -> no_prefix_space p) ->
  prepare E t1 s1 = (p2 <- match tz_pre t1 with Some pt => pre_tokenize E pt (mkPt ns1 l) | None => Ok (mkPt ns1 l) end ;; Ok (av1, p2)) ->
  prepare E t2 s2 = (p2 <- match tz_pre t2 with Some pt => pre_tokenize E pt (mkPt ns2 l) | None => Ok (mkPt ns2 l) end ;; Ok (av2, p2)) ->
  text_pieces E t1 s1 = Ok pieces -> text_pieces E t2 s2 = Ok pieces.
Proof.
  intros Hp Hm Hns H1 H2 H. rewrite (pieces_from _ _ _ _ _ _ H1) in H. rewrite (pieces_from _ _ _ _ _ _ H2). rewrite Hp, Hm. apply bind_ok in H as ([n1 l1] & A & H). apply bind_ok in H as ([n2 l2] & B & H). injection H as <-.
  assert (K : match tz_pre t1 with Some pt => pre_tokenize E pt (mkPt ns2 l) | None => Ok (mkPt ns2 l) end = Ok (mkPt ns2 l1)).
  { destruct (tz_pre t1) as [pt|]; [apply (pre_norm_irrelevant E pt (Hns pt eq_refl) ns1 ns2 l _ A) | injection A as <- <-; reflexivity]. }
  rewrite K. cbn [bind]. destruct (tz_model t1) as [m|]; [rewrite (model_norm_irrelevant E m n1 ns2 l1 _ B) | injection B as <- <-]; reflexivity.
Qed.

(** extraction with an arbitrary normalizer, when no added token occurs *)
Lemma extract_any E av norm s sub m p : s <> [] -> forallb valid_cp s = true -> no_added_token (av_trie_raw av) (flat_map utf16_enc s) ->
  run_norm E norm s = Ok sub -> extract_and_normalize E av norm s = Ok (m, p) -> forallb valid_cp (ns_text sub) = true /\
  (ns_text sub = [] -> no_added_token (av_trie_norm av) [] -> pt_splits p = [mkSplit (utf8_encs s) (0, units s) []]) /\
  (ns_text sub <> [] -> no_added_token (av_trie_norm av) (flat_map utf16_enc (ns_text sub)) -> pt_splits p = [mkSplit (utf8_encs (ns_text sub)) (0, units (ns_text sub)) []]).
Proof.
  intros Hne Hv Hr Hn H. unfold extract_and_normalize in H. rewrite fresh_numbered in H. unfold new_pretok in H. cbn [ns_text numbered_ns] in H. unfold convert_to_string at 1 in H. rewrite Hv in H. cbn [bind pt_norm pt_splits] in H.
  cbn [ns_text numbered_ns] in H. unfold convert_to_string at 1 in H. rewrite Hv in H. cbn [bind] in H.
  rewrite find_none in H by (rewrite from_utf8_encs by exact Hv; exact Hr). rewrite from_utf8_encs in H by exact Hv. fold (units s) in H.
  assert (Hu : 0 < units s) by (pose proof (proj1 (units_0 s)); destruct (units s); [exfalso; auto | lia]).
  replace (0 =? units s) with false in H by lia. cbn [bind raw_splits] in H. rewrite substr_all in H by apply length_units. cbn [bind] in H. unfold convert_to_string at 1 in H. rewrite Hv in H. cbn [bind normalize_splits sp_tokens sp_text sp_off fst snd] in H.
  rewrite (proj2 (convert_from_string_iff _ s)) in H by (split; [reflexivity | exact Hv]). cbn [bind] in H. fold (run_norm E norm s) in H. rewrite Hn in H. cbn [bind] in H.
  apply bind_ok in H as ([[ns m'] splits2] & H & E0). injection E0 as <- <-. apply bind_ok in H as (ns' & _ & H). unfold convert_to_string at 1 in H. destruct (forallb valid_cp (ns_text sub)) eqn:Hvt; [|discriminate]. cbn [bind] in H.
  split; [reflexivity|]. cbn [pt_splits]. split.
  - intros Et Hno. rewrite Et in H. rewrite find_none in H by exact Hno. cbn [from_utf8 length Nat.eqb bind norm_splits utf8_encs flat_map utf8_dec app] in H. cbn in H. injection H as <- <- <-. reflexivity.
  - intros Et Hno. rewrite find_none in H by (rewrite from_utf8_encs by exact Hvt; exact Hno). rewrite from_utf8_encs in H by exact Hvt. fold (units (ns_text sub)) in H.
    assert (Hu' : 0 < units (ns_text sub)) by (pose proof (proj1 (units_0 (ns_text sub))); destruct (units (ns_text sub)); [exfalso; auto | lia]).
    replace (0 =? units (ns_text sub)) with false in H by lia. cbn [bind norm_splits] in H. rewrite substr_all in H by apply length_units. cbn [bind] in H. unfold convert_to_string at 1 in H. rewrite Hvt in H. cbn [bind app] in H.
    injection H as <- <- <-. rewrite !Nat.add_0_r. reflexivity.
Qed.

Lemma prepare_any E t av s sub av' p : tz_av t = Some av -> s <> [] -> no_added_token (av_trie_raw av) (flat_map utf16_enc s) ->
  run_norm E (tz_norm t) s = Ok sub -> prepare E t s = Ok (av', p) -> forallb valid_cp s = true /\ forallb valid_cp (ns_text sub) = true /\ exists a ns l,
  prepare E t s = (p2 <- match tz_pre t with Some pt => pre_tokenize E pt (mkPt ns l) | None => Ok (mkPt ns l) end ;; Ok (a, p2)) /\
  (ns_text sub = [] -> no_added_token (av_trie_norm av) [] -> l = [mkSplit (utf8_encs s) (0, units s) []]) /\
  (ns_text sub <> [] -> no_added_token (av_trie_norm av) (flat_map utf16_enc (ns_text sub)) -> l = [mkSplit (utf8_encs (ns_text sub)) (0, units (ns_text sub)) []]).
Proof.
  intros Hav Hne Hr Hn H. unfold prepare, new_pretok in *. rewrite fresh_numbered in *. cbn [ns_text numbered_ns] in *. unfold convert_to_string in *. destruct (forallb valid_cp s) eqn:Hv; [|discriminate]. cbn [bind] in *. rewrite Hav in *.
  apply bind_ok in H as ([a p1] & H & _). apply bind_ok in H as ([m p1'] & H & E1). injection E1 as <- <-. destruct (extract_any E av (tz_norm t) s sub m p1' Hne Hv Hr Hn H) as (K1 & K2 & K3).
  split; [reflexivity|]. split; [exact K1|]. rewrite H. cbn [bind]. destruct p1' as [ns l]. exists (Some (set_map_r av m)), ns, l. auto.
Qed.

(** Without an added vocabulary in the configuration the configured normalizer has no effect whatever. *)
Theorem C70_no_added_vocabulary_refuted : forall E fuel t s add n, tz_av t = None -> snd (encode E fuel (set_norm t n) s add) = snd (encode E fuel t s add).
Proof. intros E fuel t s add n H. rewrite !encode_text. unfold text_encoding, prepare. cbn [set_norm tz_av tz_pre tz_model]. rewrite H. reflexivity. Qed.
Print Assumptions C70_no_added_vocabulary_refuted.
(** so a lower-casing tokenizer with a lower-case vocabulary does not know a word in upper case *)
Example C70_no_added_vocabulary_case : let t := set_av bert_demo None in
  (exists r, snd (encode test_env 10 t (str "PLAYING") false) = Ok r /\ en_tokens r = [str "[UNK]"]) /\
  (exists r, snd (encode test_env 10 t (str "playing") false) = Ok r /\ en_tokens r = [str "play"; str "##ing"]) /\
  (exists r, snd (encode test_env 10 bert_demo (str "PLAYING") false) = Ok r /\ en_tokens r = [str "play"; str "##ing"]).
Proof. split; [|split]; eexists; (split; [vm_compute; reflexivity | reflexivity]). Qed.

(** When normalization leaves nothing of the text, the original text is tokenized instead. *)
Theorem C70_erased_text_refuted : forall E t av s sub pieces, tz_av t = Some av -> s <> [] -> run_norm E (tz_norm t) s = Ok sub -> ns_text sub = [] ->
  no_added_token (av_trie_raw av) (flat_map utf16_enc s) -> no_added_token (av_trie_norm av) (flat_map utf16_enc s) -> no_added_token (av_trie_norm av) [] ->
  (forall p, tz_pre t = Some p -> no_prefix_space p) ->
  text_pieces E t s = Ok pieces -> text_pieces E (set_norm t None) s = Ok pieces.
Proof.
  intros E t av s sub pieces Hav Hne Hn Ht Hr Hm Hm0 Hp H. pose proof H as H0. unfold text_pieces in H0. apply bind_ok in H0 as ([av' p] & H0 & _).
  destruct (prepare_any E t av s sub av' p Hav Hne Hr Hn H0) as (Hv & Hvt & a & ns & l & K & L1 & _). rewrite (L1 Ht Hm0) in K.
  destruct (extract_none E av None s s Hne Hv Hr) as (junk & He); try assumption; [cbn [run_norm]; rewrite fresh_numbered; reflexivity|].
  apply (pieces_transfer E t (set_norm t None) s s a (Some (set_map_r av (av_map_r av))) ns (numbered_ns (unit_sizes s) junk s) _ pieces eq_refl eq_refl Hp K); [|exact H].
  unfold prepare, new_pretok. rewrite fresh_numbered. cbn [ns_text numbered_ns]. unfold convert_to_string. rewrite Hv. cbn [bind set_norm tz_av tz_norm]. rewrite Hav, He. reflexivity.
Qed.
Print Assumptions C70_erased_text_refuted.
Example C70_erased_case : let t := mkTz None None (Some demo_av) (Some (NBert true true true true)) None (Some (MWordPiece (mkWp demo_vocab (str "[UNK]") 100 (str "##")))) None None in
  (exists sub, run_norm test_env (tz_norm t) [1%N] = Ok sub /\ ns_text sub = []) /\
  (exists p, text_pieces test_env t [1%N] = Ok [p] /\ sp_text p = [1%N]) /\ snd (encode test_env 10 t [1%N] false) = Undef OobIndex.
Proof. split; [|split]; [eexists; split; [vm_compute; reflexivity | reflexivity] | eexists; split; [vm_compute; reflexivity | reflexivity] | vm_compute; reflexivity]. Qed.

(** ByteLevel with add_prefix_space goes back to the original text: whatever the normalizer and the added tokens are, the pieces are the same as without them. *)
Lemma transform_range_text ns r sub ns' : transform_range ns r sub = Ok ns' -> ns_text ns' = ns_text ns.
Proof.
  unfold transform_range. destruct r as [a b]. intros H. repeat (apply bind_ok in H as (? & _ & H)). injection H as <-. reflexivity.
Qed.
Lemma normalize_splits_text E norm trie l : forall ns m e ns' m' out, normalize_splits E norm trie ns m e l = Ok (ns', m', out) -> ns_text ns' = ns_text ns.
Proof.
  induction l as [|sp l IH]; intros ns m e ns' m' out H; cbn [normalize_splits] in H; [injection H as <- _ _; reflexivity|]. destruct (sp_tokens sp) as [|tk tks].
  - apply bind_ok in H as (w & _ & H). apply bind_ok in H as (sub & _ & H). apply bind_ok in H as (ns1 & H1 & H). apply bind_ok in H as (sent & _ & H). apply bind_ok in H as ([m1 ms] & _ & H). apply bind_ok in H as (here & _ & H).
    apply bind_ok in H as ([[ns2 m2] rest] & H2 & H). injection H as <- _ _. rewrite (IH _ _ _ _ _ _ H2). exact (transform_range_text _ _ _ _ H1).
  - apply bind_ok in H as ([[ns2 m2] rest] & H2 & H). injection H as <- _ _. exact (IH _ _ _ _ _ _ H2).
Qed.
Lemma extract_text E av norm s m p : extract_and_normalize E av norm s = Ok (m, p) -> ns_text (pt_norm p) = s.
Proof.
  unfold extract_and_normalize. intros H. apply bind_ok in H as (p0 & H0 & H). apply bind_ok in H as (sent & _ & H). apply bind_ok in H as ([m1 ms] & _ & H). apply bind_ok in H as (raw & _ & H).
  apply bind_ok in H as ([[ns m2] sp2] & H2 & H). injection H as <- <-. cbn [pt_norm]. rewrite (normalize_splits_text _ _ _ _ _ _ _ _ _ _ H2). unfold new_pretok in H0. apply bind_ok in H0 as (x & _ & H0). injection H0 as <-. cbn [pt_norm]. rewrite fresh_numbered. reflexivity.
Qed.
Lemma prefix_pieces E rx c r ns l p : ns_text ns = c :: r -> e_iswspace E c = false -> pre_tokenize E (TByteLevel true rx) (mkPt ns l) = Ok p ->
  exists b, convert_to_string (32%N :: c :: r) = Ok b /\ forall ns0, pre_tokenize E (TByteLevel false rx) (mkPt ns0 [mkSplit b (0, S (S (length r))) []]) = Ok (mkPt ns0 (pt_splits p)).
Proof.
  intros Ht Hc H. cbn [pre_tokenize] in H. unfold byte_level_pre_tokenize, add_prefix in H. cbn [pt_norm] in H. rewrite Ht, Hc in H. apply bind_ok in H as (p0 & H0 & H). apply bind_ok in H0 as (ns1 & H1 & H0).
  assert (Ht1 : ns_text ns1 = 32%N :: c :: r).
  { unfold transform in H1. apply bind_ok in H1 as ([st li] & _ & H1). repeat (apply bind_ok in H1 as (? & _ & H1)). injection H1 as <-. reflexivity. }
  unfold new_pretok in H0. rewrite Ht1 in H0. apply bind_ok in H0 as (b & Hb & H0). injection H0 as <-. exists b. split; [exact Hb|]. intros ns0.
  assert (H' : pre_tokenize E (TByteLevel false rx) (mkPt ns1 [mkSplit b (0, S (S (length r))) []]) = Ok p) by exact H.
  apply (pre_norm_irrelevant E (TByteLevel false rx) eq_refl ns1 ns0 _ _ H').
Qed.
Theorem C70_prefix_space_refuted : forall E t av rx c r pieces pieces', tz_av t = Some av -> tz_pre t = Some (TByteLevel true rx) -> e_iswspace E c = false ->
  text_pieces E t (c :: r) = Ok pieces -> text_pieces E (set_av t None) (c :: r) = Ok pieces' -> pieces = pieces'.
Proof.
  intros E t av rx c r pieces pieces' Hav Hpre Hc H1 H2. unfold text_pieces in *. cbn [set_av tz_model] in H2. apply bind_ok in H1 as ([a1 p1] & P1 & H1). apply bind_ok in H2 as ([a2 p2] & P2 & H2).
  unfold prepare in P1, P2. cbn [set_av tz_av tz_norm tz_pre] in P2. rewrite Hav, Hpre in P1. rewrite Hpre in P2.
  apply bind_ok in P1 as (p0 & _ & P1). apply bind_ok in P1 as ([av1 q1] & Q1 & P1). apply bind_ok in Q1 as ([m1 q1'] & Q1 & E1). injection E1 as <- <-. apply bind_ok in P1 as (p1' & P1 & E1). injection E1 as <- <-.
  apply bind_ok in P2 as (p0' & Q2 & P2). cbn [bind] in P2. apply bind_ok in P2 as (p2' & P2 & E2). injection E2 as <- <-.
  assert (T1 : ns_text (pt_norm q1') = c :: r) by exact (extract_text _ _ _ _ _ _ Q1).
  assert (T2 : ns_text (pt_norm p0') = c :: r). { unfold new_pretok in Q2. apply bind_ok in Q2 as (x & _ & Q2). injection Q2 as <-. cbn [pt_norm]. rewrite fresh_numbered. reflexivity. }
  destruct q1' as [n1 l1]. destruct p0' as [n2 l2]. cbn [pt_norm] in T1, T2.
  destruct (prefix_pieces E rx c r n1 l1 p1' T1 Hc P1) as (b1 & B1 & C1). destruct (prefix_pieces E rx c r n2 l2 p2' T2 Hc P2) as (b2 & B2 & C2). rewrite B1 in B2. injection B2 as <-.
  specialize (C1 n1). specialize (C2 n1). rewrite C1 in C2. injection C2 as Es.
  assert (K : match tz_model t with Some m => snd (model_tokenize E m (mkPt (pt_norm p1') (pt_splits p1'))) | None => Ok (mkPt (pt_norm p1') (pt_splits p1')) end = match tz_model t with Some m => snd (model_tokenize E m p1') | None => Ok p1' end) by (destruct p1'; reflexivity).
  rewrite <- K in H1. apply bind_ok in H1 as (o1 & H1 & E1). injection E1 as <-. apply bind_ok in H2 as (o2 & H2 & E2). injection E2 as <-. destruct p2' as [k2 s2]. cbn [pt_splits] in Es. subst s2.
  destruct (tz_model t) as [m|]; [|injection H1 as <-; injection H2 as <-; reflexivity]. rewrite (model_norm_irrelevant E m _ k2 _ _ H1) in H2. injection H2 as <-. reflexivity.
Qed.
Print Assumptions C70_prefix_space_refuted.
Example C70_prefix_space_case : let t := mkTz None None (Some demo_av) (Some (NBert true true true true)) (Some (TByteLevel true false)) None None None in
  (exists p, text_pieces test_env t (str "CHESS") = Ok [p] /\ sp_text p = [0xC4; 0xA0]%N ++ str "CHESS").
Proof. eexists. split; [vm_compute; reflexivity | reflexivity]. Qed.

(** What is true: with an added vocabulary, no added token in the text and no prefix space, the pieces and their tokens are exactly those of the
    normalized text encoded without normalizer, whatever the normalizer is, provided it leaves something. *)
Theorem C70_applied : forall E t av s sub pieces, tz_av t = Some av -> s <> [] -> run_norm E (tz_norm t) s = Ok sub -> ns_text sub <> [] ->
  no_added_token (av_trie_raw av) (flat_map utf16_enc s) -> no_added_token (av_trie_norm av) (flat_map utf16_enc (ns_text sub)) ->
  (forall p, tz_pre t = Some p -> no_prefix_space p) -> text_pieces E t s = Ok pieces ->
  no_added_token (av_trie_raw av) (flat_map utf16_enc (ns_text sub)) -> text_pieces E (set_norm t None) (ns_text sub) = Ok pieces.
Proof.
  intros E t av s sub pieces Hav Hne Hn Ht Hr Hm Hp H Hr'. pose proof H as H0. unfold text_pieces in H0. apply bind_ok in H0 as ([av' p] & H0 & _).
  destruct (prepare_any E t av s sub av' p Hav Hne Hr Hn H0) as (Hv & Hvt & a & ns & l & K & _ & L2). rewrite (L2 Ht Hm) in K. set (text := ns_text sub) in *.
  destruct (extract_none E av None text text Ht Hvt Hr') as (junk & He); try assumption; [cbn [run_norm]; rewrite fresh_numbered; reflexivity|].
  apply (pieces_transfer E t (set_norm t None) s text a (Some (set_map_r av (av_map_r av))) ns (numbered_ns (unit_sizes text) junk text) _ pieces eq_refl eq_refl Hp K); [|exact H].
  unfold prepare, new_pretok. rewrite fresh_numbered. cbn [ns_text numbered_ns]. unfold convert_to_string. rewrite Hvt. cbn [bind set_norm tz_av tz_norm]. rewrite Hav, He. reflexivity.
Qed.
Print Assumptions C70_applied.
(** an accented text *)
Example C70_applied_case : let t := bert_demo in let s := [0x50; 0x4C; 0x41; 0x59; 0x20; 0xE9]%N in
  (exists sub, run_norm test_env (tz_norm t) s = Ok sub /\ ns_text sub = str "play e") /\
  no_added_token (av_trie_raw demo_av) (flat_map utf16_enc s) /\ no_added_token (av_trie_norm demo_av) (flat_map utf16_enc (str "play e")) /\
  (exists p q, text_pieces test_env t s = Ok [p; q] /\ sp_text p = str "play" /\ sp_text q = str "e" /\ text_pieces test_env (set_norm t None) (str "play e") = Ok [p; q]).
Proof.
  split; [eexists; split; [vm_compute; reflexivity | reflexivity]|]. split; [apply no_added_check_ok; vm_compute; reflexivity|]. split; [apply no_added_check_ok; vm_compute; reflexivity|].
  do 2 eexists. split; [vm_compute; reflexivity|]. split; [reflexivity|]. split; [reflexivity|]. vm_compute. reflexivity.
Qed.
