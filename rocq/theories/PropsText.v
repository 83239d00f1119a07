(** What follows for users of BERT-style tokenizers: C82 to C85. *)
From Verif Require Import Base BaseFacts Unicode UnicodeProofs Common Utils PostProcessor Decoder Normalizer PreTokenizer WordPiece Bpe AddedVocab Tokenizer Spec
  NormSpec NormProofs PreSpec PreProofs AvSpec AvProofs ExtractProofs TzSpec TzProofs WpSpec WpProofs OffSpec OffProofs RefSpec RefProofs TextProofs PropsEncode PropsOffsets PropsReference Env.
From Coq Require Import ZifyBool.

(** ** C82 *)
(** The offsets of the tokens are increasing, never empty, never overlapping, within the text, and together cover exactly the characters that are not white space, each once. *)
Theorem C82_offsets_partition : forall E fuel t w s n add, tz_model t = Some (MWordPiece w) -> tz_pre t = Some TBert -> s <> [] -> forallb valid_cp s = true -> forallb valid_cp n = true ->
  normalized_in_place E t s n -> exists r, snd (encode E fuel (bare t) s add) = Ok r /\ rising 0 (units n) (en_offsets r) /\
  flat_map (fun o => slice (flat_map utf16_enc n) (fst o) (snd o)) (en_offsets r) = flat_map utf16_enc (filter (fun c => negb (e_u_space E c)) n).
Proof.
  intros E fuel t w s n add Hm Hp Hne Hv Hvn HN. destruct (C81_reference E fuel t w s n add Hm Hp Hne Hv Hvn HN) as (r & H1 & _ & H2 & H3). exists r. split; [exact H1|]. destruct (reference_offsets _ _ _ _ _ H3) as [O1 O2].
  destruct (rows_cols r H2) as (_ & _ & _ & _ & Eo & _). rewrite <- Eo. split; [exact O1|]. rewrite <- O2. rewrite !flat_map_concat_map, map_map. reflexivity.
Qed.
Print Assumptions C82_offsets_partition.
Lemma quiet_in_place E t s : s <> [] -> quiet E t s -> normalized_in_place E t s s.
Proof.
  intros Hne Hq. unfold normalized_in_place, normalized_to, quiet in *. split; [|split; [apply le_n|]].
  - destruct (tz_av t) as [av|]; [|reflexivity]. destruct Hq as (H1 & H2 & H3). split; [exact Hne|]. split; [exists (new_nstring s); split; [exact H1 | rewrite fresh_numbered; reflexivity] | auto].
  - intros av sub Eav Hs. rewrite Eav in Hq. destruct Hq as (H1 & _). rewrite H1 in Hs. injection Hs as <-. rewrite fresh_numbered. reflexivity.
Qed.
Example C82_case : normalized_in_place test_env (demo None None (Some demo_template)) smile smile /\
  exists r, snd (encode test_env 10 (bare (demo None None (Some demo_template))) smile true) = Ok r /\ en_offsets r = [(0, 5); (6, 8); (9, 13); (13, 16); (16, 17)].
Proof. split; [apply quiet_in_place; [discriminate | apply C65_case]|]. eexists. split; [vm_compute; reflexivity | reflexivity]. Qed.

(** ** C83 *)
(** Texts with the same words, separated by different white space, give the same result up to offsets: same ids, tokens, words, types and masks in every part, whatever truncation, padding
    and post-processing are configured; if one of them fails there, so does the other. *)
Theorem C83_white_space : forall E fuel t w s s' n n' add, tz_model t = Some (MWordPiece w) -> tz_pre t = Some TBert -> s <> [] -> s' <> [] ->
  forallb valid_cp s = true -> forallb valid_cp n = true -> forallb valid_cp s' = true -> forallb valid_cp n' = true -> normalized_in_place E t s n -> normalized_in_place E t s' n' ->
  same_words (e_u_space E) n n' ->
  (r <- snd (encode E fuel t s add) ;; Ok (forget_offsets r)) = (r <- snd (encode E fuel t s' add) ;; Ok (forget_offsets r)).
Proof.
  intros E fuel t w s s' n n' add Hm Hp Hne Hne' Hv Hvn Hv' Hvn' HN HN' Hw.
  destruct (C81_reference E fuel t w s n add Hm Hp Hne Hv Hvn HN) as (r & H1 & H2 & H3 & H4). destruct (C81_reference E fuel t w s' n' add Hm Hp Hne' Hv' Hvn' HN') as (r' & K1 & K2 & K3 & K4).
  rewrite !(encode_stages E fuel t _ add), H1, K1. cbn [bind]. apply post_alike. apply rows_forget; try assumption. eapply reference_words; [apply bw_same_words; exact Hw | exact H4 | exact K4].
Qed.
Print Assumptions C83_white_space.
Example C83_case : same_words (e_u_space test_env) (str "playing, chess") (str "  playing, 	 chess ") /\
  exists r r', snd (encode test_env 10 (demo None None (Some demo_template)) (str "playing, chess") true) = Ok r /\ snd (encode test_env 10 (demo None None (Some demo_template)) (str "  playing, 	 chess ") true) = Ok r' /\
  forget_offsets r = forget_offsets r' /\ en_ids r = en_ids r' /\ r <> r'.
Proof.
  split.
  - exists [], (str "  "), (str "playing, chess"), (str "playing, 	 chess "). split; [reflexivity|]. split; [reflexivity|]. split; [constructor|]. split; [repeat constructor|].
    do 8 (apply rs_char; [reflexivity|]). apply (rs_gap _ [32%N] [32%N; 9%N; 32%N] (str "chess") (str "chess ")); [discriminate | discriminate | repeat constructor | repeat constructor|].
    do 5 (apply rs_char; [reflexivity|]). apply (rs_end _ [] [32%N]); repeat constructor.
  - eexists. eexists. split; [vm_compute; reflexivity|]. split; [vm_compute; reflexivity|]. split; [reflexivity|]. split; [reflexivity|]. discriminate.
Qed.

(** ** C84 *)
(** A text made of two texts with white space between them: its tokens are those of the first followed by those of the second. *)
Theorem C84_concatenation : forall E fuel t w s1 s2 s n1 c n2 add, tz_model t = Some (MWordPiece w) -> tz_pre t = Some TBert -> s1 <> [] -> s2 <> [] -> s <> [] ->
  forallb valid_cp s1 = true -> forallb valid_cp s2 = true -> forallb valid_cp s = true -> forallb valid_cp (n1 ++ c :: n2) = true -> e_u_space E c = true ->
  normalized_in_place E t s1 n1 -> normalized_in_place E t s2 n2 -> normalized_in_place E t s (n1 ++ c :: n2) ->
  exists r1 r2 r, snd (encode E fuel (bare t) s1 add) = Ok r1 /\ snd (encode E fuel (bare t) s2 add) = Ok r2 /\ snd (encode E fuel (bare t) s add) = Ok r /\
  en_ids r = en_ids r1 ++ en_ids r2 /\ en_tokens r = en_tokens r1 ++ en_tokens r2.
Proof.
  intros E fuel t w s1 s2 s n1 c n2 add Hm Hp N1 N2 N Hv1 Hv2 Hv Hvn Hc HN1 HN2 HN.
  assert (V : forallb valid_cp n1 = true /\ forallb valid_cp n2 = true) by (rewrite forallb_app in Hvn; cbn [forallb] in Hvn; apply andb_prop in Hvn as [A B]; apply andb_prop in B as [_ B]; auto). destruct V as [V1 V2].
  destruct (C81_reference E fuel t w s1 n1 add Hm Hp N1 Hv1 V1 HN1) as (r1 & A1 & _ & A2 & (l1 & A3 & A4)). destruct (C81_reference E fuel t w s2 n2 add Hm Hp N2 Hv2 V2 HN2) as (r2 & B1 & _ & B2 & (l2 & B3 & B4)).
  destruct (C81_reference E fuel t w s (n1 ++ c :: n2) add Hm Hp N Hv Hvn HN) as (r & C1 & _ & C2 & (l & C3 & C4)). exists r1, r2, r. split; [exact A1|]. split; [exact B1|]. split; [exact C1|].
  assert (El : map snd l = map snd l1 ++ map snd l2) by (rewrite (split_bw _ _ _ _ _ A3), (split_bw _ _ _ _ _ B3), (split_bw _ _ _ _ _ C3); apply bw_gap; exact Hc).
  assert (K : exists la lb, l = la ++ lb /\ map snd la = map snd l1 /\ map snd lb = map snd l2).
  { exists (firstn (length l1) l), (skipn (length l1) l). split; [symmetry; apply firstn_skipn|]. rewrite <- firstn_map, <- skipn_map. rewrite El. rewrite <- (map_length snd l1), firstn_app, firstn_all, Nat.sub_diag, skipn_app, skipn_all, Nat.sub_diag. cbn [firstn skipn app]. rewrite app_nil_r. auto. }
  destruct K as (la & lb & -> & Ea & Eb). destruct (words_rows_app _ _ _ _ C4 la lb eq_refl) as (ra & rb & Er & Ra & Rb). cbn [Nat.add] in Rb.
  pose proof (words_rows_bases _ _ _ _ Ra _ _ (eq_sym Ea) A4) as Fa. pose proof (words_rows_shift _ _ _ _ (length la) B4) as B5. rewrite Nat.add_0_r in B5. pose proof (words_rows_bases _ _ _ _ Rb _ _ (eq_sym Eb) B5) as Fb.
  destruct (rows_cols r C2) as (I & _ & T & _). destruct (rows_cols r1 A2) as (I1 & _ & T1 & _). destruct (rows_cols r2 B2) as (I2 & _ & T2 & _).
  rewrite <- I, <- T, <- I1, <- T1, <- I2, <- T2, Er, !map_app.
  rewrite (forall2_map_eq r_id _ _ _ (fun x y (H : same_but_offset x y) => proj1 H) Fa), (forall2_map_eq r_id _ _ _ (fun x y (H : same_but_offset x y) => proj1 H) Fb).
  rewrite (forall2_map_eq r_token _ _ _ (fun x y (H : same_but_offset x y) => proj1 (proj2 (proj2 H))) Fa), (forall2_map_eq r_token _ _ _ (fun x y (H : same_but_offset x y) => proj1 (proj2 (proj2 H))) Fb).
  rewrite !map_map. split; reflexivity.
Qed.
Print Assumptions C84_concatenation.
Example C84_case : let t := demo None None (Some demo_template) in
  normalized_in_place test_env t (str "playing,") (str "playing,") /\ normalized_in_place test_env t (str "chess") (str "chess") /\ normalized_in_place test_env t (str "playing, chess") (str "playing, chess") /\
  exists r, snd (encode test_env 10 (bare t) (str "playing, chess") true) = Ok r /\ en_ids r = ([3; 4; 6] ++ [5])%Z.
Proof.
  assert (Q : forall s, s <> [] -> quiet test_env (demo None None (Some demo_template)) s -> normalized_in_place test_env (demo None None (Some demo_template)) s s) by (intros s; apply quiet_in_place).
  split; [|split; [|split]]; [apply Q; [discriminate|]; split; [reflexivity|]; split; apply no_added_check_ok; vm_compute; reflexivity..|]. eexists. split; [vm_compute; reflexivity | reflexivity].
Qed.

(** ** C85 *)
Lemma bert_in_place E t av cl ch st s : ascii_env E -> tz_av t = Some av -> tz_norm t = Some (NBert cl ch st true) -> s <> [] -> Forall printable s ->
  no_added_token (av_trie_raw av) (flat_map utf16_enc s) -> no_added_token (av_trie_norm av) (flat_map utf16_enc (map lower_ascii s)) -> normalized_in_place E t s (map lower_ascii s).
Proof.
  intros HE Hav Hn Hne Hs H1 H2. pose proof (bert_run E cl ch st true s HE Hs) as Hr. cbn beta iota in Hr. unfold normalized_in_place, normalized_to. rewrite Hav, Hn. split; [|split].
  - split; [destruct s; [congruence | discriminate]|]. split; [exists (set_text (new_nstring s) (map lower_ascii s)); split; [exact Hr | reflexivity] | auto].
  - unfold units. rewrite !bmp_utf16; [rewrite map_length; apply le_n | apply printable_bmp; exact Hs|]. apply printable_bmp. rewrite Forall_map. eapply Forall_impl; [|exact Hs]. apply printable_lower.
  - intros a sub _ Hsub. rewrite Hr in Hsub. injection Hsub as <-. reflexivity.
Qed.
(** The uncased BERT pipeline does not see the case of ASCII letters: texts that differ only in case give the same result, offsets included. *)
Theorem C85_case_insensitive : forall E fuel t w av cl ch st s s' add, ascii_env E -> tz_av t = Some av -> tz_norm t = Some (NBert cl ch st true) -> tz_pre t = Some TBert -> tz_model t = Some (MWordPiece w) ->
  s <> [] -> Forall printable s -> Forall printable s' -> map lower_ascii s = map lower_ascii s' ->
  no_added_token (av_trie_raw av) (flat_map utf16_enc s) -> no_added_token (av_trie_raw av) (flat_map utf16_enc s') -> no_added_token (av_trie_norm av) (flat_map utf16_enc (map lower_ascii s)) ->
  snd (encode E fuel t s add) = snd (encode E fuel t s' add).
Proof.
  intros E fuel t w av cl ch st s s' add HE Hav Hn Hp Hm Hne Hs Hs' Hl A1 A2 A3. assert (Hne' : s' <> []) by (intros ->; destruct s; [congruence | discriminate]).
  pose proof (bert_in_place E t av cl ch st s HE Hav Hn Hne Hs A1 A3) as P1. rewrite Hl in A3. pose proof (bert_in_place E t av cl ch st s' HE Hav Hn Hne' Hs' A2 A3) as P2.
  assert (PL : forall x, Forall printable x -> forallb valid_cp (map lower_ascii x) = true) by (intros x Hx; apply printable_valid; rewrite Forall_map; eapply Forall_impl; [|exact Hx]; apply printable_lower).
  destruct (C81_reference E fuel t w s _ add Hm Hp Hne (printable_valid s Hs) (PL s Hs) P1) as (r & H1 & H2 & H3 & H4). destruct (C81_reference E fuel t w s' _ add Hm Hp Hne' (printable_valid s' Hs') (PL s' Hs') P2) as (r' & K1 & K2 & K3 & K4).
  rewrite !(encode_stages E fuel t _ add), H1, K1. rewrite Hl in H4. rewrite (rows_equal r r' H3 K3 H2 K2 (reference_fun _ _ _ _ _ _ H4 K4)). reflexivity.
Qed.
Print Assumptions C85_case_insensitive.
Example C85_case : no_added_token (av_trie_raw demo_av) (flat_map utf16_enc (str "PlayING, cHess")) /\
  exists r, snd (encode test_env 10 bert_demo (str "PlayING, cHess") false) = Ok r /\ snd (encode test_env 10 bert_demo (str "playing, chess") false) = Ok r /\ en_tokens r = [str "play"; str "##ing"; str ","; str "chess"].
Proof. split; [apply no_added_check_ok; vm_compute; reflexivity|]. eexists. split; [vm_compute; reflexivity|]. split; vm_compute; reflexivity. Qed.
