(** Tokens added at run time and encode: C43. *)
From Verif Require Import Base BaseFacts Unicode UnicodeProofs Common Utils PostProcessor Decoder Normalizer PreTokenizer WordPiece Bpe AddedVocab Tokenizer Spec
  NormSpec NormProofs PreSpec PreProofs AvSpec AvProofs ExtractProofs TzSpec TzProofs WpSpec WpProofs HistSpec HistProofs OffSpec OffProofs RuntimeProofs
  PropsPre PropsAdded PropsEncode PropsOffsets Env.
From Coq Require Import ZifyBool.

(** ** C43 *)
(** What happens instead: in every state a tokenizer can reach, adding tokens whose texts are not tokens of the model changes the result of
    encode on no text at all, although the call reports success. Only texts the model knows already can be matched. *)
Theorem C43_new_tokens_ignored_refuted : forall E fuel t m ops av l t' n, tz_av t = Some av -> tz_model t = Some m -> dense (model_vocab m) -> model_vocab m <> [] ->
  history (model_vocab m) ops av -> Forall (fun tok => sfind (at_content tok) (model_vocab m) = None) l -> add_tokens false t l = Ok (t', n) ->
  forall s add, snd (encode E fuel t' s add) = snd (encode E fuel t s add).
Proof.
  intros E fuel t m ops av l t' n Hav Hm Hd Hne Hh Hl H s add. apply (history_ok _ _ _ Hd Hne) in Hh. unfold add_tokens in H. rewrite Hav, Hm in H. cbn [option_map] in H.
  apply bind_ok in H as ([av' n'] & H & E1). injection E1 as <- <-. unfold av_add_tokens in H. cbv zeta in H. apply bind_ok in H as (a2 & H2 & H). apply bind_ok in H as (a3 & H3 & H). injection H as <- _.
  pose proof (register_ok l av) as HR. cbv zeta in HR. destruct (register_specials l av) as (ex1 & S1 & S2). set (a1 := fold_left register_special l av) in *. destruct HR as (R1 & R2 & R3 & R4 & R5 & _).
  destruct (assign_outside _ l Hd Hne Hl a1 a2) as (K1 & K2 & (ex2 & K3 & K4) & K5); [eapply ids_ok_ext; [exact R2 | exact R3 | exact (ho_ids _ _ _ Hh)] | exact H2|].
  cbn [refresh_added_tokens] in H3. injection H3 as <-.
  assert (HK : forall b, known_tokens (model_vocab m) b (av_specials a2 ++ av_added a2) = known_tokens (model_vocab m) b (av_specials av ++ av_added av)).
  { intros b. assert (Hex : forall ex, incl ex l -> known_tokens (model_vocab m) b ex = []) by (intros ex Hi; apply known_none; apply Forall_forall; intros x Hx; exact (proj1 (Forall_forall _ _) Hl x (Hi x Hx))).
    rewrite K2, K3, S1, R1, !known_app, (Hex ex1 S2), (Hex ex2 K4), !app_nil_r. reflexivity. }
  apply encode_agree with (a := av); [exact Hav | cbn [av_trie_raw]; rewrite HK; symmetry; exact (ho_raw _ _ _ Hh) | cbn [av_trie_norm]; rewrite HK; symmetry; exact (ho_norm _ _ _ Hh)|].
  cbn [av_map_r]. intros i Hi. apply in_map_iff in Hi as ([x j] & <- & Hx). apply (trie_model _ _ _ x j Hh) in Hx as (Hx & _). cbn [snd]. unfold look. rewrite K5, R3; [reflexivity|]. apply (dense_range _ _ _ Hd Hx).
Qed.
Print Assumptions C43_new_tokens_ignored_refuted.

(** a tokenizer that knows "[CLS]" and "hello"; "[NEW]" is added to it, gets an id, but its text is encoded as the unknown token as before *)
Definition plain_tz (av : option added_vocab) : tokenizer := mkTz None None av None (Some TBert) (Some (MWordPiece (mkWp small_vocab (str "[UNK]") 100 (str "##")))) None None.
Example C43_new_case : exists av n t', small_result = Ok (av, n) /\ history small_vocab [tok "[CLS]" true] av /\
  add_special_tokens false (plain_tz (Some av)) [tok "[NEW]" true] = Ok (t', 1%Z) /\ (exists av', tz_av t' = Some av' /\ assigned av' (str "[NEW]") = Some 3%Z) /\
  exists r, snd (encode test_env 10 t' (str "[NEW]") false) = Ok r /\ en_ids r = [0; 0; 0]%Z /\ snd (encode test_env 10 (plain_tz (Some av)) (str "[NEW]") false) = Ok r.
Proof.
  destruct small_result as [[av n]| | |] eqn:E; try (vm_compute in E; discriminate). exists av, n. eexists. split; [reflexivity|]. split; [eapply h_new; exact E|]. vm_compute in E. injection E as <- <-.
  split; [vm_compute; reflexivity|]. split; [eexists; split; [reflexivity | vm_compute; reflexivity]|]. eexists. split; [vm_compute; reflexivity|]. split; reflexivity.
Qed.

(** What is true: a new token (its text was given to the tokenizer never before) that is a token of a WordPiece model is found by encode and gets its id, if it
    is added without the normalized, strip and whole-word flags, has no space, is not longer than max_input_chars_per_word and none of the tokens given so far is a
    proper prefix of it. Any normalizer, pre-tokenizers that do not rewrite the text. Special or not makes no difference. *)
Lemma recognised_untouched E : forall t, no_byte_level t -> forall p, Forall (fun s => sp_tokens s <> []) (pt_splits p) -> pre_tokenize E t p = Ok p.
Proof.
  assert (HS : forall fn b p, Forall (fun s => sp_tokens s <> []) (pt_splits p) -> pt_split fn b p = Ok p).
  { intros fn b [ns l] H. unfold pt_split. cbn [pt_splits pt_norm] in *. assert (HA : split_all fn b l = Ok l); [|rewrite HA; reflexivity].
    induction H as [|s l Hs _ IH]; [reflexivity|]. cbn [split_all]. destruct (sp_tokens s); [congruence|]. cbn [is_nil bind]. rewrite IH. reflexivity. }
  fix IH 1. intros [|pat b inv|aps rx|l] Ht p H.
  - cbn [pre_tokenize]. unfold bert_pre_tokenize. rewrite HS by exact H. cbn [bind]. apply HS, H.
  - apply HS, H.
  - destruct Ht.
  - cbn [pre_tokenize]. cbn [no_byte_level] in Ht. induction l as [|q r IHr]; [reflexivity|]. destruct Ht as [Hq Hr]. rewrite (IH q Hq p H). cbn [bind]. apply IHr, Hr.
Qed.

Lemma set_av_none t : t = set_av t (tz_av t).
Proof. destruct t; reflexivity. Qed.

Theorem C43_known_token : forall E fuel t w ops av cs tok i, tz_av t = Some av -> tz_model t = Some (MWordPiece w) -> dense (wp_vocab w) -> wp_vocab w <> [] ->
  history (wp_vocab w) ops av -> cs <> [] -> forallb valid_cp cs = true -> ~ In 32%N cs -> at_content tok = utf8_encs cs -> at_normalized tok = false -> plain_token tok ->
  sfind (utf8_encs cs) (wp_vocab w) = Some i -> (Z.of_nat (units cs) <= wp_max w)%Z ->
  (forall tok', In tok' ops -> at_content tok' <> utf8_encs cs /\ forall k, k < units cs -> at_content tok' <> to_utf8 (firstn k (flat_map utf16_enc cs))) ->
  (forall p, tz_pre t = Some p -> no_byte_level p) -> tz_trunc t = None -> tz_post t = None -> tz_pad t = None ->
  exists t' n, add_tokens false t [tok] = Ok (t', n) /\ exists r, snd (encode E fuel t' cs false) = Ok r /\ en_ids r = [i].
Proof.
  intros E fuel t w ops av cs tok i Hav Hm Hd Hne Hh Hcs Hv Hsp Hc Hnorm Hplain Hi Hmax Hold Hpre Htr Hpost Hpad. apply (history_ok _ _ _ Hd Hne) in Hh.
  assert (Hcne : at_content tok <> []). { rewrite Hc. destruct cs as [|c cs']; [congruence|]. cbn [utf8_encs flat_map]. pose proof (utf8_enc_nonempty c). destruct (utf8_enc c); [congruence | discriminate]. }
  assert (Hnone : sfind (at_content tok) (av_map av) = None).
  { destruct (sfind (at_content tok) (av_map av)) as [j|] eqn:Ej; [|reflexivity]. exfalso. destruct (proj1 (ho_assigned _ _ _ Hh (at_content tok))) as (_ & Hin); [exists j; exact Ej|]. apply in_map_iff in Hin as (tok' & E1 & Hin). destruct (Hold tok' Hin) as [Hn _]. congruence. }
  destruct (add_tokens_ok (wp_vocab w) av [tok] false Hd Hne (ho_ids _ _ _ Hh)) as (av' & H1 & H2 & H3 & H4 & H5 & H6 & H7 & H8 & H9 & H10 & H11); [discriminate|].
  assert (Hfind : zfind i (av_map_r av') = Some tok).
  { unfold av_add_tokens in H1. cbv zeta in H1. pose proof (register_ok [tok] av) as HR. cbv zeta in HR. set (a1 := fold_left register_special [tok] av) in *. destruct HR as (_ & R2 & R3 & _).
    cbn [assign_ids] in H1. apply is_nil_false in Hcne. rewrite Hcne in H1. unfold choose_id in H1. rewrite R2, Hnone in H1. unfold token_to_id in H1. rewrite Hc, Hi in H1. cbn [bind] in H1.
    destruct (smem (utf8_encs cs) (av_special_set a1)); cbn [assign_ids bind refresh_added_tokens] in H1; injection H1 as <-; cbn [av_map_r]; rewrite zfind_zset, Z.eqb_refl; reflexivity. }
  assert (Hsub : forall x, In x (av_specials av' ++ av_added av') -> In x ops \/ x = tok).
  { intros x Hx. apply in_app_iff in Hx as [Hx|Hx].
    - destruct (H8 x Hx) as [H|(H & _)]; [left; apply (ho_specials _ _ _ Hh x H) | right; destruct H as [H|[]]; auto].
    - rewrite H9 in Hx. apply in_app_iff in Hx as [Hx|Hx]; [left; exact (ho_added _ _ _ Hh x Hx)|]. apply filter_In in Hx as [[Hx|[]] _]. right. auto. }
  assert (Hin : In tok (av_specials av' ++ av_added av')).
  { destruct (smem (at_content tok) (av_special_set av')) eqn:Es.
    - apply smem_in in Es. destruct (H6 _ Es) as [H|(x & Hx & Ex)].
      + apply (ho_special _ _ _ Hh) in H as (_ & y & Hy & _ & Ey). destruct (Hold y Hy) as [Hn _]. congruence.
      + assert (Hx' : In x (av_specials av' ++ av_added av')) by (apply in_app_iff; left; exact Hx). destruct (Hsub x Hx') as [Ho| ->]; [destruct (Hold x Ho) as [Hn _]; congruence | exact Hx'].
    - apply in_app_iff. right. rewrite H9. apply in_app_iff. right. apply filter_In. split; [left; reflexivity|]. rewrite Es. apply is_nil_false in Hcne. rewrite Hcne. reflexivity. }
  unfold add_tokens. rewrite Hav, Hm. cbn [option_map model_vocab]. rewrite H1. cbn [bind]. do 2 eexists. split; [reflexivity|].
  destruct (extract_whole E av' (tz_norm t) cs i tok Hcs Hv Hsp Hfind Hplain) as (off & nn & HE).
  { rewrite H11. apply known_in. split; [exact Hi|]. exists tok. auto. }
  { intros id' Hid. rewrite H11 in Hid. apply known_in in Hid as (Hid & _). congruence. }
  { intros k id' Hk Hid. rewrite H11 in Hid. apply known_in in Hid as (_ & x & Hx & Ex & _). destruct (Hsub x Hx) as [Ho| ->]; [destruct (Hold x Ho) as [_ Hn]; exact (Hn k Hk Ex)|].
    rewrite Hc in Ex. symmetry in Ex. apply to_utf8_length in Ex; [|apply Forall_forall; intros y Hy; apply (proj1 (Forall_forall _ _) (utf16_units cs Hv)); rewrite <- (firstn_skipn k (flat_map utf16_enc cs)); apply in_app_iff; left; exact Hy | exact Hv].
    rewrite firstn_length in Ex. unfold units in *. lia. }
  rewrite encode_text. unfold text_encoding, prepare, new_pretok. cbn [set_av tz_av tz_norm tz_pre tz_model]. rewrite fresh_numbered. cbn [ns_text numbered_ns]. unfold convert_to_string. rewrite Hv. cbn [bind]. rewrite HE. cbn [bind].
  replace (match tz_pre t with Some pt => pre_tokenize E pt (mkPt (new_nstring cs) [mkSplit (utf8_encs cs) (0, nn) [mkTok i (utf8_encs cs) off]]) | None => Ok (mkPt (new_nstring cs) [mkSplit (utf8_encs cs) (0, nn) [mkTok i (utf8_encs cs) off]]) end)
    with (Ok (mkPt (new_nstring cs) [mkSplit (utf8_encs cs) (0, nn) [mkTok i (utf8_encs cs) off]])) by (destruct (tz_pre t) as [p|] eqn:Ep; [symmetry; apply recognised_untouched; [apply Hpre; reflexivity | constructor; [discriminate | constructor]] | reflexivity]).
  cbn [bind]. rewrite Hm. cbn [model_tokenize snd]. unfold wp_tokenize. cbn [pt_splits pt_norm mapM sp_text sp_off].
  rewrite (C44_wordpiece_word w cs i Hcs Hv Hi Hmax). cbn [bind]. unfold into_encoding. cbn [pt_norm pt_splits into_rows].
  rewrite base_fresh by (cbn [sp_off fst]; rewrite from_utf32_valid by exact Hv; destruct (units cs) eqn:Eu; [apply units_0 in Eu; congruence | unfold units in Eu; lia]).
  cbn [bind sp_tokens]. unfold do_post_process. cbn [set_av tz_trunc tz_post tz_pad]. rewrite Htr, Hpost, Hpad. cbn [bind]. eexists. split; [reflexivity | reflexivity].
Qed.
Print Assumptions C43_known_token.
Example C43_known_case : exists av n, small_result = Ok (av, n) /\ history small_vocab [tok "[CLS]" true] av /\
  (forall tok', In tok' [tok "[CLS]" true] -> at_content tok' <> str "hello" /\ forall k, k < 5 -> at_content tok' <> to_utf8 (firstn k (str "hello"))) /\
  exists t', add_tokens false (plain_tz (Some av)) [tok "hello" false] = Ok (t', 1%Z) /\ exists r, snd (encode test_env 10 t' (str "hello") false) = Ok r /\ en_ids r = [1]%Z.
Proof.
  destruct small_result as [[av n]| | |] eqn:E; try (vm_compute in E; discriminate). exists av, n. split; [reflexivity|]. split; [eapply h_new; exact E|]. vm_compute in E. injection E as <- <-.
  split; [intros tok' [<-|[]]; split; [discriminate|]; intros k Hk; do 5 (destruct k as [|k]; [discriminate|]); lia|].
  eexists. split; [vm_compute; reflexivity|]. eexists. split; [vm_compute; reflexivity | reflexivity].
Qed.
