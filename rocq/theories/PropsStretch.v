(** C142: every outcome of encode on a text with added tokens. Specification: StretchSpec.v, TextsSpec.v, EverySpec.v. *)
From Verif Require Import Base BaseFacts Unicode UnicodeProofs Common Utils PostProcessor Decoder Normalizer PreTokenizer WordPiece Bpe AddedVocab Tokenizer Config ConfigSpec Spec PostSpec
  NormSpec NormProofs DecSpec PreSpec PreProofs AvSpec AvProofs ExtractProofs TzSpec TzProofs WpSpec WpProofs OffSpec OffProofs RefSpec RefProofs TextProofs BpeSpec BpeProofs BpeWord UnkSpec
  BpeRefSpec PropsBpe PropsUnknown PropsReference PropsBpeText Env CutSpec PropsCut DropSpec StripSpec PropsStrip AccentSpec PropsAccent BertSpec PropsBertOffsets PropsLlama PropsByteDec FormSpec PropsForm UncasedSpec PropsNorm PropsDeleted PropsUncased EraseSpec PropsErase WholeSpec PropsWhole
  HistSpec LenSpec FullSpec PropsConfig PropsAdded PropsLifetime PropsText OutSpec OutProofs HistProofs PropsFinish PropsFull PropsOffsets RelevSpec PropsRelevant PropsBertConfig TotalSpec PropsTotal
  MixSpec PartsSpec PropsMixed PropsParts TextsSpec PropsTexts BoundSpec PropsBound PropsBoundAt EverySpec PropsEvery StretchSpec.
From Verif Require Import BpeRefSpec.
From Coq Require Import ZifyBool ZifyNat ZifyN.
Import ListNotations.

Definition ends_so (E : env) (norm : option normalizer) (X : wstr -> Prop) {A} (o : res A) : Prop :=
  (exists r, o = Ok r) \/ o = Undef OobIndex \/ (exists x n, X x /\ normalized_to E norm x n /\ forallb valid_cp n = false /\ o = Throw RangeError) \/ (exists x, X x /\ same_failure (run_norm E norm x) o).
Lemma ends_so_bind {A B} E norm X (o : res A) (f : A -> res B) : ends_so E norm X o -> (forall a, o = Ok a -> ends_so E norm X (f a)) -> ends_so E norm X (bind o f).
Proof.
  intros [(r & ->)|[->|[(x & n & H1 & H2 & H3 & ->)|(x & H1 & H2)]]] Hf; cbn [bind].
  - apply Hf. reflexivity.
  - right. left. reflexivity.
  - right. right. left. exists x, n. auto.
  - destruct o as [a| | |]; cbn [bind]; [apply Hf; reflexivity| | |]; right; right; right; exists x; (split; [exact H1|]); destruct (run_norm E norm x); cbn in *; auto.
Qed.
Lemma ends_so_ok {A} E norm X (r : A) : ends_so E norm X (Ok r).
Proof. left. exists r. reflexivity. Qed.
Lemma ends_so_oob {A} E norm X R (o : res A) : ends (fun _ => False) oob R o -> ends_so E norm X o.
Proof. destruct o as [r|e|u|]; cbn; [intros _; apply ends_so_ok | contradiction | intros ->; right; left; reflexivity | contradiction]. Qed.
Lemma ends_so_mono {A} E norm (X Y : wstr -> Prop) (o : res A) : (forall x, X x -> Y x) -> ends_so E norm X o -> ends_so E norm Y o.
Proof. intros H [(r & ->)|[->|[(x & n & H1 & H2)|(x & H1 & H2)]]]; [apply ends_so_ok | right; left; reflexivity | right; right; left; exists x, n; auto | right; right; right; exists x; auto]. Qed.

Lemma normalize_ends E norm trie map_r (X : wstr -> Prop) : plain_ids map_r trie -> forall raw L ns ending, Forall2 t_holds L raw -> Forall (fun q => forallb valid_cp (fst q) = true) L ->
  (forall q sub, In q L -> run_norm E norm (fst q) = Ok sub -> bmp (ns_text sub)) -> (forall q, In q L -> snd q = false -> X (fst q)) ->
  ends_so E norm X (normalize_splits E norm trie ns map_r ending raw).
Proof.
  intros HP. induction raw as [|x raw IH]; intros L ns ending HF HV HB HX; inversion HF as [|q ? L' ? Hq HF']; subst; cbn [normalize_splits].
  - apply ends_so_ok.
  - pose proof (Forall_inv HV) as V1. pose proof (Forall_inv_tail HV) as V2. cbn beta in V1. assert (HB' : forall q sub, In q L' -> run_norm E norm (fst q) = Ok sub -> bmp (ns_text sub)) by (intros q0 sub Hin; apply HB; right; exact Hin).
    assert (HX' : forall q, In q L' -> snd q = false -> X (fst q)) by (intros q0 Hin; apply HX; right; exact Hin).
    destruct Hq as [Q1 Q2]. destruct (sp_tokens x) as [|t ts] eqn:Et.
    + destruct (snd q) eqn:Ef; [congruence|]. rewrite Q1. rewrite (proj2 (convert_from_string_iff _ (fst q)) (conj eq_refl V1)). cbn [bind]. fold (run_norm E norm (fst q)).
      apply ends_so_bind.
      { destruct (run_norm E norm (fst q)) as [sub| | |] eqn:En; [apply ends_so_ok|..]; right; right; right; exists (fst q); (split; [apply HX; [left; reflexivity | exact Ef] | rewrite En; reflexivity || exact I]). }
      intros sub En. apply ends_so_bind; [eapply ends_so_oob, range_ends|]. intros ns1 _.
      pose proof (HB q sub (or_introl eq_refl) En) as Hb. unfold convert_to_string at 1. destruct (forallb valid_cp (ns_text sub)) eqn:Hv; cbn [bind].
      2: { right. right. left. exists (fst q), (ns_text sub). split; [apply HX; [left; reflexivity | exact Ef]|]. split; [exists sub; auto|]. auto. }
      destruct (find_plain map_r (utf8_encs (ns_text sub)) trie HP) as [Hf _]. rewrite Hf. cbn [bind]. rewrite from_utf8_encs, bmp_utf16 by assumption.
      rewrite (norm_splits_ok _ _ _ 0 Hv (segs_chained _ _)). cbn [bind]. apply ends_so_bind; [exact (IH _ _ _ HF' V2 HB' HX')|]. intros [[ns2 m2] rest] _. apply ends_so_ok.
    + apply ends_so_bind; [exact (IH _ _ _ HF' V2 HB' HX')|]. intros [[ns2 m2] rest] _. apply ends_so_ok.
Qed.

Section Stretch.
Variables (E : env) (s : wstr) (v : smap Z) (ops : list added_token) (av : added_vocab) (t : tokenizer).
Hypothesis (Hav : tz_av t = Some av) (Hpre : forall p, tz_pre t = Some p -> cuttable E p) (Hne : s <> []) (Hs : bmp s) (Hvs : forallb valid_cp s = true) (Hd : dense v) (Hv : v <> []) (HH : history v ops av) (Hf : one_flag ops) (Hsim : Forall printable_token ops).
Hypothesis Hnb : forall a x b n, s = a ++ x ++ b -> normalized_to E (tz_norm t) x n -> bmp n.
Notation So := (ends_so E (tz_norm t) (token_stretch v ops s)).
Lemma raw_stretch p : In p (segs_of (av_trie_raw av) s) -> fst p = None -> token_stretch v ops s (slice s (fst (snd p)) (snd (snd p))).
Proof.
  intros Hp Ho. destruct (tries_nonempty v ops av Hd Hv HH Hsim) as (_ & T2 & _ & _). pose proof (plane_text s Hs Hvs) as Hpl.
  destruct (trie_plane (takes_part v ops false) (av_trie_raw av) s 0 Hpl T2) as [(tokens & F1 & F2) _]; [intros c Hc Hcn; apply (known_plane v ops av false c Hd Hv HH Hf Hsim Hc Hcn)|].
  exists tokens, (map (seg_item s 0) (segs_of (av_trie_raw av) s)), (fst (fst (seg_item s 0 p))). split; [exact F1|]. split; [exact F2|].
  apply in_map_iff. exists p. split; [|exact Hp]. unfold seg_item. cbn [fst snd]. rewrite Ho. reflexivity.
Qed.
Lemma prepare_ends : So (prepare E t s).
Proof.
  unfold prepare. unfold new_pretok at 1. assert (Ht : ns_text (new_nstring s) = s) by (apply (fresh_packed s)). rewrite Ht. unfold convert_to_string at 1. rewrite Hvs. cbn [bind]. rewrite Hav.
  apply ends_so_bind.
  - apply ends_so_bind; [|intros [m p1] _; apply ends_so_ok].
    assert (Hal : Forall simple_token ops) by (eapply Forall_impl; [|exact Hsim]; exact printable_simple).
    destruct (history_plain _ _ _ Hd Hv HH Hal) as (HP1 & HP2 & _). unfold extract_and_normalize. rewrite fresh_numbered. unfold new_pretok. cbn [ns_text numbered_ns]. unfold convert_to_string at 1.
    rewrite Hvs. cbn [bind pt_norm pt_splits]. cbn [ns_text numbered_ns]. unfold convert_to_string at 1. rewrite Hvs. cbn [bind].
    destruct (find_plain (av_map_r av) (utf8_encs s) (av_trie_raw av)) as [Hfp _]; [assumption|]. rewrite Hfp. cbn [bind]. rewrite from_utf8_encs, bmp_utf16 by assumption.
    rewrite (raw_splits_ok s _ 0 Hvs (segs_chained _ _)). cbn [bind]. pose proof (segs_chained (av_trie_raw av) s) as Hc.
    remember (map (seg_split s 0) (segs_of (av_trie_raw av) s)) as raw eqn:Hraw0.
    assert (Hr : raw <> []). { rewrite Hraw0. destruct (segs_of (av_trie_raw av) s); [cbn in Hc; destruct s; [congruence | discriminate] | discriminate]. }
    assert (Hm : forall d : list split, match raw with [] => d | _ => raw end = raw) by (destruct raw; [congruence | reflexivity]). rewrite Hm. clear Hm.
    apply ends_so_bind; [|intros [[ns m2] out] _; apply ends_so_ok].
    apply (normalize_ends E (tz_norm t) (av_trie_norm av) (av_map_r av) (token_stretch v ops s)) with (L := map (seg_text s) (segs_of (av_trie_raw av) s)).
    + assumption.
    + rewrite Hraw0. apply map_t_holds.
    + apply Forall_forall. intros q Hq. apply in_map_iff in Hq as (p0 & <- & Hp). cbn [seg_text fst]. apply valid_slice. exact Hvs.
    + intros q sub Hq Hn. apply in_map_iff in Hq as (p0 & <- & Hp). cbn [seg_text fst] in Hn. pose proof (chained_all _ _ _ Hc) as HB. pose proof (proj1 (Forall_forall _ _) HB p0 Hp) as [B1 B2]. cbn beta in B1, B2.
      apply (Hnb (firstn (fst (snd p0)) s) (slice s (fst (snd p0)) (snd (snd p0))) (skipn (snd (snd p0)) s) (ns_text sub)); [|exists sub; auto]. rewrite <- (skip_slice s (fst (snd p0)) (snd (snd p0)) B1 B2). symmetry. apply firstn_skipn.
    + intros q Hq Hqf. apply in_map_iff in Hq as (p0 & <- & Hp). cbn [seg_text fst snd] in *. apply raw_stretch; [exact Hp|]. destruct (fst p0); [discriminate | reflexivity].
  - intros [a p1] Ha. apply bind_ok in Ha as ([m p0] & Hx & Ha). injection Ha as _ <-. pose proof (plane_text s Hs Hvs) as Hpl.
    destruct (extracted_texts E (tz_norm t) (tz_pre t) s v ops av Hne Hpl Hd Hv HH Hf Hsim Hnb m p0 Hx) as (items & I1 & I2 & _). destruct p0 as [ns ss]. cbn [pt_splits] in I1.
    destruct (pre_texts E (tz_pre t) ns items ss Hpre I1 I2) as (TT & ss' & _ & T2 & _). rewrite T2. cbn [bind]. apply ends_so_ok.
Qed.
Lemma wp_ends w : tz_model t = Some (MWordPiece w) -> So (text_encoding E t s).
Proof.
  intros Hm. unfold text_encoding. apply ends_so_bind; [exact prepare_ends|]. intros [a p] _. rewrite Hm. cbn [model_tokenize snd]. destruct (wp_tokenize_ok w p) as (out & Hl & _). rewrite Hl. cbn [bind]. eapply ends_so_oob, rows_ends.
Qed.
Lemma bpe_ends vocab merges d unk bpre suf fu bf ig b c : pq_ok E -> new_bpe vocab merges d unk bpre suf fu bf ig = Ok b -> reach_cache E b c -> tz_model t = Some (MBpe b c) -> So (text_encoding E t s).
Proof.
  intros Hq Hb Hr Hm. unfold text_encoding. apply ends_so_bind; [exact prepare_ends|]. intros [a p] Ep. rewrite Hm. destruct (prepared_plane E s v ops av t Hav Hpre Hne Hs Hd Hv HH Hf Hsim Hnb a p Ep) as (ws & _ & W2 & _).
  assert (Hmt : snd (model_tokenize E (MBpe b c) p) = snd (bpe_tokenize E b c p)) by (cbn [model_tokenize]; destruct (bpe_tokenize E b c p); reflexivity).
  rewrite Hmt, (proj1 (bpe_tokenize_transparent E b c _ (reach_cache_ok E b c Hr))), plain_untokened. destruct (texts_shape _ _ W2) as (q & Q1 & _). rewrite Q1. set (z := plain_words E b _).
  destruct (words_cases E b vocab merges d unk bpre suf fu bf ig Hq Hb q) as [(Hl & out & O1 & O2)|(Hl & O1)]; [assert (Ez : z = Ok out) by exact O1 | assert (Ez : z = Undef OobIndex) by exact O1]; rewrite Ez; cbn [bind]; [eapply ends_so_oob, rows_ends | right; left; reflexivity].
Qed.
Lemma bpe_encodable vocab merges d unk bpre suf fu bf ig b c core : pq_ok E -> new_bpe vocab merges d unk bpre suf fu bf ig = Ok b -> reach_cache E b c -> tz_model t = Some (MBpe b c) -> text_encoding E t s = Ok core ->
  exists ws l, (all_words E v ops (tz_norm t) (tz_pre t) s ws /\ Forall (encodable b) ws) /\ map snd l = ws /\ rows_of_words (bpe_tokens b) 0 l (rows core).
Proof.
  intros Hq Hb Hr Hm HT. destruct (bpe_texts E s v ops av t Hav Hpre Hne Hs Hd Hv HH Hf Hsim Hnb vocab merges d unk bpre suf fu bf ig b c core Hq Hb Hr Hm HT) as (ws & l & W1 & W2 & W3). exists ws, l. split; [split; [exact W1|] | auto].
  unfold text_encoding in HT. destruct (prepare E t s) as [[a p]| | |] eqn:Ep; cbn [bind] in HT; try discriminate. rewrite Hm in HT. destruct (prepared_plane E s v ops av t Hav Hpre Hne Hs Hd Hv HH Hf Hsim Hnb a p Ep) as (ws' & V1 & V2 & _).
  assert (ws' = ws) as -> by (eapply C137_determined; eassumption).
  assert (Hmt : snd (model_tokenize E (MBpe b c) p) = snd (bpe_tokenize E b c p)) by (cbn [model_tokenize]; destruct (bpe_tokenize E b c p); reflexivity).
  rewrite Hmt, (proj1 (bpe_tokenize_transparent E b c _ (reach_cache_ok E b c Hr))), plain_untokened in HT. destruct (texts_shape _ _ V2) as (q & Q1 & Q2). rewrite Q1 in HT. set (z := plain_words E b _) in HT.
  destruct (words_cases E b vocab merges d unk bpre suf fu bf ig Hq Hb q) as [(Hl & out & O1 & O2)|(Hl & O1)]; [rewrite <- Q2, Forall_map; exact Hl | assert (Ez : z = Undef OobIndex) by exact O1; rewrite Ez in HT; discriminate].
Qed.
End Stretch.

Lemma finish_stretch E u t0 c s add (P : wstr -> list token -> Prop) (W : list wstr -> Prop) (X : wstr -> Prop) : build c = Ok t0 -> config_ok c -> same_setup t0 u -> sane t0 -> (forall p, cf_post c = Some p -> specials_ok p) ->
  (forall core, text_encoding E u s = Ok core -> exists ws l, W ws /\ map snd l = ws /\ rows_of_words P 0 l (rows core)) -> ends_so E (tz_norm u) X (text_encoding E u s) ->
  let outcome fuel := snd (encode E fuel u s add) in
  (exists ws l rs, W ws /\ map snd l = ws /\ rows_of_words P 0 l rs /\
    ((Z.of_nat (length rs) < 2 ^ 31)%Z -> (forall k, k <= length rs -> (Z.of_nat (tz_post_length t0 add k) < 2 ^ 31)%Z) ->
     exists r, (forall fuel, length rs + 2 <= fuel -> outcome fuel = Ok r) /\ parallel r /\ finished t0 add rs (rows r))) \/
  (forall fuel, outcome fuel = Undef OobIndex) \/
  (exists x n, X x /\ normalized_to E (tz_norm u) x n /\ forallb valid_cp n = false /\ forall fuel, outcome fuel = Throw RangeError) \/
  (exists x, X x /\ forall fuel, same_failure (run_norm E (tz_norm u) x) (outcome fuel)).
Proof.
  intros Hb Hok Ss Hsane Hsp HC HE outcome. destruct HE as [(core & ET)|[ET|[(x & n & H1 & H2 & H3 & ET)|(x & H1 & H2)]]].
  - left. destruct (HC core ET) as (ws & l & H1 & H2 & H3). exists ws, l, (rows core). split; [exact H1|]. split; [exact H2|]. split; [exact H3|]. intros B1 B2. destruct (text_encoding_parallel _ _ _ _ ET) as [Hfl _].
    apply (bound_total E u t0 c s add core Hb Hok Ss Hsane Hsp); [rewrite encode_bare; exact ET | exact Hfl | exact B1 | exact B2].
  - right. left. intros fuel. unfold outcome. rewrite encode_stages, encode_bare, ET. reflexivity.
  - right. right. left. exists x, n. split; [exact H1|]. split; [exact H2|]. split; [exact H3|]. intros fuel. unfold outcome. rewrite encode_stages, encode_bare, ET. reflexivity.
  - right. right. right. exists x. split; [exact H1|]. intros fuel. unfold outcome. rewrite encode_stages, encode_bare. destruct (text_encoding E u s) as [core|e|y|]; destruct (run_norm E (tz_norm u) x); cbn in *; auto; contradiction.
Qed.

(** *** The configuration and the history *)
(** A tokenizer constructed from a configuration with WordPiece, any normalizer and pre-tokenizer, and special added tokens, at any later time, on any text of the basic plane: the rows of exactly the words of the
    text; or an access beyond the table; or std::range_error, because a stretch of the text between its tokens is normalized to something that is not Unicode; or the failure of the normalizer on such a stretch. *)
Theorem C142_wordpiece : forall load parse path cfg text c t0 w toks E fuel0,
  source load path cfg (Some text) -> parse text = Some (render c) -> config_ok c -> build c = Ok t0 ->
  cf_model c = Some (CWordPiece w) -> dense (wp_vocab w) -> wp_vocab w <> [] -> (forall p, cf_pre c = Some p -> cuttable E p) ->
  cf_added c = Some toks -> Forall (fun x => at_special x = true) toks -> sane t0 -> (forall p, cf_post c = Some p -> specials_ok p) ->
  exists t, construct load parse path cfg = Ok t /\
  forall h s add, s <> [] -> bmp s -> forallb valid_cp s = true -> Forall printable_token (toks ++ given h) -> one_flag (toks ++ given h) ->
  (forall a x b n, s = a ++ x ++ b -> normalized_to E (cf_norm c) x n -> bmp n) ->
  let outcome fuel := snd (encode E fuel (HistSpec.after E fuel0 t h) s add) in
  let stretch := token_stretch (wp_vocab w) (toks ++ given h) s in
  (exists ws l rs, all_words E (wp_vocab w) (toks ++ given h) (cf_norm c) (cf_pre c) s ws /\ map snd l = ws /\ rows_of_words (word_tokens w) 0 l rs /\
    ((Z.of_nat (length rs) < 2 ^ 31)%Z -> (forall k, k <= length rs -> (Z.of_nat (tz_post_length t0 add k) < 2 ^ 31)%Z) ->
     exists r, (forall fuel, length rs + 2 <= fuel -> outcome fuel = Ok r) /\ parallel r /\ finished t0 add rs (rows r))) \/
  (forall fuel, outcome fuel = Undef OobIndex) \/
  (exists x n, stretch x /\ normalized_to E (cf_norm c) x n /\ forallb valid_cp n = false /\ forall fuel, outcome fuel = Throw RangeError) \/
  (exists x, stretch x /\ forall fuel, same_failure (run_norm E (cf_norm c) x) (outcome fuel)).
Proof.
  intros load parse path cfg text c t0 w toks E fuel0 Hs Hp Hok Hb Hm Hd Hne Hpre Ha Hspec Hsane Hsp.
  destruct (wp_setup load parse path cfg text c t0 w toks E fuel0 Hs Hp Hok Hb Hm Hd Hne Ha Hspec) as (t & Hc & Hu). exists t. split; [exact Hc|].
  intros h s add Hs0 Hbm Hvs Hsim Hf Hnb outcome stretch. destruct (Hu h) as (av & A1 & A2 & SN & SP & M1 & S). unfold outcome. remember (HistSpec.after E fuel0 t h) as u eqn:Eu. clear outcome Hu.
  rewrite <- SN, <- SP. rewrite <- SN in Hnb. rewrite <- SP in Hpre.
  apply (finish_stretch E u t0 c s add (word_tokens w) (all_words E (wp_vocab w) (toks ++ given h) (tz_norm u) (tz_pre u) s) stretch Hb Hok S Hsane Hsp).
  - intros core HT. exact (wp_texts E s (wp_vocab w) (toks ++ given h) av u A1 Hpre Hs0 Hbm Hd Hne A2 Hf Hsim Hnb w core M1 HT).
  - exact (wp_ends E s (wp_vocab w) (toks ++ given h) av u A1 Hpre Hs0 Hbm Hvs Hd Hne A2 Hf Hsim Hnb w M1).
Qed.
Print Assumptions C142_wordpiece.
Theorem C142_bpe : forall load parse path cfg text c t0 vocab merges d unk pre suf fu bf ig b toks E fuel0,
  source load path cfg (Some text) -> parse text = Some (render c) -> config_ok c -> build c = Ok t0 -> pq_ok E ->
  cf_model c = Some (CBpe vocab merges d unk pre suf fu bf ig) -> new_bpe vocab merges d unk pre suf fu bf ig = Ok b -> dense vocab -> vocab <> [] -> (forall p, cf_pre c = Some p -> cuttable E p) ->
  cf_added c = Some toks -> Forall (fun x => at_special x = true) toks -> sane t0 -> (forall p, cf_post c = Some p -> specials_ok p) ->
  exists t, construct load parse path cfg = Ok t /\
  forall h s add, s <> [] -> bmp s -> forallb valid_cp s = true -> Forall printable_token (toks ++ given h) -> one_flag (toks ++ given h) ->
  (forall a x b n, s = a ++ x ++ b -> normalized_to E (cf_norm c) x n -> bmp n) ->
  let outcome fuel := snd (encode E fuel (HistSpec.after E fuel0 t h) s add) in
  let stretch := token_stretch vocab (toks ++ given h) s in
  (exists ws l rs, (all_words E vocab (toks ++ given h) (cf_norm c) (cf_pre c) s ws /\ Forall (encodable b) ws) /\ map snd l = ws /\ rows_of_words (bpe_tokens b) 0 l rs /\
    ((Z.of_nat (length rs) < 2 ^ 31)%Z -> (forall k, k <= length rs -> (Z.of_nat (tz_post_length t0 add k) < 2 ^ 31)%Z) ->
     exists r, (forall fuel, length rs + 2 <= fuel -> outcome fuel = Ok r) /\ parallel r /\ finished t0 add rs (rows r))) \/
  (forall fuel, outcome fuel = Undef OobIndex) \/
  (exists x n, stretch x /\ normalized_to E (cf_norm c) x n /\ forallb valid_cp n = false /\ forall fuel, outcome fuel = Throw RangeError) \/
  (exists x, stretch x /\ forall fuel, same_failure (run_norm E (cf_norm c) x) (outcome fuel)).
Proof.
  intros load parse path cfg text c t0 vocab merges d unk pre suf fu bf ig b toks E fuel0 Hs Hp Hok Hb Hq Hm Hbp Hd Hne Hpre Ha Hspec Hsane Hsp.
  destruct (bpe_setup load parse path cfg text c t0 vocab merges d unk pre suf fu bf ig b toks E fuel0 Hs Hp Hok Hb Hm Hbp Hd Hne Ha Hspec) as (t & Hc & Hu). exists t. split; [exact Hc|].
  intros h s add Hs0 Hbm Hvs Hsim Hf Hnb outcome stretch. destruct (Hu h) as (av & c' & A1 & A2 & SN & SP & M1 & M2 & S). unfold outcome. remember (HistSpec.after E fuel0 t h) as u eqn:Eu. clear outcome Hu.
  rewrite <- SN, <- SP. rewrite <- SN in Hnb. rewrite <- SP in Hpre.
  apply (finish_stretch E u t0 c s add (bpe_tokens b) (fun ws => all_words E vocab (toks ++ given h) (tz_norm u) (tz_pre u) s ws /\ Forall (encodable b) ws) stretch Hb Hok S Hsane Hsp).
  - intros core HT. exact (bpe_encodable E s vocab (toks ++ given h) av u A1 Hpre Hs0 Hbm Hd Hne A2 Hf Hsim Hnb vocab merges d unk pre suf fu bf ig b c' core Hq Hbp M2 M1 HT).
  - exact (bpe_ends E s vocab (toks ++ given h) av u A1 Hpre Hs0 Hbm Hvs Hd Hne A2 Hf Hsim Hnb vocab merges d unk pre suf fu bf ig b c' Hq Hbp M2 M1).
Qed.
Print Assumptions C142_bpe.
(** The stretches are non-empty parts of the text. *)
Lemma divided_part pos s ms segs : divided pos s ms segs -> forall p x, In ((p, x), false) segs -> x <> [] /\ exists a b, s = a ++ x ++ b.
Proof.
  induction 1 as [pos|pos x Hx|pos x rest a b ms segs Hx Ha _ IH|pos x rest ms segs _ IH]; intros p y Hin.
  - contradiction.
  - destruct Hin as [[= <- <-]|[]]. split; [exact Hx|]. exists [], []. rewrite app_nil_r. reflexivity.
  - destruct Hin as [[= <- <-]|Hin]; [split; [exact Hx|]; exists [], rest; reflexivity|]. destruct (IH p y Hin) as (H1 & a' & b' & ->). split; [exact H1|]. exists (x ++ a'), b'. rewrite <- app_assoc. reflexivity.
  - destruct Hin as [Hin|Hin]; [discriminate|]. destruct (IH p y Hin) as (H1 & a' & b' & ->). split; [exact H1|]. exists (x ++ a'), b'. rewrite <- app_assoc. reflexivity.
Qed.
Theorem C142_stretch : forall v ops s x, token_stretch v ops s x -> x <> [] /\ exists a b, s = a ++ x ++ b.
Proof. intros v ops s x (tokens & segs & pos & _ & H & Hin). exact (divided_part 0 s _ _ H pos x Hin). Qed.
Print Assumptions C142_stretch.
Lemma fields_none tok (other : nat -> wstr -> list (nat * wstr) -> Prop) : (forall pos c l, other pos c l -> l = []) -> forall pos s l, fields tok other pos s l -> (forall a x b, s = a ++ x ++ b -> ~ tok x) -> l = [].
Proof.
  intros Ho pos s l H. induction H as [pos|pos s l _ IH|pos c s l Hn Hs Ht Hm _ IH|pos c s l1 l Hn Hs Hr Hm H1 _ IH]; intros HN.
  - reflexivity.
  - apply IH. intros a x b ->. apply (HN (32%N :: a) x b). reflexivity.
  - exfalso. exact (HN [] c s eq_refl Ht).
  - rewrite (Ho _ _ _ H1). apply IH. intros a x b ->. apply (HN (c ++ a) x b). rewrite <- app_assoc. reflexivity.
Qed.
(** Of a text in which no token with normalized = false stands, only the whole is normalized. *)
Theorem C142_whole : forall v ops s x, (forall a c b, s = a ++ c ++ b -> ~ takes_part v ops false c) -> token_stretch v ops s x -> x = s.
Proof.
  intros v ops s x HN (tokens & segs & pos & HF & HD & Hin). rewrite (fields_none _ (fun _ _ none => none = []) (fun _ _ _ H => H) 0 s tokens HF HN) in HD. cbn [map] in HD.
  inversion HD; subst; [contradiction|]. destruct Hin as [[= <- <-]|[]]. reflexivity.
Qed.
Print Assumptions C142_whole.

(** The small tokenizer of C112 after its history: two stretches of "e-acute [MASK]Chess!"; the normalizer fails on them in a library that does not decompose; it makes a surrogate of the second in one that lower-cases
    so; and after a mask Vietnamese letters with two accents each drive the last word out of the table. *)
Lemma mask_fields : fields (takes_part base_vocab (base_tokens ++ given base_history) false) (fun _ _ none => none = []) 0 mask_text [(2, str "[MASK]")].
Proof.
  assert (HX : forall k (x : wstr), 0 < k <= 1 -> x = [0xE9]%N -> ~ takes_part base_vocab (base_tokens ++ given base_history) false (firstn k x)) by (intros k x Hk -> K; apply mask_takes in K; destruct k as [|[|k]]; [lia | | lia]; vm_compute in K; intuition discriminate).
  apply (fd_rest _ _ 0 [0xE9]%N (32%N :: str "[MASK]Chess!") []); [discriminate | cbn; intuition discriminate | right; eexists; reflexivity | intros k Hk; apply HX; [exact Hk | reflexivity] | reflexivity|]. apply fd_space.
  apply (fd_token _ _ 2 (str "[MASK]") (str "Chess!")); [discriminate | cbn; intuition discriminate | apply mask_takes; cbn; auto 10 | intros k Hk K; apply mask_takes in K; do 6 (destruct k as [|k]; [first [lia | vm_compute in K; intuition discriminate]|]); cbn in Hk; lia|].
  apply (fd_rest _ _ 8 (str "Chess!") [] []); [discriminate | cbn; intuition discriminate | left; reflexivity | intros k Hk K; apply mask_takes in K; do 7 (destruct k as [|k]; [first [lia | vm_compute in K; intuition discriminate]|]); cbn in Hk; lia | reflexivity | constructor].
Qed.
Lemma mask_stretches : token_stretch base_vocab (base_tokens ++ given base_history) mask_text [0xE9; 32]%N /\ token_stretch base_vocab (base_tokens ++ given base_history) mask_text (str "Chess!").
Proof.
  assert (HD : divided 0 mask_text (map (fun p => (fst p, fst p + units (snd p))) [(2, str "[MASK]")]) [((0, [0xE9; 32]%N), false); ((2, str "[MASK]"), true); ((8, str "Chess!"), false)])
    by (apply (dv_gap 0 [0xE9; 32]%N (str "[MASK]Chess!") 2 8); [discriminate | reflexivity|]; apply (dv_match 2 (str "[MASK]") (str "Chess!")); apply dv_rest; discriminate).
  split; eexists _, _, _; (split; [exact mask_fields|]; split; [exact HD|]); [left; reflexivity | right; right; left; reflexivity].
Qed.
Example C142_case :
  (token_stretch base_vocab (base_tokens ++ given base_history) mask_text [0xE9; 32]%N /\ token_stretch base_vocab (base_tokens ++ given base_history) mask_text (str "Chess!")) /\
  run_norm broken_env (cf_norm base_config) [0xE9; 32]%N = Throw RuntimeError /\
  (exists n, normalized_to surrogate_env (cf_norm base_config) (str "Chess!") n /\ forallb valid_cp n = false) /\
  exists t, construct (fun _ => None) (fun _ => Some (render base_config)) [] (str "{}") = Ok t /\
    snd (encode broken_env 20 (HistSpec.after test_env 10 t base_history) mask_text true) = Throw RuntimeError /\
    snd (encode surrogate_env 20 (HistSpec.after test_env 10 t base_history) mask_text true) = Throw RangeError /\
    snd (encode test_env 20 (HistSpec.after test_env 10 t base_history) (str "[MASK]" ++ [0x1EA5; 0x1EA5; 0x1EA5; 0x1EA5]%N ++ str " a") true) = Undef OobIndex /\
    exists r, snd (encode test_env 20 (HistSpec.after test_env 10 t base_history) (str "[MASK]" ++ [0x1EA5; 0x1EA5; 0x1EA5; 0x1EA5]%N ++ str " a [MASK]") true) = Ok r.
Proof.
  split; [exact mask_stretches|]. split; [vm_compute; reflexivity|]. split; [eexists; split; [eexists; split; [vm_compute; reflexivity | reflexivity] | reflexivity]|].
  eexists. split; [vm_compute; reflexivity|]. split; [vm_compute; reflexivity|]. split; [vm_compute; reflexivity|]. split; [vm_compute; reflexivity|]. eexists. vm_compute. reflexivity.
Qed.
