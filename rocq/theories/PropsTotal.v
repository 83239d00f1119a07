(** C136: every outcome of encode for a configured tokenizer with a BERT normalizer. Specification: TotalSpec.v, WholeSpec.v. *)
From Verif Require Import Base BaseFacts Unicode UnicodeProofs Common Utils PostProcessor Decoder Normalizer PreTokenizer WordPiece Bpe AddedVocab Tokenizer Config ConfigSpec Spec PostSpec
  NormSpec NormProofs DecSpec PreSpec PreProofs AvSpec AvProofs ExtractProofs TzSpec TzProofs WpSpec WpProofs OffSpec OffProofs RefSpec RefProofs TextProofs BpeSpec BpeProofs BpeWord UnkSpec
  BpeRefSpec PropsBpe PropsUnknown PropsReference PropsBpeText Env CutSpec PropsCut DropSpec StripSpec PropsStrip AccentSpec PropsAccent BertSpec PropsBertOffsets PropsLlama PropsByteDec FormSpec PropsForm UncasedSpec PropsNorm PropsDeleted PropsUncased EraseSpec PropsErase WholeSpec PropsWhole
  HistSpec LenSpec FullSpec PropsConfig PropsAdded PropsLifetime PropsText OutSpec HistProofs PropsFinish PropsFull PropsOffsets RelevSpec PropsRelevant PropsBertConfig TotalSpec.
From Coq Require Import ZifyBool ZifyNat ZifyN.
Import ListNotations.

Lemma cut_valid s n : forallb valid_cp s = true -> forallb valid_cp n = true -> forallb valid_cp (text_cut s n) = true.
Proof. intros Hv Hvn. destruct n; [exact Hv | exact Hvn]. Qed.
(** *** Whatever the normalizer leaves of the text *)
Section Total.
Context (E : env) (s n : wstr) (R O0 O : list (nat * nat)) (t : tokenizer).
Hypothesis (Hne : s <> []) (Hv : forallb valid_cp s = true) (HO : renumbered O0 O) (Hav : tz_av t = Some (new_added_vocab [])) (HN : run_norm E (tz_norm t) s = Ok (mkNs n R O0)).
Lemma transform_any : transform_range (numbered_ns (unit_sizes s) [] s) (0, units s) (mkNs n R O0) = Ok (kept_table s R O).
Proof. rewrite <- (valid_unit_sizes s Hv). exact (transform_placed s [] R O0 O Hne Hv HO eq_refl). Qed.
Lemma extract_any : extract_and_normalize E (new_added_vocab []) (tz_norm t) s =
  if forallb valid_cp n then Ok ([], mkPt (kept_table s R O) [mkSplit (utf8_encs (text_cut s n)) (0, units (text_cut s n)) []]) else Throw RangeError.
Proof.
  pose proof transform_any as Hj. unfold extract_and_normalize. rewrite fresh_numbered. unfold new_pretok. cbn [ns_text numbered_ns]. unfold convert_to_string at 1. rewrite Hv. cbn [bind pt_norm pt_splits].
  cbn [ns_text numbered_ns]. unfold convert_to_string at 1. rewrite Hv. cbn [bind].
  assert (HX : forall u, no_added_token (av_trie_raw (new_added_vocab [])) u) by (intros u a b i _ _ []). assert (HY : forall u, no_added_token (av_trie_norm (new_added_vocab [])) u) by (intros u a b i _ _ []).
  rewrite find_none by apply HX. rewrite from_utf8_encs by exact Hv. fold (units s).
  assert (Hu : 0 < units s) by (pose proof (proj1 (units_0 s)); destruct (units s); [exfalso; auto | lia]).
  replace (0 =? units s) with false by lia. cbn [bind raw_splits]. rewrite substr_all by apply length_units. cbn [bind]. unfold convert_to_string at 1. rewrite Hv. cbn [bind normalize_splits sp_tokens sp_text sp_off fst snd].
  rewrite (proj2 (convert_from_string_iff _ s)) by (split; [reflexivity | exact Hv]). cbn [bind]. fold (run_norm E (tz_norm t) s). rewrite HN. cbn [bind].
  replace (0 + units s - 0) with (units s) by lia. rewrite Hj. cbn [bind ns_text set_text kept_table].
  unfold convert_to_string at 1. destruct (forallb valid_cp n) eqn:Hvn; [|reflexivity]. cbn [bind]. rewrite find_none by apply HY. rewrite from_utf8_encs by exact Hvn. fold (units n). destruct n as [|c n'] eqn:En.
  - change (0 =? units []) with true. cbn [bind norm_splits app text_cut]. reflexivity.
  - rewrite <- En in *. assert (Hu' : 0 < units n) by (pose proof (proj1 (units_0 n)); destruct (units n); [exfalso; assert (n = []) by auto; congruence | lia]).
    replace (0 =? units n) with false by lia. cbn [bind norm_splits]. rewrite substr_all by apply length_units. cbn [bind]. unfold convert_to_string at 1. rewrite Hvn. cbn [bind app text_cut].
    replace (text_cut s n) with n by (rewrite En; reflexivity). rewrite !Nat.add_0_r. reflexivity.
Qed.
Lemma prepare_any : prepare E t s = if forallb valid_cp n then (p2 <- match tz_pre t with Some pt => pre_tokenize E pt (mkPt (kept_table s R O) [mkSplit (utf8_encs (text_cut s n)) (0, units (text_cut s n)) []]) | None => Ok (mkPt (kept_table s R O) [mkSplit (utf8_encs (text_cut s n)) (0, units (text_cut s n)) []]) end ;; Ok (Some (new_added_vocab []), p2)) else Throw RangeError.
Proof.
  unfold prepare. unfold new_pretok at 1. assert (Ht : ns_text (new_nstring s) = s) by (apply (fresh_packed s)). rewrite Ht. unfold convert_to_string. rewrite Hv. cbn [bind]. rewrite Hav, extract_any. destruct (forallb valid_cp n); reflexivity.
Qed.
Lemma encode_invalid fuel add : forallb valid_cp n = false -> snd (encode E fuel t s add) = Throw RangeError.
Proof. intros Hvn. rewrite encode_stages, encode_bare. unfold text_encoding. rewrite prepare_any, Hvn. reflexivity. Qed.
Hypothesis Hvn : forallb valid_cp n = true.
Lemma prepared_any l : words_of E (tz_pre t) (text_cut s n) l ->
  all_valid l /\ exists av q, prepare E t s = Ok (av, mkPt (kept_table s R O) (map (fun p => mkSplit (utf8_encs (fst p)) (snd p) []) q)) /\ map (fun p : wstr * (nat * nat) => (fst (snd p), fst p)) q = l.
Proof.
  intros HW. pose proof prepare_any as Hprep. rewrite Hvn in Hprep. unfold words_of in HW. set (m := text_cut s n) in *. assert (V0 : all_valid [(0, m)]) by (constructor; [exact (cut_valid s n Hv Hvn) | constructor]).
  assert (H0 : Forall2 holds [(0, m)] [mkSplit (utf8_encs m) (0, units m) []]) by (constructor; [repeat split | constructor]).
  destruct (tz_pre t) as [pt|].
  - destruct (pre_cuts E pt _ _ (kept_table s R O) _ HW V0 H0) as (A & ss & B & C). rewrite B in Hprep. cbn [bind] in Hprep. destruct (holds_shape _ _ C) as (q & -> & Q). split; [exact A|]. eauto.
  - subst l. split; [exact V0|]. cbn [bind] in Hprep. eexists _, [(m, (0, units m))]. split; [exact Hprep | reflexivity].
Qed.
Lemma wp_any fuel w l add : tz_model t = Some (MWordPiece w) -> words_of E (tz_pre t) (text_cut s n) l ->
  let pl := UncasedSpec.place (map snd R) (map fst (O ++ again s)) in
  (forall ks, Forall2 (fun p k => pl (fst p) = Some k) l ks ->
     exists e, snd (encode E fuel (bare t) s add) = Ok e /\ en_overflowing e = [] /\ flat_parallel e /\ rows_of_words (word_tokens w) 0 (combine ks (map snd l)) (rows e)) /\
  (Exists (fun p => pl (fst p) = None) l -> snd (encode E fuel t s add) = Undef OobIndex).
Proof.
  intros Hm HW pl. destruct (prepared_any l HW) as (A & av & q & Q1 & <-).
  assert (HT : text_encoding E t s = (p <- wp_tokenize w (mkPt (kept_table s R O) (map (fun p => mkSplit (utf8_encs (fst p)) (snd p) []) q)) ;; into_encoding p 0)) by (unfold text_encoding; rewrite Q1; cbn [bind]; rewrite Hm; reflexivity).
  destruct (wp_tokenize_ok w (mkPt (kept_table s R O) (map (fun p => mkSplit (utf8_encs (fst p)) (snd p) []) q))) as (out & Hl & HOut). rewrite Hl in HT. cbn [bind] in HT. unfold into_encoding in HT. cbn [pt_norm pt_splits] in HT, HOut. split.
  - intros ks HK. rewrite encode_bare, HT. destruct (PropsAccent.wp_rows_at w (kept_table s R O) (fun j => at_or0 (pl j)) q out 0 A HOut) as (e & E1 & E2).
    { intros x o ts Hin. rewrite base_placed. fold pl. apply landed_each in HK. rewrite Forall_map in HK. destruct (proj1 (Forall_forall _ _) HK (x, o) Hin) as (k & Hk). cbn [fst snd] in Hk. rewrite Hk. reflexivity. }
    exists e. split; [exact E1|]. destruct (into_rows_flat _ _ _ _ _ E1) as [F1 F2]. split; [exact F2|]. split; [exact F1|]. rewrite <- (landed_map pl _ ks HK), map_map. exact E2.
  - intros HX. rewrite encode_stages, encode_bare, HT, (rows_nowhere _ pl (base_placed s R O)); [reflexivity|]. clear - HOut HX. rewrite Exists_map in HX. revert out HOut. induction q as [|[x o] q IH]; intros out HOut; cbn [map] in *; inversion HOut as [|? s' ? out' (A1 & A2 & A3) HO']; subst; inversion HX as [? ? H|? ? H]; subst.
    + left. rewrite A2. exact H.
    + right. apply IH; assumption.
Qed.
Lemma bpe_any fuel vocab merges d unk pre suf fu bf ig b c l add : pq_ok E -> new_bpe vocab merges d unk pre suf fu bf ig = Ok b -> tz_model t = Some (MBpe b c) -> reach_cache E b c ->
  words_of E (tz_pre t) (text_cut s n) l ->
  let pl := UncasedSpec.place (map snd R) (map fst (O ++ again s)) in
  (forall ks, Forall2 (fun p k => pl (fst p) = Some k) l ks -> Forall (fun p => encodable b (snd p)) l ->
     exists e, snd (encode E fuel (bare t) s add) = Ok e /\ en_overflowing e = [] /\ flat_parallel e /\ rows_of_words (bpe_tokens b) 0 (combine ks (map snd l)) (rows e)) /\
  (Exists (fun p => pl (fst p) = None \/ ~ encodable b (snd p)) l -> snd (encode E fuel t s add) = Undef OobIndex).
Proof.
  intros Hq Hb Hm Hr HW pl. destruct (prepared_any l HW) as (A & av & q & Q1 & <-).
  assert (Hmt : forall p, snd (model_tokenize E (MBpe b c) p) = snd (bpe_tokenize E b c p)) by (intros p; cbn [model_tokenize]; destruct (bpe_tokenize E b c p); reflexivity).
  assert (HT : text_encoding E t s = (out <- plain_words E b (map (fun p => mkSplit (utf8_encs (fst p)) (snd p) []) q) ;; into_encoding (mkPt (kept_table s R O) out) 0)).
  { unfold text_encoding. rewrite Q1. cbn [bind]. rewrite Hm, Hmt, (proj1 (bpe_tokenize_transparent E b c _ (reach_cache_ok E b c Hr))). cbn [pt_splits pt_norm]. destruct (plain_words E b _) as [o| | |]; reflexivity. }
  split.
  - intros ks HK HE. destruct (bpe_prepared E b vocab merges d unk pre suf fu bf ig Hq Hb fuel t c s av _ q (fun j => at_or0 (pl j)) add Hm Hr Q1) as [[H1 H2]|[H1 H2]].
    + apply Forall_forall. intros [x o] Hin tx ts. cbn [fst snd]. rewrite base_placed. fold pl. apply landed_each in HK. rewrite Forall_map in HK. destruct (proj1 (Forall_forall _ _) HK (x, o) Hin) as (k & Hk). cbn [fst snd] in Hk. rewrite Hk. reflexivity.
    + destruct H2 as (e & X1 & X2 & X3 & X4). exists e. split; [exact X1|]. split; [exact X2|]. split; [exact X3|]. rewrite <- (landed_map pl _ ks HK), map_map. cbn [fst snd]. eapply words_weaken; [|exact X4]. cbn beta. intros ? ? _ [_ H]. exact H.
    + exfalso. apply H1. rewrite Forall_map in HE. exact HE.
  - intros HX. rewrite encode_stages, encode_bare, HT. destruct (words_cases E b vocab merges d unk pre suf fu bf ig Hq Hb q) as [(Hl & out & O1 & O2)|(Hl & O1)]; rewrite O1; cbn [bind]; [|reflexivity].
    unfold into_encoding. cbn [pt_norm pt_splits]. rewrite (rows_nowhere _ pl (base_placed s R O)); [reflexivity|]. rewrite Exists_map in HX. clear - HX Hl O2. induction O2 as [|p s' q out' [A1 A2] _ IH]; [inversion HX|]. pose proof (Forall_inv Hl) as Hp. pose proof (Forall_inv_tail Hl) as Ht.
    inversion HX as [? ? H|? ? H]; subst; [left; rewrite A1; destruct H as [H|H]; [exact H | contradiction] | right; apply IH; assumption].
Qed.
End Total.

(** *** The outcomes *)
Definition at_known (l : list (nat * wstr)) : list (option nat * wstr) := map (fun p => (Some (fst p), snd p)) l.
Lemma places_cases (f : nat -> option nat) : forall ws : list (nat * wstr), (exists ks, Forall2 (fun p k => f (fst p) = Some k) ws ks /\ map (fun p => (f (fst p), snd p)) ws = at_known (combine ks (map snd ws))) \/ Exists (fun p => f (fst p) = None) ws.
Proof.
  induction ws as [|[a x] ws IH]; [left; exists []; split; [constructor | reflexivity]|]. destruct (f a) as [k|] eqn:Ef; [|right; left; exact Ef].
  destruct IH as [(ks & H1 & H2)|H]; [left | right; right; exact H]. exists (k :: ks). split; [constructor; [exact Ef | exact H1]|]. cbn [map fst snd combine at_known]. rewrite Ef. f_equal. exact H2.
Qed.
Lemma valid_dec n : forallb valid_cp n = true \/ forallb valid_cp n = false.
Proof. destruct (forallb valid_cp n); auto. Qed.
Lemma none_added u : no_added_token (av_trie_raw (new_added_vocab [])) u.
Proof. intros a b i _ _ []. Qed.
Lemma wp_outcomes E t w cl ch st lo s add : tz_av t = Some (new_added_vocab []) -> tz_norm t = Some (NBert cl ch st lo) -> tz_model t = Some (MWordPiece w) -> s <> [] -> forallb valid_cp s = true -> (forall p, tz_pre t = Some p -> cuttable E p) ->
  (exists l core, bert_words E cl ch st lo (tz_pre t) s (at_known l) /\ snd (encode E 0 (bare t) s add) = Ok core /\ flat_parallel core /\ rows_of_words (word_tokens w) 0 l (rows core)) \/
  ((bert_breaks E cl ch st lo s \/ exists l, bert_words E cl ch st lo (tz_pre t) s l /\ Exists (fun p => fst p = None) l) /\ forall fuel, snd (encode E fuel t s add) = Undef OobIndex) \/
  (bert_unavailable E cl ch st lo s /\ forall fuel, snd (encode E fuel t s add) = Throw RuntimeError) \/
  (bert_invalid E cl ch st lo s /\ forall fuel, snd (encode E fuel t s add) = Throw RangeError).
Proof.
  intros Hav Hno Hm Hne Hv Hpre. destruct (C135_all_cases E cl ch st lo s) as [(n & e & bytes & HB)|[HB|(z & b & H1 & H2 & H3)]].
  - destruct (whole_run E cl ch st lo s n e bytes Hne Hv HB) as (R & O0 & O & H1 & H2 & H3 & H4). assert (HN : run_norm E (tz_norm t) s = Ok (mkNs n R O0)) by (rewrite Hno; exact H1).
    destruct (valid_dec n) as [Hvn|Hvn]; [|right; right; right; split; [exists n, e, bytes; auto | intros fuel; exact (encode_invalid E s n R O0 O t Hne Hv H3 Hav HN fuel add Hvn)]].
    destruct (C95_words E (tz_pre t) (text_cut s n) Hpre (cut_valid s n Hv Hvn)) as (ws & HW & _). pose proof (fun fuel => wp_any E s n R O0 O t Hne Hv H3 Hav HN Hvn fuel w ws add Hm HW) as HA. cbn zeta in HA. rewrite H2, H4 in HA.
    destruct (places_cases (UncasedSpec.place e bytes) ws) as [(ks & K1 & K2)|HX].
    + left. destruct (HA 0) as [HA0 _]. destruct (HA0 ks K1) as (core & C1 & C2 & C3 & C4). exists (combine ks (map snd ws)), core. split; [exists n, e, bytes, ws; auto|]. auto.
    + right. left. split; [right; exists (map (fun p => (UncasedSpec.place e bytes (fst p), snd p)) ws); split; [exists n, e, bytes, ws; auto | rewrite Exists_map; exact HX]|]. intros fuel. exact (proj2 (HA fuel) HX).
  - right. left. split; [left; exact HB|]. intros fuel. exact (C135_breaks E fuel t _ cl ch st lo s add Hno Hav Hne Hv (none_added _) HB).
  - right. right. left. split; [exists z, b; auto|]. intros fuel. exact (C135_unavailable E fuel t _ cl ch st lo s z b add Hno Hav Hne Hv (none_added _) H1 H2 H3).
Qed.
Lemma bpe_outcomes E t vocab merges d unk pre suf fu bf ig b c cl ch st lo s add : pq_ok E -> new_bpe vocab merges d unk pre suf fu bf ig = Ok b -> tz_av t = Some (new_added_vocab []) -> tz_norm t = Some (NBert cl ch st lo) -> tz_model t = Some (MBpe b c) -> reach_cache E b c ->
  s <> [] -> forallb valid_cp s = true -> (forall p, tz_pre t = Some p -> cuttable E p) ->
  (exists l core, bert_words E cl ch st lo (tz_pre t) s (at_known l) /\ snd (encode E 0 (bare t) s add) = Ok core /\ flat_parallel core /\ rows_of_words (bpe_tokens b) 0 l (rows core)) \/
  ((bert_breaks E cl ch st lo s \/ exists l, bert_words E cl ch st lo (tz_pre t) s l /\ Exists (fun p => fst p = None \/ ~ encodable b (snd p)) l) /\ forall fuel, snd (encode E fuel t s add) = Undef OobIndex) \/
  (bert_unavailable E cl ch st lo s /\ forall fuel, snd (encode E fuel t s add) = Throw RuntimeError) \/
  (bert_invalid E cl ch st lo s /\ forall fuel, snd (encode E fuel t s add) = Throw RangeError).
Proof.
  intros Hq Hb Hav Hno Hm Hr Hne Hv Hpre. destruct (C135_all_cases E cl ch st lo s) as [(n & e & bytes & HB)|[HB|(z & b' & H1 & H2 & H3)]].
  - destruct (whole_run E cl ch st lo s n e bytes Hne Hv HB) as (R & O0 & O & H1 & H2 & H3 & H4). assert (HN : run_norm E (tz_norm t) s = Ok (mkNs n R O0)) by (rewrite Hno; exact H1).
    destruct (valid_dec n) as [Hvn|Hvn]; [|right; right; right; split; [exists n, e, bytes; auto | intros fuel; exact (encode_invalid E s n R O0 O t Hne Hv H3 Hav HN fuel add Hvn)]].
    destruct (C95_words E (tz_pre t) (text_cut s n) Hpre (cut_valid s n Hv Hvn)) as (ws & HW & _). pose proof (fun fuel => bpe_any E s n R O0 O t Hne Hv H3 Hav HN Hvn fuel vocab merges d unk pre suf fu bf ig b c ws add Hq Hb Hm Hr HW) as HA. cbn zeta in HA. rewrite H2, H4 in HA.
    assert (HD : Forall (fun p => encodable b (snd p)) ws \/ Exists (fun p => ~ encodable b (snd p)) ws).
    { clear. induction ws as [|p ws IH]; [left; constructor|]. destruct (encodable_dec b (snd p)) as [Hp|Hp]; [|right; left; exact Hp]. destruct IH as [IH|IH]; [left; constructor; assumption | right; right; exact IH]. }
    assert (HBad : Exists (fun p => UncasedSpec.place e bytes (fst p) = None \/ ~ encodable b (snd p)) ws -> (exists l, bert_words E cl ch st lo (tz_pre t) s l /\ Exists (fun p => fst p = None \/ ~ encodable b (snd p)) l) /\ forall fuel, snd (encode E fuel t s add) = Undef OobIndex).
    { intros HX. split; [exists (map (fun p => (UncasedSpec.place e bytes (fst p), snd p)) ws); split; [exists n, e, bytes, ws; auto | rewrite Exists_map; exact HX]|]. intros fuel. exact (proj2 (HA fuel) HX). }
    destruct (places_cases (UncasedSpec.place e bytes) ws) as [(ks & K1 & K2)|HX]; [destruct HD as [HD|HD]|].
    + left. destruct (HA 0) as [HA0 _]. destruct (HA0 ks K1 HD) as (core & C1 & C2 & C3 & C4). exists (combine ks (map snd ws)), core. split; [exists n, e, bytes, ws; auto|]. auto.
    + right. left. destruct HBad as [B1 B2]; [|split; [right; exact B1 | exact B2]]. revert HD. apply Exists_impl. auto.
    + right. left. destruct HBad as [B1 B2]; [|split; [right; exact B1 | exact B2]]. revert HX. apply Exists_impl. auto.
  - right. left. split; [left; exact HB|]. intros fuel. exact (C135_breaks E fuel t _ cl ch st lo s add Hno Hav Hne Hv (none_added _) HB).
  - right. right. left. split; [exists z, b'; auto|]. intros fuel. exact (C135_unavailable E fuel t _ cl ch st lo s z b' add Hno Hav Hne Hv (none_added _) H1 H2 H3).
Qed.

(** *** The configuration and the history *)
Lemma bound_total E u t0 c s add core : build c = Ok t0 -> config_ok c -> same_setup t0 u -> sane t0 -> (forall p, cf_post c = Some p -> specials_ok p) -> snd (encode E 0 (bare u) s add) = Ok core -> flat_parallel core ->
  (Z.of_nat (length (rows core)) < 2 ^ 31)%Z -> (forall k, k <= length (rows core) -> (Z.of_nat (tz_post_length t0 add k) < 2 ^ 31)%Z) ->
  exists r, (forall fuel, length (rows core) + 2 <= fuel -> snd (encode E fuel u s add) = Ok r) /\ parallel r /\ finished t0 add (rows core) (rows r).
Proof.
  intros Hb Hok (S1 & S2 & S3 & S4 & S5 & S6) Hsane Hsp H1 H3. rewrite rows_length by exact H3. intros Hl Hk. destruct Hok as (Kt & Kp & _).
  assert (T : tz_trunc t0 = cf_trunc c /\ tz_pad t0 = cf_pad c /\ tz_post t0 = cf_post c) by (unfold build in Hb; apply bind_ok in Hb as (m & _ & Hb); injection Hb as <-; auto). destruct T as (T1 & T2 & T3).
  destruct (sane_finishes E u s add core H1) as (r & R1 & R2 & R3).
  - split; intros x Hx; [rewrite S1, T1 in Hx; rewrite Hx in Kt; exact (int32_same _ (proj1 Kt)) | rewrite S2, T2 in Hx; rewrite Hx in Kp; destruct Kp as (_ & _ & K3 & K4 & _); split; apply int32_same; assumption].
  - intros tr Hx. rewrite S1, T1 in Hx. rewrite Hx in Kt. exact (int32_same _ (proj2 Kt)).
  - destruct Hsane as [Q1 Q2]. split; [intros tr Hx; apply Q1; congruence | intros p Hx; apply Q2; congruence].
  - intros p Hx. apply Hsp. rewrite S6, T3 in Hx. exact Hx.
  - exact Hl.
  - intros k Hk'. specialize (Hk k Hk'). unfold tz_post_length in *. rewrite S6. exact Hk.
  - exists r. split; [exact R1|]. split; [exact R2|]. unfold finished in *. rewrite S1, S2, S6 in R3. exact R3.
Qed.
(** Constructing a tokenizer from a configuration with a BERT normalizer, WordPiece and special added tokens succeeds, and at any later time encode of a text in which none of the added tokens stands has one of four outcomes, and these are the conditions. *)
Theorem C136_wordpiece : forall load parse path cfg text c t0 w toks cl ch st lo E fuel0,
  source load path cfg (Some text) -> parse text = Some (render c) -> config_ok c -> build c = Ok t0 ->
  cf_model c = Some (CWordPiece w) -> dense (wp_vocab w) -> wp_vocab w <> [] -> cf_norm c = Some (NBert cl ch st lo) -> (forall p, cf_pre c = Some p -> cuttable E p) ->
  cf_added c = Some toks -> Forall (fun x => at_special x = true) toks -> sane t0 -> (forall p, cf_post c = Some p -> specials_ok p) ->
  exists t, construct load parse path cfg = Ok t /\
  forall h s add, s <> [] -> forallb valid_cp s = true -> Forall (fun tok => absent E (cf_norm c) s (at_content tok)) (toks ++ given h) ->
  let outcome fuel := snd (encode E fuel (HistSpec.after E fuel0 t h) s add) in
  (exists l rs, bert_words E cl ch st lo (cf_pre c) s (at_known l) /\ rows_of_words (word_tokens w) 0 l rs /\
     ((Z.of_nat (length rs) < 2 ^ 31)%Z -> (forall k, k <= length rs -> (Z.of_nat (tz_post_length t0 add k) < 2 ^ 31)%Z) ->
      exists r, (forall fuel, length rs + 2 <= fuel -> outcome fuel = Ok r) /\ parallel r /\ finished t0 add rs (rows r))) \/
  ((bert_breaks E cl ch st lo s \/ exists l, bert_words E cl ch st lo (cf_pre c) s l /\ Exists (fun p => fst p = None) l) /\ forall fuel, outcome fuel = Undef OobIndex) \/
  (bert_unavailable E cl ch st lo s /\ forall fuel, outcome fuel = Throw RuntimeError) \/
  (bert_invalid E cl ch st lo s /\ forall fuel, outcome fuel = Throw RangeError).
Proof.
  intros load parse path cfg text c t0 w toks cl ch st lo E fuel0 Hs Hp Hok Hb Hm Hd Hne Hn Hpre Ha Hspec Hsane Hsp.
  assert (Ht0 : t0 = mkTz (cf_trunc c) (cf_pad c) (Some (new_added_vocab toks)) (Some (NBert cl ch st lo)) (cf_pre c) (Some (MWordPiece w)) (cf_dec c) (cf_post c)).
  { unfold build in Hb. rewrite Hm, Ha, Hn in Hb. cbn [build_model bind option_map] in Hb. injection Hb as <-. reflexivity. }
  assert (Ha0 : tz_av t0 = Some (new_added_vocab toks)) by (rewrite Ht0; reflexivity). assert (Hm0 : tz_model t0 = Some (MWordPiece w)) by (rewrite Ht0; reflexivity).
  destruct (proj1 (C45_construction t0 toks (MWordPiece w) Ha0 Hm0 Hd Hne)) as (t & Hc).
  { apply Forall_forall. intros x Hx. right. exists x. split; [exact Hx|]. split; [exact (proj1 (Forall_forall _ _) Hspec x Hx) | reflexivity]. }
  exists t. split; [rewrite (C79_construct load parse path cfg text c t0 Hs Hp Hok Hb); exact Hc|].
  intros h s add Hs0 Hv Habs outcome.
  destruct (C38_lifetime E fuel0 t0 (MWordPiece w) toks t Hd Hne Ha0 Hm0 ltac:(discriminate) Hc h) as ((av & A1 & A2) & (m & M1 & M2) & S). cbn [same_model model_vocab] in *.
  destruct m as [w'|b' c']; [|contradiction]. subst w'. unfold outcome. remember (HistSpec.after E fuel0 t h) as u eqn:Hu. clear outcome.
  assert (SN : tz_norm u = cf_norm c) by (destruct S as (_ & _ & S3 & _); rewrite S3, Ht0, Hn; reflexivity). assert (SP : tz_pre u = cf_pre c) by (destruct S as (_ & _ & _ & S4 & _); rewrite S4, Ht0; reflexivity).
  rewrite <- SN in Habs. pose proof (fun fuel => C123_no_added_tokens E fuel u (MWordPiece w) (toks ++ given h) av s A1 M1 Hd Hne A2 Habs add) as HE. set (v := set_av u (Some (new_added_vocab []))) in *.
  assert (Sv : same_setup t0 v) by exact S. rewrite <- SP.
  destruct (wp_outcomes E v w cl ch st lo s add eq_refl ltac:(cbn [v set_av tz_norm]; congruence) M1 Hs0 Hv) as [(l & core & L1 & L2 & L3 & L4)|[[L1 L2]|[[L1 L2]|[L1 L2]]]].
  - cbn [v set_av tz_pre]. rewrite SP. exact Hpre.
  - left. exists l, (rows core). split; [exact L1|]. split; [exact L4|]. intros B1 B2. destruct (bound_total E v t0 c s add core Hb Hok Sv Hsane Hsp L2 L3 B1 B2) as (r & R1 & R2). exists r. split; [intros fuel Hf; rewrite HE; exact (R1 fuel Hf) | exact R2].
  - right. left. split; [exact L1|]. intros fuel. rewrite HE. apply L2.
  - right. right. left. split; [exact L1|]. intros fuel. rewrite HE. apply L2.
  - right. right. right. split; [exact L1|]. intros fuel. rewrite HE. apply L2.
Qed.
Print Assumptions C136_wordpiece.
Theorem C136_bpe : forall load parse path cfg text c t0 vocab merges d unk pre suf fu bf ig b toks cl ch st lo E fuel0,
  source load path cfg (Some text) -> parse text = Some (render c) -> config_ok c -> build c = Ok t0 -> pq_ok E ->
  cf_model c = Some (CBpe vocab merges d unk pre suf fu bf ig) -> new_bpe vocab merges d unk pre suf fu bf ig = Ok b -> dense vocab -> vocab <> [] -> cf_norm c = Some (NBert cl ch st lo) -> (forall p, cf_pre c = Some p -> cuttable E p) ->
  cf_added c = Some toks -> Forall (fun x => at_special x = true) toks -> sane t0 -> (forall p, cf_post c = Some p -> specials_ok p) ->
  exists t, construct load parse path cfg = Ok t /\
  forall h s add, s <> [] -> forallb valid_cp s = true -> Forall (fun tok => absent E (cf_norm c) s (at_content tok)) (toks ++ given h) ->
  let outcome fuel := snd (encode E fuel (HistSpec.after E fuel0 t h) s add) in
  (exists l rs, bert_words E cl ch st lo (cf_pre c) s (at_known l) /\ rows_of_words (bpe_tokens b) 0 l rs /\
     ((Z.of_nat (length rs) < 2 ^ 31)%Z -> (forall k, k <= length rs -> (Z.of_nat (tz_post_length t0 add k) < 2 ^ 31)%Z) ->
      exists r, (forall fuel, length rs + 2 <= fuel -> outcome fuel = Ok r) /\ parallel r /\ finished t0 add rs (rows r))) \/
  ((bert_breaks E cl ch st lo s \/ exists l, bert_words E cl ch st lo (cf_pre c) s l /\ Exists (fun p => fst p = None \/ ~ encodable b (snd p)) l) /\ forall fuel, outcome fuel = Undef OobIndex) \/
  (bert_unavailable E cl ch st lo s /\ forall fuel, outcome fuel = Throw RuntimeError) \/
  (bert_invalid E cl ch st lo s /\ forall fuel, outcome fuel = Throw RangeError).
Proof.
  intros load parse path cfg text c t0 vocab merges d unk pre suf fu bf ig b toks cl ch st lo E fuel0 Hs Hp Hok Hb Hq Hm Hbp Hd Hne Hn Hpre Ha Hspec Hsane Hsp.
  assert (Ht0 : t0 = mkTz (cf_trunc c) (cf_pad c) (Some (new_added_vocab toks)) (Some (NBert cl ch st lo)) (cf_pre c) (Some (MBpe b [])) (cf_dec c) (cf_post c)).
  { unfold build in Hb. rewrite Hm, Ha, Hn in Hb. cbn [build_model bind option_map] in Hb. rewrite Hbp in Hb. cbn [bind] in Hb. injection Hb as <-. reflexivity. }
  assert (Hvo : model_vocab (MBpe b []) = vocab) by (apply new_bpe_vocab in Hbp as (_ & Ev & _); exact Ev).
  assert (Ha0 : tz_av t0 = Some (new_added_vocab toks)) by (rewrite Ht0; reflexivity). assert (Hm0 : tz_model t0 = Some (MBpe b [])) by (rewrite Ht0; reflexivity). rewrite <- Hvo in Hd, Hne.
  destruct (proj1 (C45_construction t0 toks (MBpe b []) Ha0 Hm0 Hd Hne)) as (t & Hc).
  { apply Forall_forall. intros x Hx. right. exists x. split; [exact Hx|]. split; [exact (proj1 (Forall_forall _ _) Hspec x Hx) | reflexivity]. }
  exists t. split; [rewrite (C79_construct load parse path cfg text c t0 Hs Hp Hok Hb); exact Hc|].
  intros h s add Hs0 Hv Habs outcome.
  destruct (C38_lifetime E fuel0 t0 (MBpe b []) toks t Hd Hne Ha0 Hm0 ltac:(congruence) Hc h) as ((av & A1 & A2) & (m & M1 & M2) & S).
  pose proof (same_model_vocab _ _ _ M2) as MV. destruct m as [w'|b' c']; [contradiction|]. cbn [same_model] in M2. destruct M2 as [<- M2]. unfold outcome. remember (HistSpec.after E fuel0 t h) as u eqn:Hu. clear outcome.
  assert (SN : tz_norm u = cf_norm c) by (destruct S as (_ & _ & S3 & _); rewrite S3, Ht0, Hn; reflexivity). assert (SP : tz_pre u = cf_pre c) by (destruct S as (_ & _ & _ & S4 & _); rewrite S4, Ht0; reflexivity).
  rewrite <- SN in Habs. pose proof (fun fuel => C123_no_added_tokens E fuel u (MBpe b c') (toks ++ given h) av s A1 M1 Hd Hne A2 Habs add) as HE. set (v := set_av u (Some (new_added_vocab []))) in *.
  assert (Sv : same_setup t0 v) by exact S. rewrite <- SP.
  destruct (bpe_outcomes E v vocab merges d unk pre suf fu bf ig b c' cl ch st lo s add Hq Hbp eq_refl ltac:(cbn [v set_av tz_norm]; congruence) M1 M2 Hs0 Hv) as [(l & core & L1 & L2 & L3 & L4)|[[L1 L2]|[[L1 L2]|[L1 L2]]]].
  - cbn [v set_av tz_pre]. rewrite SP. exact Hpre.
  - left. exists l, (rows core). split; [exact L1|]. split; [exact L4|]. intros B1 B2. destruct (bound_total E v t0 c s add core Hb Hok Sv Hsane Hsp L2 L3 B1 B2) as (r & R1 & R2). exists r. split; [intros fuel Hf; rewrite HE; exact (R1 fuel Hf) | exact R2].
  - right. left. split; [exact L1|]. intros fuel. rewrite HE. apply L2.
  - right. right. left. split; [exact L1|]. intros fuel. rewrite HE. apply L2.
  - right. right. right. split; [exact L1|]. intros fuel. rewrite HE. apply L2.
Qed.
Print Assumptions C136_bpe.

(** The conditions exclude each other, and the words are determined. *)
Lemma bert_made_one E cl ch st lo s n e bytes n' e' bytes' : bert_made E cl ch st lo s n e bytes -> bert_made E cl ch st lo s n' e' bytes' -> n = n' /\ e = e' /\ bytes = bytes'.
Proof.
  intros (z & b & HT & -> & HR) (z' & b' & HT' & -> & HR'). destruct HT as [_ HT], HT' as [_ HT']. rewrite HT in HT'. injection HT' as <- <-. destruct (st || lo).
  - destruct HR as (r & H1 & H2 & -> & ->), HR' as (r' & H1' & H2' & -> & ->). rewrite H1 in H1'. injection H1' as <-. auto.
  - destruct HR as [-> ->], HR' as [-> ->]. auto.
Qed.
Lemma made_not_breaks E cl ch st lo s n e bytes : bert_made E cl ch st lo s n e bytes -> ~ bert_breaks E cl ch st lo s /\ ~ bert_unavailable E cl ch st lo s.
Proof.
  intros (z & b & HT & -> & HR). split.
  - intros [HB|(z' & b' & r & HT' & Hsl & HN & Hf)]; [exact (HB z b HT)|]. destruct HT as [_ HT], HT' as [_ HT']. rewrite HT in HT'. injection HT' as <- <-. rewrite Hsl in HR. destruct HR as (r' & H1 & H2 & _). rewrite HN in H1. injection H1 as <-. contradiction.
  - intros (z' & b' & HT' & Hsl & HN). rewrite Hsl in HR. destruct HR as (r' & H1 & _). congruence.
Qed.
Theorem C136_exclusive : forall E cl ch st lo pre s, (forall p, pre = Some p -> cuttable E p) -> forallb valid_cp s = true ->
  (forall l l', bert_words E cl ch st lo pre s l -> bert_words E cl ch st lo pre s l' -> l = l') /\
  (forall l, bert_words E cl ch st lo pre s l -> ~ bert_breaks E cl ch st lo s /\ ~ bert_unavailable E cl ch st lo s /\ ~ bert_invalid E cl ch st lo s) /\
  (bert_invalid E cl ch st lo s -> ~ bert_breaks E cl ch st lo s /\ ~ bert_unavailable E cl ch st lo s) /\
  (bert_breaks E cl ch st lo s -> ~ bert_unavailable E cl ch st lo s).
Proof.
  intros E cl ch st lo pre s Hpre Hv. split; [|split; [|split]].
  - intros l l' (n & e & b & ws & H1 & H2 & H3 & ->) (n' & e' & b' & ws' & H1' & H2' & H3' & ->). destruct (bert_made_one _ _ _ _ _ _ _ _ _ _ _ _ H1 H1') as (<- & <- & <-).
    destruct (C95_words E pre (text_cut s n) Hpre (cut_valid s n Hv H2)) as (ws0 & _ & HU). rewrite (HU _ H3), (HU _ H3'). reflexivity.
  - intros l (n & e & b & ws & H1 & H2 & H3 & ->). destruct (made_not_breaks _ _ _ _ _ _ _ _ _ H1) as [B1 B2]. split; [exact B1|]. split; [exact B2|]. intros (n' & e' & b' & H1' & H2'). destruct (bert_made_one _ _ _ _ _ _ _ _ _ _ _ _ H1 H1') as (<- & _). congruence.
  - intros (n & e & b & H1 & _). exact (made_not_breaks _ _ _ _ _ _ _ _ _ H1).
  - intros HB (z & b & HT & Hsl & HN). destruct HB as [HB|(z' & b' & r & HT' & _ & HN' & _)]; [exact (HB z b HT) | congruence].
Qed.
Print Assumptions C136_exclusive.

(** *** Cases *)
Fixpoint heads {A} (l : list A) : list (list A) := [] :: match l with [] => [] | x :: r => map (cons x) (heads r) end.
Fixpoint stretches {A} (l : list A) : list (list A) := heads l ++ match l with [] => [] | _ :: r => stretches r end.
Lemma heads_in {A} : forall (x q : list A), In x (heads (x ++ q)).
Proof. induction x as [|a x IH]; intros q; [destruct q; left; reflexivity|]. cbn [app heads]. right. apply in_map. apply IH. Qed.
Lemma stretches_in {A} : forall (p x q : list A), In x (stretches (p ++ x ++ q)).
Proof. induction p as [|a p IH]; intros x q; [destruct x as [|c x]; cbn [app]; [destruct q; left; reflexivity|]; cbn [stretches]; apply in_or_app; left; apply (heads_in (c :: x)) | cbn [app stretches]; apply in_or_app; right; apply IH]. Qed.
Definition occursb (content : bytes) (w : wstr) : bool := existsb (fun x => leqb content (utf8_encs x)) (stretches w).
Lemma occursb_ok content w : occursb content w = false -> ~ occurs content w.
Proof.
  intros H (x & (p & q & ->) & ->). unfold occursb in H. assert (HT : existsb (fun y => leqb (utf8_encs x) (utf8_encs y)) (stretches (p ++ x ++ q)) = true); [|congruence].
  apply existsb_exists. exists x. split; [apply stretches_in | apply leqb_refl].
Qed.
Definition absentb (E : env) (norm : option normalizer) (s : wstr) (content : bytes) : bool :=
  negb (occursb content s) && forallb (fun x => match run_norm E norm x with Ok y => negb (occursb content (ns_text y)) | _ => true end) (stretches s) && negb (existsb (leqb [0xEF; 0xBF; 0xBD]%N) (stretches content)).
Lemma absentb_ok E norm s content : absentb E norm s content = true -> absent E norm s content.
Proof.
  unfold absentb. intros H. apply andb_prop in H as [H H3]. apply andb_prop in H as [H1 H2]. split; [|split].
  - apply occursb_ok. destruct (occursb content s); [discriminate | reflexivity].
  - intros x y (p & q & ->) Hy. rewrite forallb_forall in H2. specialize (H2 x (stretches_in p x q)). rewrite Hy in H2. apply occursb_ok. destruct (occursb content (ns_text y)); [discriminate | reflexivity].
  - intros (p & q & ->). assert (HT : existsb (leqb [0xEF; 0xBF; 0xBD]%N) (stretches (p ++ [0xEF; 0xBF; 0xBD]%N ++ q)) = true); [|rewrite HT in H3; discriminate]. apply existsb_exists. exists [0xEF; 0xBF; 0xBD]%N. split; [apply stretches_in | reflexivity].
Qed.
(** The small bert-base-uncased of C112 after its history, on e-acute, a Chinese character and " Play": "Play" is reported at units 2 to 6 (it stands at 3 to 7). *)
Definition total_text : wstr := [0xE9; 0x4E2D; 32]%N ++ str "Play".
Example C136_case : Forall (fun tok => absent test_env (cf_norm base_config) total_text (at_content tok)) (base_tokens ++ given base_history) /\
  bert_words test_env true true true true (Some TBert) total_text (at_known [(0, str "e"); (1, [0x4E2D]%N); (2, str "play")]) /\
  exists t, construct (fun _ => None) (fun _ => Some (render base_config)) [] (str "{}") = Ok t /\
  exists r, snd (encode test_env 20 (HistSpec.after test_env 10 t base_history) total_text true) = Ok r /\ en_tokens r = map str ["[CLS]"; "[UNK]"; "[UNK]"; "play"; "[SEP]"; "[PAD]"; "[PAD]"; "[PAD]"] /\ firstn 5 (en_offsets r) = [(0, 0); (0, 1); (1, 2); (2, 6); (0, 0)].
Proof.
  split; [|split].
  - apply Forall_forall. intros tok Ht. apply absentb_ok. assert (HA : forallb (fun tok => absentb test_env (cf_norm base_config) total_text (at_content tok)) (base_tokens ++ given base_history) = true) by (vm_compute; reflexivity). rewrite forallb_forall in HA. exact (HA tok Ht).
  - assert (HT : exists z b, table_padded test_env true true total_text z b) by (eexists _, _; split; [vm_compute; exact I | reflexivity]).
    destruct HT as (z & b & HT). exists ([101; 32; 0x4E2D; 32; 32]%N ++ str "play"). eexists _, _, [(0, str "e"); (2, [0x4E2D]%N); (5, str "play")]. split; [|split; [reflexivity|]; split].
    + exists z, b. split; [exact HT|]. split; [reflexivity|]. exists ([101; 0x301; 32; 0x4E2D; 32; 32]%N ++ str "Play"). split; [reflexivity|]. split; [|split; reflexivity].
      destruct HT as [_ HT]. vm_compute in HT. injection HT as <- <-. intros i c Hi Hc. vm_compute. do 10 (destruct i as [|i]; [lia|]). destruct i; discriminate.
    + exists [[(0, str "e"); (2, [0x4E2D]%N); (5, str "play")]]. split; [|reflexivity]. constructor; [|constructor].
      apply (bs_word _ _ 0 (str "e") ([32; 0x4E2D; 32; 32]%N ++ str "play") [(2, [0x4E2D]%N); (5, str "play")]); [discriminate | repeat (constructor; [split; reflexivity|]); constructor | left; reflexivity|]. apply bs_space; [reflexivity|].
      apply (bs_word _ _ 2 [0x4E2D]%N (str "  play") [(5, str "play")]); [discriminate | repeat (constructor; [split; reflexivity|]); constructor | left; reflexivity|]. apply bs_space; [reflexivity|]. apply bs_space; [reflexivity|].
      apply (bs_word _ _ 5 (str "play") [] []); [discriminate | repeat (constructor; [split; reflexivity|]); constructor | exact I | constructor].
    + destruct HT as [_ HT]. vm_compute in HT. injection HT as <- <-. vm_compute. reflexivity.
  - eexists. split; [vm_compute; reflexivity|]. eexists. split; [vm_compute; reflexivity|]. repeat split.
Qed.
(** Nothing is left of a lone mark. U+0301: the word has no place, out of bounds. U+E0100 (a variation selector): one of its two table entries stays, and the mark itself is encoded as an unknown word at unit 0. *)
Definition vs_env : env := {| e_norm := e_norm test_env; e_is_mn := fun c => ((0x300 <=? c) && (c <=? 0x36F) || (0xE0100 <=? c) && (c <=? 0xE01EF))%N; e_iswspace := e_iswspace test_env; e_iswcntrl := e_iswcntrl test_env; e_towlower := e_towlower test_env; e_u_space := e_u_space test_env; e_u_punct := e_u_punct test_env;
  e_icu_matches := e_icu_matches test_env; e_wregex_ok := e_wregex_ok test_env; e_wregex_next := e_wregex_next test_env; e_inplace := true; e_char_signed := true; e_draw := e_draw test_env; e_pq := e_pq test_env |}.
Lemma mark_words E m : e_u_space E m = false -> e_u_punct E m = false -> cuts_into E TBert [(0, [m])] [(0, [m])].
Proof. intros H1 H2. exists [[(0, [m])]]. split; [|reflexivity]. constructor; [|constructor]. apply (bs_word _ _ 0 [m] []); [discriminate | constructor; [split; assumption | constructor] | exact I | constructor]. Qed.
Example C136_nothing_left_case : bert_words vs_env true true true true (Some TBert) [0x301]%N [(None, [0x301]%N)] /\ bert_words vs_env true true true true (Some TBert) [0xE0100]%N (at_known [(0, [0xE0100]%N)]) /\
  snd (encode vs_env 10 (strip_tz (NBert true true true true)) [0x301]%N false) = Undef OobIndex /\
  exists r, snd (encode vs_env 10 (strip_tz (NBert true true true true)) [0xE0100]%N false) = Ok r /\ en_tokens r = [str "[UNK]"] /\ en_offsets r = [(0, 2)].
Proof.
  split; [|split; [|split]].
  - assert (HM : bert_made vs_env true true true true [0x301]%N [] [] [0; 0; 0; 0]) by (exists [2], [0; 0]; split; [split; [vm_compute; exact I | reflexivity]|]; split; [reflexivity|]; exists [0x301]%N; split; [reflexivity|]; split; [intros [|[|i]] c Hi Hc; [vm_compute; lia | discriminate..] | split; reflexivity]).
    exists [], [], [0; 0; 0; 0], [(0, [0x301]%N)]. split; [exact HM|]. split; [reflexivity|]. split; [apply mark_words; reflexivity | reflexivity].
  - assert (HM : bert_made vs_env true true true true [0xE0100]%N [] [4] [0; 0; 0; 0; 1; 1; 1; 1; 1; 1; 1; 1]) by (exists [4; 4], [0; 0; 0; 0; 1; 1; 1; 1]; split; [split; [vm_compute; exact I | reflexivity]|]; split; [reflexivity|]; exists [0xE0100]%N; split; [reflexivity|]; split; [intros [|[|i]] c Hi Hc; [vm_compute; lia | discriminate..] | split; reflexivity]).
    exists [], [4], [0; 0; 0; 0; 1; 1; 1; 1; 1; 1; 1; 1], [(0, [0xE0100]%N)]. split; [exact HM|]. split; [reflexivity|]. split; [apply mark_words; reflexivity | reflexivity].
  - vm_compute. reflexivity.
  - eexists. split; [vm_compute; reflexivity|]. split; reflexivity.
Qed.
(** Two Vietnamese letters with two accents each: the second word of the text stands beyond the table. A library that lower-cases to a surrogate: std::range_error. *)
Definition surrogate_env : env := {| e_norm := e_norm test_env; e_is_mn := e_is_mn test_env; e_iswspace := e_iswspace test_env; e_iswcntrl := e_iswcntrl test_env; e_towlower := fun _ => 0xD800%N; e_u_space := e_u_space test_env; e_u_punct := e_u_punct test_env;
  e_icu_matches := e_icu_matches test_env; e_wregex_ok := e_wregex_ok test_env; e_wregex_next := e_wregex_next test_env; e_inplace := true; e_char_signed := true; e_draw := e_draw test_env; e_pq := e_pq test_env |}.
Example C136_bad_cases : bert_breaks test_env true true true true [0x1EA5; 0x1EA5]%N /\ snd (encode test_env 10 (strip_tz (NBert true true true true)) [0x1EA5; 0x1EA5]%N false) = Undef OobIndex /\
  bert_unavailable broken_env true true true true (str "a") /\ snd (encode broken_env 10 (strip_tz (NBert true true true true)) (str "a") false) = Throw RuntimeError /\
  bert_invalid surrogate_env true true true true (str "a") /\ snd (encode surrogate_env 10 (strip_tz (NBert true true true true)) (str "a") false) = Throw RangeError.
Proof.
  split; [|split; [vm_compute; reflexivity|]; split; [|split; [vm_compute; reflexivity|]; split; [|vm_compute; reflexivity]]].
  - right. exists [3; 3], [0; 0; 0; 1; 1; 1], [0x61; 0x302; 0x301; 0x61; 0x302; 0x301]%N. split; [split; [vm_compute; exact I | reflexivity]|]. split; [reflexivity|]. split; [reflexivity|]. intros H. specialize (H 5 0x301%N eq_refl eq_refl). vm_compute in H. lia.
  - eexists _, _. split; [split; [vm_compute; exact I | reflexivity]|]. split; reflexivity.
  - exists [0xD800]%N. eexists _, _. split; [|reflexivity]. eexists _, _. split; [split; [vm_compute; exact I | reflexivity]|]. split; [reflexivity|]. exists (str "a"). split; [reflexivity|]. split; [|split; reflexivity]. intros [|[|i]] c Hi Hc; [injection Hi as <-; discriminate | discriminate..].
Qed.
