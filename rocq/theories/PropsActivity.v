(** C129: the example activity. *)
From Verif Require Import Base BaseFacts Unicode Common Utils PostProcessor Decoder Normalizer PreTokenizer WordPiece Bpe AddedVocab Tokenizer Config Jni Run Android Spec
  DecSpec DecProofs PropsDecoder HistSpec HistProofs PropsHistory ConfigSpec ConfigProofs PropsConfig RunSpec PropsRun UnicodeProofs NormProofs PropsApi PropsEncode AvSpec AvProofs EmptySpec PropsEmpty PostSpec NormSpec PreSpec TzSpec TzProofs WpSpec OffSpec OffProofs RefSpec RefProofs MixSpec LenSpec FullSpec PropsAdded PropsLifetime PropsText PropsMixed OutSpec BpeProofs DecodableSpec PropsDecodable PropsFinish PropsFull PropsOffsets Env PropsBertConfig WpProofs AndroidSpec PropsAndroid.
From Coq Require Import ZifyBool ZifyNat ZifyN.
Import ListNotations.

(** *** The configuration file *)
Lemma read_line l : plain_line l -> forall cur r cr, l <> [] -> read_lines (l ++ r) cur cr = read_lines r (cur ++ l) false.
Proof.
  induction 1 as [|c l [H1 H2] HL IH]; intros cur r cr Hne; [congruence|]. cbn [app read_lines]. replace (c =? 10)%N with false by lia. replace (c =? 13)%N with false by lia.
  destruct l as [|c' l]; [reflexivity|]. rewrite (IH (cur ++ [c]) r false) by discriminate. rewrite <- app_assoc. reflexivity.
Qed.
Lemma read_ended e l r : line_ending e -> plain_line l -> (e = [13%N] -> hd 0%N r <> 10%N) -> exists cr, (cr = true -> e = [13%N]) /\ read_lines (l ++ e ++ r) [] false = l :: read_lines r [] cr.
Proof.
  intros He Hl Hr. assert (G : forall cur, exists cr, (cr = true -> e = [13%N]) /\ read_lines (e ++ r) cur false = cur :: read_lines r [] cr).
  { intros cur. destruct He as [<-|[<-|[<-|[]]]]; cbn [app read_lines]; [exists false | exists true | exists false]; (split; [discriminate || reflexivity | reflexivity]). }
  destruct l as [|c l]; [exact (G [])|]. rewrite (read_line (c :: l) Hl [] (e ++ r) false) by discriminate. cbn [app]. apply (G (c :: l)).
Qed.
Lemma cr_irrelevant r cr : hd 0%N r <> 10%N -> read_lines r [] cr = read_lines r [] false.
Proof. destruct r as [|x r]; [reflexivity|]. cbn [hd read_lines]. intros H. replace (x =? 10)%N with false by lia. reflexivity. Qed.
Lemma file_head e lines last : line_ending e -> Forall plain_line lines -> plain_line last -> e = [13%N] -> hd 0%N (file_of e lines last) <> 10%N.
Proof.
  intros He HL Hl ->. unfold file_of. destruct HL as [|l lines H _]; cbn [flat_map app]; [destruct Hl as [|c l [H _]]; cbn; [discriminate | exact H]|].
  destruct H as [|c l [H _] _]; cbn; [discriminate | exact H].
Qed.
Lemma read_file e lines last : line_ending e -> Forall plain_line lines -> plain_line last -> read_lines (file_of e lines last) [] false = lines ++ (if is_nil last then [] else [last]).
Proof.
  intros He HL Hl. induction HL as [|l lines H HL IH].
  - unfold file_of. cbn [flat_map app]. destruct last as [|c last]; [reflexivity|]. cbn [is_nil]. rewrite <- (app_nil_r (c :: last)) at 1. rewrite (read_line (c :: last) Hl [] [] false) by discriminate. reflexivity.
  - unfold file_of. cbn [flat_map app]. rewrite <- !app_assoc. fold (file_of e lines last). destruct (read_ended e l (file_of e lines last) He H) as (cr & Hcr & ->); [apply file_head; assumption|]. f_equal.
    rewrite <- IH. destruct cr; [|reflexivity]. apply cr_irrelevant. apply file_head; auto.
Qed.
Lemma joined_lines lines last : last <> [] \/ lines = [] -> join_lines (lines ++ (if is_nil last then [] else [last])) = file_of [10%N] lines last.
Proof.
  intros H. induction lines as [|l lines IH]; [destruct last as [|c l]; [reflexivity|]; cbn [is_nil app join_lines]; unfold file_of; cbn; rewrite app_nil_r; reflexivity|].
  destruct H as [H|H]; [|discriminate]. specialize (IH (or_introl H)). destruct last as [|c0 last]; [congruence|]. cbn [is_nil] in *. cbn [app join_lines]. rewrite IH. unfold file_of. cbn [flat_map]. rewrite <- !app_assoc. cbn [app]. destruct lines; reflexivity.
Qed.
(** ** C129 *)
(** The configuration is the file with every line ending written LF and the last one dropped, whatever the style of its line endings. *)
Theorem C129_config : forall e lines last, line_ending e -> Forall plain_line lines -> plain_line last -> last <> [] ->
  asset_config (file_of e lines last) = file_of [10%N] lines last /\ asset_config (file_of e (lines ++ [last]) []) = file_of [10%N] lines last.
Proof.
  intros e lines last He HL Hl Hne. unfold asset_config. split.
  - rewrite read_file by assumption. apply joined_lines. auto.
  - rewrite read_file; [|exact He | apply Forall_app; auto | constructor]. cbn [is_nil]. rewrite app_nil_r. replace (lines ++ [last]) with (lines ++ (if is_nil last then [] else [last])) by (destruct last; [congruence | reflexivity]). apply joined_lines. auto.
Qed.
Print Assumptions C129_config.

(** *** Clicks *)
Section Clicks.
Context (E : env) (fuel : nat) (parse : bytes -> option json) (g : ustr) (t0 : tokenizer).
Hypothesis Hg : make parse g = Ok t0.
Hypothesis HO : orderly parse g.
Lemma click_anew heap input : Forall2 (stands E fuel parse) [g] heap ->
  match click E fuel parse heap input with
  | Ok (heap', s) => shown_for E fuel t0 input s /\ Forall2 (stands E fuel parse) [g] heap'
  | _ => forall s, ~ shown_for E fuel t0 input s
  end.
Proof.
  intros HF. assert (OK : forall c, configs [c] = [] -> Forall (orderly parse) ([g] ++ configs [c])) by (intros c Hc; rewrite Hc; constructor; [exact HO | constructor]).
  unfold click. pose proof (step_anew E fuel parse [g] heap (JEncode 0 input true) HF (OK (JEncode 0 input true) eq_refl)) as K. cbn [anew nth_error] in K. fold (make parse g) in K. rewrite Hg in K. cbn [bind configs flat_map app] in K.
  destruct (java_step E fuel parse heap (JEncode 0 input true)) as [[h1 a]|e|u|] eqn:E1; cbn [bind].
  2, 3, 4: intros s (ids & d & H1 & _); rewrite H1 in K; cbn [bind] in K; discriminate.
  destruct K as [K1 K2]. apply bind_ok in K1 as (ids & H1 & K1). injection K1 as <-.
  pose proof (step_anew E fuel parse [g] h1 (JDecode 0 ids false) K2 (OK (JDecode 0 ids false) eq_refl)) as K. cbn [anew nth_error] in K. fold (make parse g) in K. rewrite Hg in K. cbn [bind configs flat_map app] in K.
  destruct (java_step E fuel parse h1 (JDecode 0 ids false)) as [[h2 b]|e|u|] eqn:E2; cbn [bind].
  2, 3, 4: intros s (ids' & d & H1' & H2 & _); assert (ids' = ids) by congruence; subst ids'; rewrite H2 in K; cbn [bind] in K; discriminate.
  destruct K as [K1 K3]. apply bind_ok in K1 as (d & H2 & K1). injection K1 as <-. split; [|exact K3]. exists ids, d. split; [exact H1|]. split; [exact H2|]. destruct d as [x|]; [|reflexivity]. eexists. split; [|reflexivity].
  destruct (shown_listing show_int numeral ids show_numeral) as (n & L1 & L2). exists n. split; [exact L1|]. unfold screen. f_equal. unfold print_result in L2. rewrite !app_assoc in L2. apply app_inj_tail in L2 as [<- _]. rewrite <- !app_assoc. reflexivity.
Qed.
Lemma clicks_anew inputs : forall heap, Forall2 (stands E fuel parse) [g] heap ->
  match clicks E fuel parse heap inputs with
  | Ok (_, l) => Forall2 (shown_for E fuel t0) inputs l
  | _ => forall l, ~ Forall2 (shown_for E fuel t0) inputs l
  end.
Proof.
  induction inputs as [|i inputs IH]; intros heap HF; cbn [clicks]; [constructor|]. pose proof (click_anew heap i HF) as K.
  destruct (click E fuel parse heap i) as [[h1 s]|e|u|]; cbn [bind]; [|intros l HL; inversion HL; subst; eapply K; eassumption..]. destruct K as [K1 K2]. specialize (IH h1 K2).
  destruct (clicks E fuel parse h1 inputs) as [[h2 l]|e|u|]; cbn [bind]; [constructor; assumption | intros l' HL; inversion HL; subst; eapply IH; eassumption..].
Qed.
End Clicks.
Lemma shown_once E fuel t i s s' : shown_for E fuel t i s -> shown_for E fuel t i s' -> s = s'.
Proof.
  intros (ids & d & H1 & H2 & H3) (ids' & d' & H1' & H2' & H3'). assert (ids' = ids) by congruence. subst ids'. assert (d' = d) by congruence. subst d'. destruct d as [x|]; [|congruence].
  destruct H3 as (y & (b & B1 & ->) & ->), H3' as (y' & (b' & B1' & ->) & ->). rewrite (listing_unique numeral ids b b' numeral_unique B1 B1'). reflexivity.
Qed.
(** The activity shows, click after click, the ids of the text with special tokens and what they decode to, as a tokenizer constructed anew gives them: nothing depends on the clicks before. It
    survives exactly if the tokenizer can be constructed and every encoding and decoding succeeds. *)
Theorem C129_screens : forall E fuel parse asset inputs l, orderly parse (asset_config asset) ->
  (activity E fuel parse asset inputs = Ok l <->
   exists t, construct (fun _ => None) parse [] (jni_config (asset_config asset)) = Ok t /\ Forall2 (shown_for E fuel t) inputs l).
Proof.
  intros E fuel parse asset inputs l HO. unfold activity. cbn [java_step]. fold (make parse (asset_config asset)). destruct (make parse (asset_config asset)) as [t| | |] eqn:Em; cbn [bind].
  2, 3, 4: split; [discriminate | intros (t & Ht & _); discriminate].
  pose proof (clicks_anew E fuel parse _ t Em HO inputs [t] ltac:(constructor; [exists t, []; auto | constructor])) as K. cbn [app].
  destruct (clicks E fuel parse [t] inputs) as [[h l']|e|u|]; cbn [bind]; split.
  - intros H. injection H as <-. eauto.
  - intros (t' & Ht & HF). assert (t' = t) by congruence. subst t'. f_equal. clear - K HF. revert l HF. induction K as [|i s inputs l' H1 _ IH]; intros l HF; inversion HF; subst; [reflexivity|]. f_equal; [eapply shown_once; eassumption | apply IH; assumption].
  - discriminate.
  - intros (t' & Ht & HF). assert (t' = t) by congruence. subst t'. destruct (K _ HF).
  - discriminate.
  - intros (t' & Ht & HF). assert (t' = t) by congruence. subst t'. destruct (K _ HF).
  - discriminate.
  - intros (t' & Ht & HF). assert (t' = t) by congruence. subst t'. destruct (K _ HF).
Qed.
Print Assumptions C129_screens.
(** Typing one character beyond U+FFFF, such as an emoji, anywhere ends the process. *)
Theorem C129_emoji_refuted : forall E fuel parse asset inputs input cs, orderly parse (asset_config asset) -> In input inputs -> input = flat_map utf16_enc cs -> forallb valid_cp cs = true -> Exists (fun c => (0x10000 <= c)%N) cs ->
  forall l, activity E fuel parse asset inputs <> Ok l.
Proof.
  intros E fuel parse asset inputs input cs HO HI -> Hv Hx l H. apply (C129_screens E fuel parse asset inputs l HO) in H as (t & _ & HF). clear HO.
  induction HF as [|i s inputs l (ids & d & H1 & _) _ IH]; [destruct HI|]. destruct HI as [->|HI]; [|exact (IH HI)]. rewrite (C68_android_refuted E fuel t cs true Hv Hx) in H1. discriminate.
Qed.
Print Assumptions C129_emoji_refuted.
(** So does clicking with nothing typed, if the configuration has added tokens (honest_on_empty: no pattern makes something of nothing). *)
Theorem C129_empty_refuted : forall E fuel parse asset inputs, honest_on_empty E -> orderly parse (asset_config asset) -> In [] inputs ->
  (forall t, construct (fun _ => None) parse [] (jni_config (asset_config asset)) = Ok t -> tz_av t <> None) -> forall l, activity E fuel parse asset inputs <> Ok l.
Proof.
  intros E fuel parse asset inputs HE HO HI HA l H. apply (C129_screens E fuel parse asset inputs l HO) in H as (t & Ht & HF). specialize (HA t Ht).
  induction HF as [|i s inputs l (ids & d & H1 & _) _ IH]; [destruct HI|]. destruct HI as [->|HI]; [|exact (IH HI)]. unfold jni_encode in H1.
  destruct (encode E fuel t [] true) as [t' r] eqn:Ee. cbn [snd] in H1. apply bind_ok in H1 as (r0 & H1 & _). subst r. apply (proj2 (C64_encode E fuel t true HE)) with (r := r0); [intros [K _]; exact (HA K)|]. rewrite Ee. reflexivity.
Qed.
Print Assumptions C129_empty_refuted.

(** *** A BERT configuration *)
Lemma replaced_alphabet (P : N -> Prop) from to s r : replaced from to s r -> Forall P to -> Forall P s -> Forall P r.
Proof. induction 1 as [s H|a b b' H _ IH]; intros HT HS; [exact HS|]. apply Forall_app in HS as [H1 H2]. apply Forall_app in H2 as [H2 H3]. apply Forall_app. split; [exact H1|]. apply Forall_app. split; [exact HT | exact (IH HT H3)]. Qed.
Lemma cleanup_ascii s r : ascii_text s -> cleanup_token s = Ok r -> ascii_text r.
Proof.
  intros HS H. destruct (C19_cleanup s) as (r' & H1 & H2 & _). assert (r' = r) by congruence. subst r'. clear H H1.
  assert (HR : Forall (fun p => ascii_text (snd p)) documented_cleanup). { unfold documented_cleanup. repeat (apply Forall_cons; [cbn; repeat (apply Forall_cons; [cbn; lia|]); apply Forall_nil|]). apply Forall_nil. }
  revert HR HS. induction H2 as [s|from to rules s s' s'' H1 _ IH]; intros HR HS; [exact HS|]. inversion HR; subst. apply IH; [assumption|]. eapply replaced_alphabet; eassumption.
Qed.
Lemma wp_ascii prefix cl toks out : Forall ascii_text toks -> decode_chain (DWordPiece prefix cl) toks = Ok out -> ascii_text (concat out).
Proof.
  assert (ONE : forall first t x, ascii_text t -> wp_decode_one prefix cl first t = Ok x -> ascii_text x).
  { intros first t x HT H. unfold wp_decode_one in H. set (t' := if first then t else if is_prefix prefix t then skipn (length prefix) t else 32%N :: t) in H.
    assert (H' : ascii_text t'). { unfold t'. destruct first; [exact HT|]. destruct (is_prefix prefix t); [|constructor; [lia | exact HT]]. unfold ascii_text in *. rewrite <- (firstn_skipn (length prefix) t) in HT. apply Forall_app in HT. apply HT. }
    destruct cl; [eapply cleanup_ascii; eassumption | injection H as <-; exact H']. }
  intros HT H. cbn [decode_chain] in H. destruct HT as [|t r Ht Hr]; cbn [wp_decode] in H; [injection H as <-; constructor|]. apply bind_ok in H as (x & Hx & H). apply bind_ok in H as (y & Hy & H). injection H as <-. cbn [concat]. apply Forall_app. split; [eapply ONE; eassumption|].
  clear Hx. revert y Hy. induction Hr as [|t' r Ht' _ IH]; intros y Hy; cbn [mapM] in Hy; [injection Hy as <-; constructor|]. apply bind_ok in Hy as (a & Ha & Hy). apply bind_ok in Hy as (b & Hb & Hy). injection Hy as <-. cbn [concat]. apply Forall_app. split; [eapply ONE; eassumption | apply IH; exact Hb].
Qed.
Lemma decode_texts t av m skip (P : bytes -> Prop) : tz_av t = Some av -> tz_model t = Some m -> (forall i s, av_id_to_token av i = Some s -> P s) -> (forall i s, model_id_to_token (model_vocab m) i = Some s -> P s) ->
  forall ids toks, decode_ids t skip ids = Ok toks -> Forall P toks.
Proof.
  intros Ha Hm H1 H2. induction ids as [|i ids IH]; intros toks H; cbn [decode_ids] in H; [injection H as <-; constructor|]. rewrite Ha in H. apply bind_ok in H as (s & Hs & H). apply bind_ok in H as (rest & Hr & H). injection H as <-.
  assert (P s). { destruct (av_id_to_token av i) eqn:E1; [injection Hs as <-; eapply H1; eassumption|]. rewrite Hm in Hs. destruct (model_id_to_token (model_vocab m) i) eqn:E2; [injection Hs as <-; eapply H2; eassumption | discriminate]. }
  destruct (negb skip || negb (is_special_token av s)); [constructor; auto | auto].
Qed.
Lemma ascii_utf8s b : ascii_text b -> utf8_encs b = b /\ bmp_text b.
Proof.
  induction 1 as [|c b H _ (IH1 & IH2)]; [split; [reflexivity | constructor]|]. split; [|constructor; [left; lia | exact IH2]]. unfold utf8_encs in *. cbn [flat_map]. rewrite IH1. unfold utf8_enc. replace (c <? 0x80)%N with true by lia. reflexivity.
Qed.
(** With a BERT configuration whose vocabulary and added tokens are ASCII, every sequence of clicks with printable ASCII texts of any length below 2^31 tokens is survived, and every screen shows. *)
Theorem C129_bert : forall parse asset text c t0 w toks cl ch st lo p clean E inputs,
  source (fun _ => None) [] (jni_config (asset_config asset)) (Some text) -> parse text = Some (render c) -> config_ok c -> build c = Ok t0 -> pq_ok E -> ascii_env E ->
  cf_model c = Some (CWordPiece w) -> dense (wp_vocab w) -> wp_vocab w <> [] -> cf_norm c = Some (NBert cl ch st lo) -> cf_pre c = Some TBert -> cf_dec c = Some (DWordPiece p clean) ->
  cf_added c = Some toks -> Forall (fun x => at_special x = true) toks -> Forall simple_token toks -> one_flag toks -> sane t0 ->
  (forall p, cf_post c = Some p -> specials_ok p /\ forall st i, In st (declared p) -> In i (st_ids st) -> exists x, In (x, i) (wp_vocab w)) ->
  (forall p, cf_pad c = Some p -> exists x, In (x, p_id p) (wp_vocab w)) ->
  Forall (fun x => ascii_text (fst x)) (wp_vocab w) -> Forall (fun x => ascii_text (at_content x)) toks ->
  Forall (fun s => s <> [] /\ Forall printable s /\ forall words rs, text_words (wp_vocab w) toks (fun c => if lo then lower_ascii c else c) (e_u_space E) (e_u_punct E) s words -> words_rows w 0 words rs ->
     (Z.of_nat (length rs) < 2 ^ 31)%Z /\ forall k, k <= length rs -> (Z.of_nat (tz_post_length t0 true k) < 2 ^ 31)%Z) inputs ->
  exists n l, (forall fuel, n <= fuel -> activity E fuel parse asset inputs = Ok l) /\ Forall (fun s => s <> None) l /\ length l = length inputs.
Proof.
  intros parse asset text c t0 w toks cl ch st lo p clean E inputs Hs Hp Hok Hb HQ HE Hm Hd Hne Hn Hpre Hdec Ha Hspec Hsimple Hflag Hsane Hpost Hpad HV HA HI.
  assert (Ht0 : t0 = mkTz (cf_trunc c) (cf_pad c) (Some (new_added_vocab toks)) (Some (NBert cl ch st lo)) (Some TBert) (Some (MWordPiece w)) (cf_dec c) (cf_post c)).
  { unfold build in Hb. rewrite Hm, Ha, Hn, Hpre in Hb. cbn [build_model bind option_map] in Hb. injection Hb as <-. reflexivity. }
  assert (Hm0 : tz_model t0 = Some (MWordPiece w)) by (rewrite Ht0; reflexivity).
  destruct (C112_bert (fun _ => None) parse [] (jni_config (asset_config asset)) text c t0 w toks cl ch st lo E 0 Hs Hp Hok Hb Hm Hd Hne Hn Hpre Ha Hspec Hsane (fun p H => proj1 (Hpost p H)) HE) as (t & Hc & HB).
  destruct (C112_decodes (fun _ => None) parse [] (jni_config (asset_config asset)) text c t0 (MWordPiece w) toks (DWordPiece p clean) E 0 Hs Hp Hok Hb HQ Hm0 Hd Hne Ha Hspec Hdec Hpost Hpad) as (t' & Hc' & HD).
  assert (t' = t) by congruence. subst t'. specialize (HB []). change (HistSpec.after E 0 t []) with t in HB; cbn [given flat_map] in HB. setoid_rewrite app_nil_r in HB. specialize (HD [] []). change (HistSpec.after E 0 t ([] ++ [])) with t in HD; change (HistSpec.after E 0 t []) with t in HD.
  pose proof (C79_construct _ _ _ _ _ _ _ Hs Hp Hok Hb) as HF. rewrite Hc in HF. symmetry in HF.
  destruct (C38_lifetime E 0 t0 (MWordPiece w) toks t Hd Hne ltac:(rewrite Ht0; reflexivity) Hm0 ltac:(discriminate) HF []) as ((av & A1 & A2) & (m & M1 & M2) & S1).
  change (HistSpec.after E 0 t []) with t in *; cbn [given flat_map] in A2. rewrite app_nil_r in A2. destruct m as [w'|]; [|contradiction]. cbn [same_model] in M2. subst w'. destruct S1 as (_ & _ & _ & _ & S5 & _).
  assert (HO : orderly parse (asset_config asset)). { intros t1 m1 H1 H2. assert (t1 = t) by congruence. subst t1. rewrite M1 in H2. injection H2 as <-. left. apply Hd. }
  assert (ONE : forall s, s <> [] -> Forall printable s -> (forall words rs, text_words (wp_vocab w) toks (fun c => if lo then lower_ascii c else c) (e_u_space E) (e_u_punct E) s words -> words_rows w 0 words rs ->
     (Z.of_nat (length rs) < 2 ^ 31)%Z /\ forall k, k <= length rs -> (Z.of_nat (tz_post_length t0 true k) < 2 ^ 31)%Z) -> exists n x, x <> None /\ forall fuel, n <= fuel -> shown_for E fuel t s x).
  { intros s Hs0 Hpr HL. destruct (HB s true Hsimple Hflag Hs0 Hpr) as (words & rs & H1 & H2 & H3). destruct (HL words rs H1 H2) as [L1 L2]. destruct (H3 L1 L2) as (r & R1 & _).
    destruct (HD (length rs + 2) s true r r false (R1 _ (le_n _)) (part_self r)) as (out & Hout).
    assert (HAsc : ascii_text out).
    { unfold decode in Hout. apply bind_ok in Hout as (tk & Htk & Hout). rewrite S5, Ht0 in Hout. cbn [tz_dec] in Hout. rewrite Hdec in Hout. apply bind_ok in Hout as (o & Ho & Hout). injection Hout as <-. eapply wp_ascii; [|exact Ho].
      refine (decode_texts t av (MWordPiece w) false ascii_text A1 M1 _ _ _ _ Htk).
      - intros i x Hx. pose proof (history_ok _ _ _ Hd Hne A2) as HK. pose proof (denotes_resolve _ _ _ t _ Hd Hne A2 M1 eq_refl i x) as HR. unfold resolve in HR. rewrite Hx in HR. pose proof (proj2 HR eq_refl) as HX. destruct HX as [HX|[_ HX]]; [|exact (proj1 (Forall_forall _ _) HV _ HX)].
        destruct (proj1 (ho_assigned _ _ _ HK x) (ex_intro _ i HX)) as [_ HX']. apply in_map_iff in HX' as (tok & <- & HT). exact (proj1 (Forall_forall _ _) HA _ HT).
      - intros i x Hx. apply HistProofs.vocab_r_in in Hx. exact (proj1 (Forall_forall _ _) HV _ Hx). }
    destruct (ascii_utf8s out HAsc) as [E1 E2]. rewrite <- E1 in Hout. pose proof (C77_bmp t (en_ids r) false out Hout E2) as HJ. destruct (shown_listing show_int numeral (en_ids r) show_numeral) as (nb & NB & _).
    exists (length rs + 2), (Some (str "Encoded: " ++ nb ++ [10%N] ++ str "Decoded: " ++ flat_map utf16_enc out)). split; [discriminate|]. intros fuel Hf. exists (en_ids r), (Some (flat_map utf16_enc out)). split; [|split; [exact HJ | eexists; split; [exists nb; split; [exact NB | reflexivity] | reflexivity]]].
    unfold jni_encode. pose proof (R1 fuel Hf) as R. destruct (encode E fuel t s true) as [u q]. cbn [snd] in *. rewrite R. reflexivity. }
  assert (ALL : exists n l, (forall fuel, n <= fuel -> Forall2 (shown_for E fuel t) inputs l) /\ Forall (fun s => s <> None) l /\ length l = length inputs).
  { clear - HI ONE. induction HI as [|s inputs (K1 & K2 & K3) _ (n & l & N1 & N2 & N3)]; [exists 0, []; split; [intros; constructor | split; [constructor | reflexivity]]|].
    destruct (ONE s K1 K2 K3) as (n' & x & X1 & X2). exists (Nat.max n n'), (x :: l). split; [intros fuel Hf; constructor; [apply X2; lia | apply N1; lia]|]. split; [constructor; assumption | cbn; congruence]. }
  destruct ALL as (n & l & N1 & N2 & N3). exists n, l. split; [|split; assumption]. intros fuel Hf. apply (C129_screens E fuel parse asset inputs l HO). exists t. split; [exact Hc | apply N1; exact Hf].
Qed.
Print Assumptions C129_bert.

(** *** Concrete cases *)
Definition base_parse : bytes -> option json := fun _ => Some (render base_config).
Lemma base_orderly g : is_nil (jni_config g) = false -> orderly base_parse g.
Proof.
  intros Hg t m H Hm. left. assert (E0 : construct (fun _ => None) base_parse [] (str "{}") = Ok t).
  { rewrite <- H. unfold construct. rewrite Hg. reflexivity. }
  clear H. vm_compute in E0. injection E0 as <-. cbn [tz_model] in Hm. injection Hm as <-. vm_compute. repeat (constructor; [cbn; intuition discriminate|]). constructor.
Qed.
(** two objects, calls in turn; the last id is unknown and ends the process *)
Example C128_case : let calls := [JNew (str "{}"); JEncode 0 (str "Playing chess!") true; JNew (str "{ }"); JDecode 1 [5; 6; 4; 8]%Z true; JEncode 1 (str "chess") false; JDecode 0 [2; 5; 6; 3]%Z false] in
  Forall (orderly base_parse) (configs calls) /\
  fst (java_run test_env 20 base_parse [] calls) = [JObject 0; JIds [2; 5; 6; 7; 8; 3; 0; 0]%Z; JObject 1; JText (Some (str "playing!")); JIds [7; 0; 0; 0]%Z; JText (Some (str "[CLS] playing [SEP]"))] /\
  status (snd (java_run test_env 20 base_parse [] calls)) = Ok tt /\
  fst (java_run test_env 20 base_parse [] (JNew (str "{}") :: JDecode 0 [999]%Z false :: calls)) = [JObject 0] /\
  status (snd (java_run test_env 20 base_parse [] (JNew (str "{}") :: JDecode 0 [999]%Z false :: calls))) = Throw BadOptionalAccess.
Proof. split; [repeat (apply Forall_cons; [apply base_orderly; reflexivity|]); apply Forall_nil|]. vm_compute. repeat split. Qed.
(** a file with CR LF line ends; two clicks *)
Example C129_case : let asset := file_of [13; 10]%N [str "{"; str "}"] [] in
  asset_config asset = str "{" ++ [10%N] ++ str "}" /\ orderly base_parse (asset_config asset) /\
  activity test_env 20 base_parse asset [str "Playing chess!"; str "play [MASK]"] =
    Ok [Some (str "Encoded: [2, 5, 6, 7, 8, 3, 0, 0]" ++ [10%N] ++ str "Decoded: [CLS] playing chess! [SEP] [PAD] [PAD]"); Some (str "Encoded: [2, 5, 4, 3]" ++ [10%N] ++ str "Decoded: [CLS] play [MASK] [SEP]")] /\
  (forall l, activity test_env 20 base_parse asset [str "play"; []] <> Ok l) /\ forall l, activity test_env 20 base_parse asset [flat_map utf16_enc [0x1F600%N]] <> Ok l.
Proof. cbv zeta. split; [reflexivity|]. split; [apply base_orderly; reflexivity|]. split; [vm_compute; reflexivity|]. split; intros l H; vm_compute in H; discriminate. Qed.
(** the hypotheses of C129_bert are met *)
Example C129_bert_case : exists t0, build base_config = Ok t0 /\ Forall (fun x => ascii_text (fst x)) base_vocab /\ Forall (fun x => ascii_text (at_content x)) base_tokens /\ pq_ok test_env /\
  (forall p, cf_post base_config = Some p -> specials_ok p /\ forall st i, In st (declared p) -> In i (st_ids st) -> exists x, In (x, i) base_vocab) /\ (forall p, cf_pad base_config = Some p -> exists x, In (x, p_id p) base_vocab).
Proof.
  eexists. split; [reflexivity|]. split; [|split; [|split; [|split]]].
  - unfold base_vocab, ascii_text. cbn [str fst]. apply Forall_forall. intros x Hx. apply Forall_forall. intros c Hc.
    assert (K : forallb (fun x : bytes * Z => forallb (fun c => (0 <? c) && (c <? 128))%N (fst x)) base_vocab = true) by reflexivity. rewrite forallb_forall in K. specialize (K x Hx). rewrite forallb_forall in K. specialize (K c Hc). lia.
  - apply Forall_forall. intros x Hx. apply Forall_forall. intros c Hc.
    assert (K : forallb (fun x => forallb (fun c => (0 <? c) && (c <? 128))%N (at_content x)) base_tokens = true) by reflexivity. rewrite forallb_forall in K. specialize (K x Hx). rewrite forallb_forall in K. specialize (K c Hc). lia.
  - exact test_env_pq.
  - intros p H. injection H as <-. split; [cbn; repeat (apply Forall_cons; [cbn; lia|]); try apply Forall_nil; auto|]. intros st i H1 H2. cbn in H1. destruct H1 as [<-|[<-|[]]]; destruct H2 as [<-|[]]; eexists; vm_compute; intuition reflexivity.
  - intros p H. injection H as <-; eexists; vm_compute; intuition reflexivity.
Qed.
