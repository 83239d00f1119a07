(** From the configuration file of a BERT tokenizer to its encodings, after any use of the tokenizer (C112). *)
From Verif Require Import Base BaseFacts Unicode UnicodeProofs Common Utils PostProcessor Decoder Normalizer PreTokenizer WordPiece Bpe AddedVocab Tokenizer Config ConfigSpec
  Spec PostSpec NormSpec PreSpec AvSpec TzSpec TzProofs WpSpec OffSpec OffProofs RefSpec RefProofs MixSpec HistSpec LenSpec FullSpec PropsConfig PropsAdded PropsLifetime PropsText PropsMixed OutSpec BpeProofs HistProofs DecodableSpec PropsDecodable PropsFinish PropsFull PropsOffsets Env.

Lemma int32_same z : ConfigSpec.int32 z -> Spec.int32 z.
Proof. unfold ConfigSpec.int32, Spec.int32. change (2 ^ 31)%Z with 2147483648%Z. lia. Qed.
Theorem C112_bert : forall load parse path cfg text c t0 w toks cl ch st lo E fuel0,
  source load path cfg (Some text) -> parse text = Some (render c) -> config_ok c -> build c = Ok t0 ->
  cf_model c = Some (CWordPiece w) -> dense (wp_vocab w) -> wp_vocab w <> [] -> cf_norm c = Some (NBert cl ch st lo) -> cf_pre c = Some TBert ->
  cf_added c = Some toks -> Forall (fun x => at_special x = true) toks -> sane t0 -> (forall p, cf_post c = Some p -> specials_ok p) -> ascii_env E ->
  exists t, construct load parse path cfg = Ok t /\
  forall h s add, Forall simple_token (toks ++ given h) -> one_flag (toks ++ given h) -> s <> [] -> Forall printable s ->
  exists words rs, text_words (wp_vocab w) (toks ++ given h) (fun c => if lo then lower_ascii c else c) (e_u_space E) (e_u_punct E) s words /\ words_rows w 0 words rs /\
    ((Z.of_nat (length rs) < 2 ^ 31)%Z -> (forall k, k <= length rs -> (Z.of_nat (tz_post_length t0 add k) < 2 ^ 31)%Z) ->
     exists r, (forall fuel, length rs + 2 <= fuel -> snd (encode E fuel (after E fuel0 t h) s add) = Ok r) /\ parallel r /\ finished t0 add rs (rows r)).
Proof.
  intros load parse path cfg text c t0 w toks cl ch st lo E fuel0 Hs Hp Hok Hb Hm Hd Hne Hn Hpre Ha Hspec Hsane Hsp HE.
  assert (Ht0 : t0 = mkTz (cf_trunc c) (cf_pad c) (Some (new_added_vocab toks)) (Some (NBert cl ch st lo)) (Some TBert) (Some (MWordPiece w)) (cf_dec c) (cf_post c)).
  { unfold build in Hb. rewrite Hm, Ha, Hn, Hpre in Hb. cbn [build_model bind option_map] in Hb. injection Hb as <-. reflexivity. }
  assert (Ha0 : tz_av t0 = Some (new_added_vocab toks)) by (rewrite Ht0; reflexivity). assert (Hm0 : tz_model t0 = Some (MWordPiece w)) by (rewrite Ht0; reflexivity).
  destruct (proj1 (C45_construction t0 toks (MWordPiece w) Ha0 Hm0 Hd Hne)) as (t & Hc).
  { apply Forall_forall. intros x Hx. right. exists x. split; [exact Hx|]. split; [exact (proj1 (Forall_forall _ _) Hspec x Hx) | reflexivity]. }
  exists t. split; [rewrite (C79_construct load parse path cfg text c t0 Hs Hp Hok Hb); exact Hc|].
  intros h s add Hst Hof Hs0 Hpr.
  destruct (C38_lifetime E fuel0 t0 (MWordPiece w) toks t Hd Hne Ha0 Hm0 ltac:(discriminate) Hc h) as ((av & A1 & A2) & (m & M1 & M2) & S1). cbn [same_model model_vocab] in *.
  destruct m as [w'|b' c']; [|contradiction]. subst w'. remember (after E fuel0 t h) as u eqn:Hu. destruct S1 as (S1 & S2 & S3 & S4 & S5 & S6).
  assert (U3 : tz_norm u = Some (NBert cl ch st lo)) by (rewrite S3, Ht0; reflexivity). assert (U4 : tz_pre u = Some TBert) by (rewrite S4, Ht0; reflexivity).
  destruct (C89_reference_added E 0 u w av (toks ++ given h) cl ch st lo s add HE Hd Hne A2 Hst Hof A1 U3 U4 M1 Hs0 Hpr) as (core & words & H1 & H2 & H3 & H4 & H5).
  exists words, (rows core). split; [exact H4|]. split; [exact H5|]. rewrite rows_length by exact H3. intros Hl Hk.
  destruct Hok as (Kt & Kp & _).
  destruct (sane_finishes E u s add core H1) as (r & R1 & R2 & R3).
  - split; intros x Hx; [rewrite S1, Ht0 in Hx; cbn [tz_trunc] in Hx; rewrite Hx in Kt; exact (int32_same _ (proj1 Kt)) | rewrite S2, Ht0 in Hx; cbn [tz_pad] in Hx; rewrite Hx in Kp; destruct Kp as (_ & _ & K3 & K4 & _); split; apply int32_same; assumption].
  - intros tr Hx. rewrite S1, Ht0 in Hx. cbn [tz_trunc] in Hx. rewrite Hx in Kt. exact (int32_same _ (proj2 Kt)).
  - destruct Hsane as [Q1 Q2]. split; [intros tr Hx; apply Q1; congruence | intros p Hx; apply Q2; congruence].
  - intros p Hx. apply Hsp. rewrite S6, Ht0 in Hx. exact Hx.
  - exact Hl.
  - intros k Hk'. specialize (Hk k Hk'). unfold tz_post_length in *. rewrite S6. exact Hk.
  - exists r. split; [exact R1|]. split; [exact R2|]. unfold finished in *. rewrite S1, S2, S6 in R3. exact R3.
Qed.
Print Assumptions C112_bert.

(** From any configuration with special added tokens: whatever encode returns at any time can be decoded at any later time, when the ids of the template and of the padding are in the vocabulary. *)
Theorem C112_decodes : forall load parse path cfg text c t0 m0 toks d E fuel0,
  source load path cfg (Some text) -> parse text = Some (render c) -> config_ok c -> build c = Ok t0 -> pq_ok E ->
  tz_model t0 = Some m0 -> dense (model_vocab m0) -> model_vocab m0 <> [] -> cf_added c = Some toks -> Forall (fun x => at_special x = true) toks -> cf_dec c = Some d ->
  (forall p, cf_post c = Some p -> specials_ok p /\ forall st i, In st (declared p) -> In i (st_ids st) -> exists x, In (x, i) (model_vocab m0)) ->
  (forall p, cf_pad c = Some p -> exists x, In (x, p_id p) (model_vocab m0)) ->
  exists t, construct load parse path cfg = Ok t /\
  forall h h' fuel s add r x skip, snd (encode E fuel (after E fuel0 t h) s add) = Ok r -> part r x -> exists out, decode (after E fuel0 t (h ++ h')) (en_ids x) skip = Ok out.
Proof.
  intros load parse path cfg text c t0 m0 toks d E fuel0 Hs Hp Hok Hb HQ Hm0 Hd Hne Ha Hspec Hdec Hpost Hpad.
  assert (HB : tz_av t0 = Some (new_added_vocab toks) /\ tz_dec t0 = Some d /\ tz_post t0 = cf_post c /\ tz_pad t0 = cf_pad c /\ forall b k, m0 = MBpe b k -> k = [] /\ exists vocab merges dr unk pre suf fu bf ig, new_bpe vocab merges dr unk pre suf fu bf ig = Ok b).
  { unfold build in Hb. apply bind_ok in Hb as (m & Hm & Hb). injection Hb as <-. cbn [tz_av tz_dec tz_post tz_pad tz_model] in *. rewrite Ha, Hdec. subst m. repeat (split; [reflexivity|]). intros b k Hbk. subst m0.
    destruct (cf_model c) as [[w|v ms dr u pre suf fu bf ig]|]; cbn [build_model bind] in Hm; [discriminate | | discriminate].
    apply bind_ok in Hm as (m' & Hm' & Hm). injection Hm as ->. apply bind_ok in Hm' as (b' & Hn & Hm'). injection Hm' as <- <-. split; [reflexivity | eauto 12]. }
  destruct HB as (Ha0 & Hd0 & Hp0 & Hpd0 & Hbpe).
  destruct (proj1 (C45_construction t0 toks m0 Ha0 Hm0 Hd Hne)) as (t & Hc).
  { apply Forall_forall. intros x Hx. right. exists x. split; [exact Hx|]. split; [exact (proj1 (Forall_forall _ _) Hspec x Hx) | reflexivity]. }
  exists t. split; [rewrite (C79_construct load parse path cfg text c t0 Hs Hp Hok Hb); exact Hc|].
  intros h h' fuel s add r x skip Hr Hx.
  destruct (C38_lifetime E fuel0 t0 m0 toks t Hd Hne Ha0 Hm0 (fun b k H => proj1 (Hbpe b k H)) Hc h) as ((av & A1 & A2) & (m & M1 & M2) & S1).
  destruct (C38_lifetime E fuel0 t0 m0 toks t Hd Hne Ha0 Hm0 (fun b k H => proj1 (Hbpe b k H)) Hc (h ++ h')) as ((av' & A1' & A2') & (m' & M1' & M2') & S1').
  destruct S1 as (_ & S2 & _ & _ & _ & S6). destruct S1' as (_ & _ & _ & _ & S5' & _).
  assert (HV : forall k, same_model E m0 k -> model_vocab k = model_vocab m0) by (intros k Hk; destruct m0, k; cbn in Hk |- *; try contradiction; [congruence | destruct Hk; congruence]).
  assert (HK : forall i y, In (y, i) (model_vocab m0) -> known (model_vocab m0) av' i) by (intros i y Hi; apply (entry_known _ _ _ m0 i y Hd Hne A2' eq_refl); left; exact Hi).
  eapply (C108_decodes E fuel (after E fuel0 t h) m s add r (model_vocab m0) (toks ++ given (h ++ h')) av' (after E fuel0 t (h ++ h')) m' d HQ); try assumption.
  - intros b k Hk. rewrite M1 in Hk. injection Hk as ->. destruct m0 as [w0|b0 k0]; [contradiction|]. destruct M2 as [<- M2]. split; [exact M2 | exact (proj2 (Hbpe b0 k0 eq_refl))].
  - intros p Hpp. rewrite S6, Hp0 in Hpp. exact (proj1 (Hpost p Hpp)).
  - apply HV; exact M2.
  - apply HV; exact M2'.
  - congruence.
  - intros _ st i Hst Hi. unfold tz_specials in Hst. rewrite S6, Hp0 in Hst. destruct (cf_post c) as [p|]; [|destruct Hst]. destruct (proj2 (Hpost p eq_refl) st i Hst Hi) as [y Hy]. exact (HK _ _ Hy).
  - intros p Hpp. rewrite S2, Hpd0 in Hpp. destruct (Hpad p Hpp) as [y Hy]. exact (HK _ _ Hy).
Qed.
Print Assumptions C112_decodes.

(** *** A case *)
(** A small bert-base-uncased: the five usual special tokens, the template [CLS] $A [SEP], truncation to 8, padding to the longest. *)
Definition base_vocab : smap Z := [(str "[PAD]", 0); (str "[UNK]", 1); (str "[CLS]", 2); (str "[SEP]", 3); (str "[MASK]", 4); (str "play", 5); (str "##ing", 6); (str "chess", 7); (str "!", 8)]%Z.
Definition base_special (i : Z) (s : bytes) : added_token := mkAt i s false false false false true.
Definition base_tokens : list added_token := [base_special 0 (str "[PAD]"); base_special 1 (str "[UNK]"); base_special 2 (str "[CLS]"); base_special 3 (str "[SEP]"); base_special 4 (str "[MASK]")].
Definition base_config : config :=
  mkConfig (Some (mkTrunc TRight LongestFirst 8 0)) (Some (mkPad PRight BatchLongest (-1) 0 0 (str "[PAD]") 4)) (Some base_tokens) (Some (NBert true true true true)) (Some TBert)
    (Some (CWordPiece (mkWp base_vocab (str "[UNK]") 100 (str "##")))) (Some (DWordPiece (str "##") true))
    (Some (PTemplate [mkPiece (str "SpecialToken") (str "[CLS]") 0; mkPiece (str "Sequence") (str "A") 0; mkPiece (str "SpecialToken") (str "[SEP]") 0]
                     [mkSpecial (str "[CLS]") [2%Z] [str "[CLS]"]; mkSpecial (str "[SEP]") [3%Z] [str "[SEP]"]])).
Definition base_history : list call := [CallEncode (str "chess") true; CallAddTokens [mkAt 0 (str "chess") false false false true false]; CallDecode [5; 6]%Z true].
Example C112_case : exists t0, build base_config = Ok t0 /\ config_ok base_config /\ dense base_vocab /\ Forall (fun x => at_special x = true) base_tokens /\ sane t0 /\ ascii_env test_env /\
  Forall simple_token (base_tokens ++ given base_history) /\ one_flag (base_tokens ++ given base_history) /\ Forall printable (str "Playing [MASK] CHESSchess!") /\
  exists t, construct (fun _ => None) (fun _ => Some (render base_config)) [] (str "{}") = Ok t /\
  exists r, snd (encode test_env 20 (after test_env 10 t base_history) (str "Playing [MASK] CHESSchess!") true) = Ok r /\
    en_tokens r = map str ["[CLS]"; "play"; "##ing"; "[MASK]"; "chess"; "chess"; "!"; "[SEP]"] /\ en_ids r = [2; 5; 6; 4; 7; 7; 8; 3]%Z /\
    en_offsets r = [(0, 0); (0, 4); (4, 7); (8, 14); (15, 20); (20, 25); (25, 26); (0, 0)] /\
    decode (after test_env 10 t base_history) (en_ids r) true = Ok (str "playing chess chess!") /\ decode (after test_env 10 t base_history) (en_ids r) false = Ok (str "[CLS] playing [MASK] chess chess! [SEP]").
Proof.
  eexists. split; [reflexivity|]. split; [|split; [|split; [|split; [|split; [|split; [|split; [|split]]]]]]].
  - unfold config_ok, base_config, base_vocab, base_tokens, opt_ok, trunc_ok, pad_ok, model_ok, vocab_ok, dec_ok, post_ok, ConfigSpec.int32, plain. cbn [cf_trunc cf_pad cf_added cf_model cf_dec cf_post t_max t_stride p_id p_type_id p_multiple p_fixed p_strat wp_vocab wp_max map fst snd].
    assert (HP : forall s, forallb (fun b => negb (b =? 34) && negb (b =? 92) && (32 <=? b))%N s = true -> Forall (fun b => b <> 34%N /\ b <> 92%N /\ (32 <= b)%N) s).
    { intros s H. apply Forall_forall. intros b Hb. rewrite forallb_forall in H. specialize (H b Hb). lia. }
    repeat match goal with |- _ /\ _ => split | |- True => exact I | |- Forall _ (_ :: _) => apply Forall_cons | |- Forall _ [] => apply Forall_nil end; cbn [fst snd at_id pc_type st_ids base_special]; try lia; try reflexivity; try (apply HP; reflexivity).
    all: repeat (apply NoDup_cons; [cbn; intuition discriminate|]); try apply NoDup_nil; repeat (apply Forall_cons; [cbn; lia|]); try apply Forall_nil.
  - split; [|split]; vm_compute; repeat (constructor; [cbn; intuition discriminate|]); try constructor. all: repeat (constructor; [vm_compute; split; congruence|]); constructor.
  - repeat constructor.
  - split; intros x [= <-]; cbn; [lia | discriminate].
  - exact test_ascii.
  - repeat (apply Forall_cons || apply Forall_nil); (split; [repeat split|]; split; [discriminate|]); cbv [at_content str base_special]; repeat (apply Forall_cons || apply Forall_nil); reflexivity.
  - intros t t' H H' E. cbn in H, H'. repeat (destruct H as [<-|H]; [repeat (destruct H' as [<-|H']; [try reflexivity; discriminate|]); destruct H'|]). destruct H.
  - cbv [str]. repeat (apply Forall_cons || apply Forall_nil); unfold printable; vm_compute; split; congruence.
  - eexists. split; [vm_compute; reflexivity|]. eexists. split; [vm_compute; reflexivity|]. repeat split.
Qed.
