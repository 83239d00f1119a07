(** Decoding what was encoded: C72. *)
From Verif Require Import Base BaseFacts Unicode UnicodeProofs Common Utils PostProcessor Decoder Normalizer PreTokenizer WordPiece Bpe AddedVocab Tokenizer Spec
  NormSpec NormProofs PreSpec PreProofs AvSpec AvProofs ExtractProofs TzSpec TzProofs WpSpec WpProofs DecSpec DecProofs HistSpec HistProofs OffSpec OffProofs RoundSpec RoundProofs
  PropsEncode PropsHistory PropsOffsets PropsAdded Env.
From Coq Require Import ZifyBool.

(** ** C72 *)
Lemma joined_valid sp pu ws : Forall (plain_word sp pu) ws -> forall x, In x ws -> forallb valid_cp (joined ws) = true -> forallb valid_cp x = true.
Proof.
  intros _ x Hx Hv. apply forallb_forall. intros c Hc. apply (proj1 (forallb_forall _ _) Hv). destruct ws as [|y ws]; [destruct Hx|]. cbn [joined]. apply in_app_iff. destruct Hx as [->|Hx]; [left; exact Hc|].
  right. apply in_flat_map. exists x. split; [exact Hx | right; exact Hc].
Qed.
Lemma joined_bmp ws x : In x ws -> bmp (joined ws) -> bmp x.
Proof.
  intros Hx H. apply Forall_forall. intros c Hc. apply (proj1 (Forall_forall _ _) H). destruct ws as [|y ws]; [destruct Hx|]. cbn [joined]. apply in_app_iff. destruct Hx as [->|Hx]; [left; exact Hc|].
  right. apply in_flat_map. exists x. split; [exact Hx | right; exact Hc].
Qed.
Lemma joined_nonempty sp pu ws : ws <> [] -> Forall (plain_word sp pu) ws -> joined ws <> [].
Proof. intros Hne H. destruct ws as [|x ws]; [congruence|]. inversion H as [|? ? (Hx & _) _]; subst. cbn [joined]. destruct x; [congruence | discriminate]. Qed.

(** The tokens of the text, word by word. *)
Lemma encode_words E t w ws : tz_model t = Some (MWordPiece w) -> tz_pre t = Some TBert -> e_u_space E 32%N = true -> ws <> [] -> Forall (plain_word (e_u_space E) (e_u_punct E)) ws ->
  forallb valid_cp (joined ws) = true -> quiet E t (joined ws) -> Forall (segmentable w) ws -> exists tss core, text_encoding E t (joined ws) = Ok core /\
  Forall2 (fun x ts => greedy (wp_vocab w) (wp_prefix w) (flat_map utf16_enc x) 0 ts) ws tss /\ en_ids core = flat_map (map tk_id) tss /\ en_tokens core = flat_map (map tk_value) tss.
Proof.
  intros Hm Hp Hsp Hne Hws Hv Hq Hseg. pose proof (joined_nonempty _ _ ws Hne Hws) as Hj.
  destruct (C65_defined E t w (joined ws) Hm Hj Hv Hq) as (core & Hcore); [unfold tz_cuts_nonempty; rewrite Hp; exact I|].
  destruct (prepare_quiet E t (joined ws) (fun _ => Hj) Hv Hq) as (av & junk & n & Hprep). rewrite Hp in Hprep. cbn [pre_tokenize] in Hprep. rewrite bert_pre_spec in Hprep. cbn [bind pt_norm pt_splits flat_map] in Hprep.
  unfold bert_out in Hprep. cbn [sp_tokens is_nil sp_off fst sp_text] in Hprep. rewrite app_nil_r in Hprep. rewrite decoded_encs in Hprep by exact Hv.
  pose proof (bert_pieces_joined _ _ ws Hsp Hne Hws) as HP. set (pieces := bert_pieces (e_u_space E) (e_u_punct E) (joined ws)) in *.
  pose proof Hcore as H. unfold text_encoding in H. rewrite Hprep in H. cbn [bind] in H. rewrite Hm in H. cbn [model_tokenize snd] in H.
  destruct (wp_tokenize_ok w (mkPt (numbered_ns (unit_sizes (joined ws)) junk (joined ws)) (map (piece_split 0) pieces))) as (l & Hl & HF). rewrite Hl in H. cbn [bind] in H. cbn [pt_splits] in HF.
  exists (map sp_tokens l), core. split; [exact Hcore|]. unfold into_encoding in H. cbn [pt_norm pt_splits] in H. destruct (into_rows_cols _ _ _ _ _ H) as [C1 C2]. split; [|split; [rewrite C1 | rewrite C2]; rewrite !flat_map_concat_map, map_map; reflexivity].
  assert (HV : forall x, In x ws -> forallb valid_cp x = true) by (intros x Hx; exact (joined_valid _ _ ws Hws x Hx Hv)).
  clear - HF HP Hseg HV. clearbody pieces. revert l HF Hseg HV. rewrite <- HP. clear ws HP. induction pieces as [|p pieces IH]; intros l HF Hseg HV; cbn [map] in HF; inversion HF as [|? s ? l' (A1 & _ & A2) HF']; subst; [constructor|]. cbn [map] in *.
  inversion Hseg as [|? ? (S1 & ts & S2) Hseg']; subst. constructor; [|apply IH; [exact HF' | exact Hseg' | intros x Hx; apply HV; right; exact Hx]].
  cbn [piece_split sp_text] in A2. pose proof (wp_word_spec w (utf8_encs (snd p))) as HS. cbv zeta in HS. rewrite (from_utf8_encs (snd p)) in HS by (apply HV; left; reflexivity). change (length (flat_map utf16_enc (snd p))) with (units (snd p)) in HS.
  destruct HS as (ts' & Hw & [(B & _)|[(_ & Hg)|(_ & Hn & _)]]); [lia | rewrite A2 in Hw; injection Hw as ->; exact Hg | destruct (Hn _ S2)].
Qed.

Lemma vocab_denotes v ops av i s : dense v -> v <> [] -> history v ops av -> sfind s v = Some i -> denotes v av i s.
Proof.
  intros Hd Hne H Hs. apply (history_ok _ _ _ Hd Hne) in H. pose proof (ho_ids _ _ _ H) as I. unfold denotes. destruct (assigned av s) as [j|] eqn:Ea.
  - left. pose proof (io_model _ _ I s j Ea) as Hm. rewrite Hs in Hm. congruence.
  - right. split; [|apply sfind_in; exact Hs]. intros x Hx. pose proof (io_model _ _ I x i Hx) as Hm. destruct (sfind x v) as [j|] eqn:Ex.
    + subst j. assert (x = s); [|congruence]. apply sfind_in in Ex, Hs. destruct Hd as (_ & Hd & _). eapply nodup_snd_inj; eassumption.
    + pose proof (dense_range _ _ _ Hd Hs). lia.
Qed.

(** For a text of words separated by single spaces which WordPiece can write without the unknown token: encode succeeds and decode gives the text back,
    on the tokenizer as it was or as encode leaves it or after any further additions ([t2]); with skip_special_tokens if none of the tokens is special. *)
Theorem C72_round_trip : forall E fuel t w ws add, tz_model t = Some (MWordPiece w) -> dense (wp_vocab w) -> wp_vocab w <> [] ->
  tz_pre t = Some TBert -> tz_trunc t = None -> tz_post t = None -> tz_pad t = None ->
  e_u_space E 32%N = true -> ws <> [] -> Forall (plain_word (e_u_space E) (e_u_punct E)) ws -> forallb valid_cp (joined ws) = true -> quiet E t (joined ws) ->
  Forall (segmentable w) ws -> Forall (fun x => forall r, utf8_encs x <> wp_prefix w ++ r) ws -> whole_chars (wp_vocab w) (joined ws) ->
  exists r, snd (encode E fuel t (joined ws) add) = Ok r /\
  forall t2 ops av skip, tz_model t2 = Some (MWordPiece w) -> tz_av t2 = Some av -> history (wp_vocab w) ops av -> tz_dec t2 = Some (DWordPiece (wp_prefix w) false) ->
  (skip = true -> Forall (fun x => ~ registered_special ops x) (en_tokens r)) -> decode t2 (en_ids r) skip = Ok (utf8_encs (joined ws)).
Proof.
  intros E fuel t w ws add Hm Hd Hvn Hp Htr Hpo Hpa Hsp Hne Hws Hv Hq Hseg Hpre Hwh. destruct (encode_words E t w ws Hm Hp Hsp Hne Hws Hv Hq Hseg) as (tss & core & H1 & H2 & H3 & H4).
  exists core. split; [rewrite encode_text, H1; cbn [bind]; unfold do_post_process; rewrite Htr, Hpo, Hpa; reflexivity|]. intros t2 ops av skip Hm2 Hav Hh Hdec Hskip.
  assert (HD : Forall2 (denotes (wp_vocab w) av) (en_ids core) (en_tokens core)).
  { rewrite H3, H4. clear - H2 Hd Hvn Hh. induction H2 as [|x ts ws tss Hg _ IH]; [constructor|]. cbn [flat_map]. apply Forall2_app; [|exact IH]. destruct (greedy_tiles _ _ _ _ _ Hg) as [_ HF].
    clear - HF Hd Hvn Hh. induction HF as [|y ts [_ Hy] _ IH]; [constructor|]. cbn [map]. constructor; [|exact IH]. eapply vocab_denotes; eassumption. }
  assert (HW : without (fun s => skip = true /\ registered_special ops s) (en_tokens core) (en_tokens core)).
  { clear - Hskip. revert Hskip. induction (en_tokens core) as [|x l IH]; intros H; [constructor|]. apply wo_keep; [intros [Hs Hx]; specialize (H Hs); inversion H; contradiction|]. apply IH. intros Hs. specialize (H Hs). inversion H; assumption. }
  rewrite (C21_decode (wp_vocab w) ops av t2 (MWordPiece w) _ Hd Hvn Hh Hav Hm2 eq_refl Hdec _ _ skip _ HD HW). rewrite H4. apply decode_joined; [exact Hne|].
  assert (HV : forall x, In x ws -> forallb valid_cp x = true) by (intros x Hx; exact (joined_valid _ _ ws Hws x Hx Hv)).
  assert (HWC : forall x, In x ws -> whole_chars (wp_vocab w) x) by (intros x Hx; destruct Hwh as [Hb|Hr]; [left; exact (joined_bmp ws x Hx Hb) | right; exact Hr]).
  clear - H2 HV HWC Hws Hpre. induction H2 as [|x ts ws tss Hg _ IH]; [constructor|]. inversion Hws as [|? ? (Hx & _) Hws']; subst. inversion Hpre as [|? ? Hx' Hpre']; subst.
  constructor; [apply (greedy_decode w x ts Hx (HV x (or_introl eq_refl)) (HWC x (or_introl eq_refl)) Hx' Hg)|]. apply IH; auto; intros y Hy; [apply HV | apply HWC]; right; exact Hy.
Qed.
Print Assumptions C72_round_trip.

(** The hypotheses are met by the small tokenizer and the text "playing , chess playing". *)
Definition demo_wp : wordpiece := mkWp demo_vocab (str "[UNK]") 100 (str "##").
Definition demo_words : list wstr := [str "playing"; str ","; str "chess"; str "playing"].
Lemma segmentable_check w x ts : (Z.of_nat (units x) <= wp_max w)%Z -> forallb valid_cp x = true -> wp_word w (utf8_encs x) = Ok ts -> ts <> [wp_unk_token w (units x)] -> segmentable w x.
Proof.
  intros Hl Hv Hw Hn. pose proof (wp_word_spec w (utf8_encs x)) as HS. cbv zeta in HS. rewrite (from_utf8_encs x Hv) in HS. change (length (flat_map utf16_enc x)) with (units x) in HS.
  destruct HS as (ts' & Hw' & HS). rewrite Hw in Hw'. injection Hw' as <-. split; [exact Hl|]. destruct HS as [(B & _)|[(_ & Hg)|(_ & _ & B)]]; [lia | eexists; exact Hg | congruence].
Qed.
Lemma demo_dense : dense demo_vocab.
Proof.
  split; [|split].
  - repeat constructor; cbn; intuition discriminate.
  - repeat constructor; cbn; intuition lia.
  - repeat constructor; cbn; lia.
Qed.
Lemma demo_history : history demo_vocab [mkAt 1 (str "[CLS]") false false false false true] demo_av.
Proof. eapply (h_new _ _ _ (snd (match av_add_tokens true (new_added_vocab [mkAt 1 (str "[CLS]") false false false false true]) (Some demo_vocab) [mkAt 1 (str "[CLS]") false false false false true] with Ok p => p | _ => (new_added_vocab [], 0%Z) end))). vm_compute. reflexivity. Qed.
Example C72_case : dense (wp_vocab demo_wp) /\ e_u_space test_env 32%N = true /\ Forall (plain_word (e_u_space test_env) (e_u_punct test_env)) demo_words /\
  quiet test_env (demo None None None) (joined demo_words) /\ Forall (segmentable demo_wp) demo_words /\
  Forall (fun x => forall r, utf8_encs x <> wp_prefix demo_wp ++ r) demo_words /\ whole_chars (wp_vocab demo_wp) (joined demo_words) /\
  history (wp_vocab demo_wp) [mkAt 1 (str "[CLS]") false false false false true] demo_av /\
  exists r, snd (encode test_env 10 (demo None None None) (joined demo_words) true) = Ok r /\ en_ids r = [3; 4; 6; 5; 3; 4]%Z /\
    decode (demo None None None) (en_ids r) true = Ok (str "playing , chess playing").
Proof.
  split; [exact demo_dense|]. split; [reflexivity|]. split.
  { repeat (apply Forall_cons; [split; [discriminate|]; split; [repeat constructor; reflexivity|]; first [left; repeat constructor; reflexivity | right; eexists; split; reflexivity]|]). constructor. }
  split; [split; [reflexivity|]; split; apply no_added_check_ok; vm_compute; reflexivity|].
  split. { repeat (apply Forall_cons; [eapply segmentable_check; [vm_compute; discriminate | reflexivity | vm_compute; reflexivity | vm_compute; discriminate]|]). constructor. }
  split. { repeat (apply Forall_cons; [intros r; vm_compute; discriminate|]). constructor. }
  split. { left. repeat constructor. }
  split; [exact demo_history|]. eexists. split; [vm_compute; reflexivity|]. split; vm_compute; reflexivity.
Qed.

(** The tokens of any text, piece by piece. *)
Lemma encode_pieces E t w s : tz_model t = Some (MWordPiece w) -> tz_pre t = Some TBert -> s <> [] -> forallb valid_cp s = true -> quiet E t s ->
  exists tss core, text_encoding E t s = Ok core /\ Forall2 (fun p ts => wp_word w (utf8_encs (snd p)) = Ok ts) (bert_pieces (e_u_space E) (e_u_punct E) s) tss /\
  en_ids core = flat_map (map tk_id) tss /\ en_tokens core = flat_map (map tk_value) tss.
Proof.
  intros Hm Hp Hne Hv Hq.
  destruct (C65_defined E t w s Hm Hne Hv Hq) as (core & Hcore); [unfold tz_cuts_nonempty; rewrite Hp; exact I|].
  destruct (prepare_quiet E t s (fun _ => Hne) Hv Hq) as (av & junk & n & Hprep). rewrite Hp in Hprep. cbn [pre_tokenize] in Hprep. rewrite bert_pre_spec in Hprep. cbn [bind pt_norm pt_splits flat_map] in Hprep.
  unfold bert_out in Hprep. cbn [sp_tokens is_nil sp_off fst sp_text] in Hprep. rewrite app_nil_r in Hprep. rewrite decoded_encs in Hprep by exact Hv.
  set (pieces := bert_pieces (e_u_space E) (e_u_punct E) s) in *.
  pose proof Hcore as H. unfold text_encoding in H. rewrite Hprep in H. cbn [bind] in H. rewrite Hm in H. cbn [model_tokenize snd] in H.
  destruct (wp_tokenize_ok w (mkPt (numbered_ns (unit_sizes s) junk s) (map (piece_split 0) pieces))) as (l & Hl & HF). rewrite Hl in H. cbn [bind] in H. cbn [pt_splits] in HF.
  exists (map sp_tokens l), core. split; [exact Hcore|]. unfold into_encoding in H. cbn [pt_norm pt_splits] in H. destruct (into_rows_cols _ _ _ _ _ H) as [C1 C2]. split; [|split; [rewrite C1 | rewrite C2]; rewrite !flat_map_concat_map, map_map; reflexivity].
  clear - HF. clearbody pieces. revert l HF. induction pieces as [|p pieces IH]; intros l HF; cbn [map] in HF; inversion HF as [|? s0 ? l' (A1 & _ & A2) HF']; subst; [constructor|]. cbn [map].
  constructor; [exact A2 | apply IH; exact HF'].
Qed.

(** Each restriction on the words is needed, in every environment that treats the characters as expected.
    Punctuation inside a word: "a,b" is written with the tokens "a" "," "b", none unknown, and decoded as "a , b". *)
Definition ab_tz (v : smap Z) : tokenizer := mkTz None None (Some (new_added_vocab [])) None (Some TBert) (Some (MWordPiece (mkWp v (str "[UNK]") 100 (str "##")))) (Some (DWordPiece (str "##") false)) None.
Lemma ab_encode E v s pieces ids : s <> [] -> forallb valid_cp s = true -> bert_pieces (e_u_space E) (e_u_punct E) s = pieces ->
  mapM (fun p => wp_word (mkWp v (str "[UNK]") 100 (str "##")) (utf8_encs (snd p))) pieces = Ok ids ->
  forall fuel add, exists r, snd (encode E fuel (ab_tz v) s add) = Ok r /\ en_ids r = flat_map (map tk_id) ids /\ en_tokens r = flat_map (map tk_value) ids.
Proof.
  intros Hne Hv Hp Hi fuel add. destruct (encode_pieces E (ab_tz v) _ s eq_refl eq_refl Hne Hv) as (tss & core & H1 & H2 & H3 & H4).
  { split; [reflexivity|]. split; intros a b i _ _ [] . }
  exists core. split; [rewrite encode_text, H1; reflexivity|]. rewrite Hp in H2. assert (tss = ids); [|subst; auto].
  clear - H2 Hi. revert ids Hi. induction H2 as [|p ts ps tss Ha _ IH]; intros ids Hi; cbn [mapM] in Hi; [congruence|]. rewrite Ha in Hi. cbn [bind] in Hi. apply bind_ok in Hi as (r & Hr & Hi). injection Hi as <-. f_equal. apply IH, Hr.
Qed.
Theorem C72_punctuation_refuted : forall E fuel, e_u_space E 97%N = false -> e_u_space E 98%N = false -> e_u_space E 44%N = false ->
  e_u_punct E 97%N = false -> e_u_punct E 98%N = false -> e_u_punct E 44%N = true ->
  exists t w, tz_model t = Some (MWordPiece w) /\ tz_pre t = Some TBert /\ tz_dec t = Some (DWordPiece (wp_prefix w) false) /\ exists r, snd (encode E fuel t (str "a,b") false) = Ok r /\
  en_tokens r = [str "a"; str ","; str "b"] /\ decode t (en_ids r) false = Ok (str "a , b").
Proof.
  intros E fuel A1 A2 A3 B1 B2 B3. exists (ab_tz [(str "[UNK]", 0); (str "a", 1); (str ",", 2); (str "b", 3)]%Z). eexists. split; [reflexivity|]. split; [reflexivity|]. split; [reflexivity|].
  edestruct (ab_encode E [(str "[UNK]", 0); (str "a", 1); (str ",", 2); (str "b", 3)]%Z (str "a,b")) with (fuel := fuel) (add := false) as (r & H1 & H2 & H3).
  - discriminate.
  - reflexivity.
  - set (sp := e_u_space E) in *. set (pu := e_u_punct E) in *. clearbody sp pu. change (str "a,b") with [97; 44; 98]%N. unfold bert_pieces. cbn. rewrite ?A1, ?A2, ?A3. cbn. rewrite ?B1, ?B2, ?B3. cbn. reflexivity.
  - vm_compute. reflexivity.
  - exists r. split; [exact H1|]. rewrite H2, H3. split; vm_compute; reflexivity.
Qed.
Print Assumptions C72_punctuation_refuted.

(** Half a character: with U+FFFD in the vocabulary both halves of a supplementary character are tokens, and the decoded text is two U+FFFD. *)
Theorem C72_split_character_refuted : forall E fuel, e_u_space E 0x1F600%N = false -> e_u_punct E 0x1F600%N = false ->
  exists t w, tz_model t = Some (MWordPiece w) /\ tz_pre t = Some TBert /\ tz_dec t = Some (DWordPiece (wp_prefix w) false) /\
  segmentable w [0x1F600%N] /\ exists r, snd (encode E fuel t [0x1F600%N] false) = Ok r /\ decode t (en_ids r) false = Ok (utf8_encs [0xFFFD; 0xFFFD]%N).
Proof.
  intros E fuel A B. set (v := [(str "[UNK]", 0%Z); (utf8_enc 0xFFFD, 1%Z); (str "##" ++ utf8_enc 0xFFFD, 2%Z)]). exists (ab_tz v). eexists. split; [reflexivity|]. split; [reflexivity|]. split; [reflexivity|].
  split; [eapply segmentable_check; [vm_compute; discriminate | reflexivity | vm_compute; reflexivity | vm_compute; discriminate]|].
  edestruct (ab_encode E v [0x1F600%N]) with (fuel := fuel) (add := false) as (r & H1 & H2 & H3).
  - discriminate.
  - reflexivity.
  - set (sp := e_u_space E) in *. set (pu := e_u_punct E) in *. clearbody sp pu. unfold bert_pieces. cbn. rewrite ?A. cbn. rewrite ?B. cbn. reflexivity.
  - vm_compute. reflexivity.
  - exists r. split; [exact H1|]. rewrite H2. vm_compute. reflexivity.
Qed.
Print Assumptions C72_split_character_refuted.

(** A word that begins with the continuation prefix: "a ##b" is decoded as "ab". *)
Theorem C72_prefix_word_refuted : forall E fuel, e_u_space E 35%N = false -> e_u_space E 98%N = false -> e_u_space E 97%N = false -> e_u_punct E 35%N = false -> e_u_punct E 97%N = false -> e_u_punct E 98%N = false -> e_u_space E 32%N = true ->
  exists t w, tz_model t = Some (MWordPiece w) /\ tz_pre t = Some TBert /\ tz_dec t = Some (DWordPiece (wp_prefix w) false) /\
  Forall (plain_word (e_u_space E) (e_u_punct E)) [str "a"; str "##b"] /\ Forall (segmentable w) [str "a"; str "##b"] /\
  exists r, snd (encode E fuel t (joined [str "a"; str "##b"]) false) = Ok r /\ decode t (en_ids r) false = Ok (str "ab").
Proof.
  intros E fuel A1 A2 A3 B1 B2 B3 A4. set (v := [(str "[UNK]", 0%Z); (str "##b", 1%Z); (str "a", 2%Z)]). exists (ab_tz v). eexists. split; [reflexivity|]. split; [reflexivity|]. split; [reflexivity|].
  split. { repeat (apply Forall_cons; [split; [discriminate|]; split; [repeat constructor; assumption | left; repeat constructor; assumption]|]). constructor. }
  split. { repeat (apply Forall_cons; [eapply segmentable_check; [vm_compute; discriminate | reflexivity | vm_compute; reflexivity | vm_compute; discriminate]|]). constructor. }
  edestruct (ab_encode E v (str "a ##b")) with (fuel := fuel) (add := false) as (r & H1 & H2 & H3).
  - discriminate.
  - reflexivity.
  - set (sp := e_u_space E) in *. set (pu := e_u_punct E) in *. clearbody sp pu. change (str "a ##b") with [97; 32; 35; 35; 98]%N. unfold bert_pieces. cbn. rewrite ?A1, ?A2, ?A3, ?A4. cbn. rewrite ?B1, ?B2, ?B3. cbn. reflexivity.
  - vm_compute. reflexivity.
  - exists r. split; [exact H1|]. rewrite H2. vm_compute. reflexivity.
Qed.
Print Assumptions C72_prefix_word_refuted.
Example C72_env : e_u_space test_env 97%N = false /\ e_u_space test_env 44%N = false /\ e_u_punct test_env 44%N = true /\ e_u_space test_env 0x1F600%N = false /\ e_u_punct test_env 0x1F600%N = false.
Proof. vm_compute. auto. Qed.
