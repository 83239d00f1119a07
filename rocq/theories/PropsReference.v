(** Whole BERT-style tokenizers against the reference tokenization: C81. *)
From Verif Require Import Base BaseFacts Unicode UnicodeProofs Common Utils PostProcessor Decoder Normalizer PreTokenizer WordPiece Bpe AddedVocab Tokenizer Spec
  NormSpec NormProofs PreSpec PreProofs AvSpec AvProofs ExtractProofs TzSpec TzProofs WpSpec WpProofs OffSpec OffProofs RefSpec RefProofs PropsEncode PropsOffsets PropsPipeline Env.
From Coq Require Import ZifyBool.

(** ** C81 *)
Lemma encode_bare E fuel t s add : snd (encode E fuel (bare t) s add) = text_encoding E t s.
Proof. rewrite encode_text. unfold do_post_process. cbn [bare tz_trunc tz_post tz_pad]. change (text_encoding E (bare t) s) with (text_encoding E t s). destruct (text_encoding E t s); reflexivity. Qed.
Lemma encode_stages E fuel t s add : snd (encode E fuel t s add) = (e <- snd (encode E fuel (bare t) s add) ;; do_post_process fuel t e add).
Proof. rewrite encode_bare. apply encode_text. Qed.

Lemma prepare_in_place E t s n : s <> [] -> forallb valid_cp s = true -> forallb valid_cp n = true -> normalized_in_place E t s n -> exists av junk k,
  prepare E t s = (p2 <- match tz_pre t with Some pt => pre_tokenize E pt (mkPt (numbered_ns (unit_sizes s) junk s) [mkSplit (utf8_encs n) (0, k) []])
                         | None => Ok (mkPt (numbered_ns (unit_sizes s) junk s) [mkSplit (utf8_encs n) (0, k) []]) end ;; Ok (av, p2)).
Proof.
  intros Hne Hv Hvn (Hn & _ & Hsub). unfold prepare, normalized_to in *. unfold new_pretok. rewrite !fresh_numbered in *. cbn [ns_text numbered_ns]. unfold convert_to_string. rewrite Hv. cbn [bind]. destruct (tz_av t) as [av|].
  - destruct Hn as (Hnn & (sub & Hs & Ht) & Hr & Hm). rewrite (Hsub av sub eq_refl Hs) in Hs. rewrite <- fresh_numbered in Hs. destruct (extract_none E av (tz_norm t) s n Hne Hv Hr Hs Hnn Hvn Hm) as (junk & He).
    rewrite He. cbn [bind]. eexists _, junk, (units n). reflexivity.
  - subst n. cbn [bind]. eexists _, [], (length s). reflexivity.
Qed.

Lemma bert_pieces_valid sp pu n : forallb valid_cp n = true -> Forall (fun p => forallb valid_cp (snd p) = true) (bert_pieces sp pu n).
Proof.
  intros Hv. destruct (bert_pieces_words sp pu n) as [HI _]. revert HI. apply Forall_impl. intros p (_ & (post & E) & _). rewrite E in Hv. apply (valid_parts _ _ _ Hv).
Qed.
Lemma combine_located sp pu ns n bases : Forall2 (located_at ns) (bert_pieces sp pu n) bases -> map snd (combine bases (map snd (bert_pieces sp pu n))) = map snd (bert_pieces sp pu n).
Proof. intros H. induction H as [|p b l bs _ _ IH]; [reflexivity|]. cbn [map combine snd]. rewrite IH. reflexivity. Qed.

(** The text of a BERT-style WordPiece tokenizer is encoded exactly as the reference says: encode of the tokenizer without truncation, post-processing and padding always succeeds
    and returns the reference rows of the normalized text, offsets included. *)
Theorem C81_reference : forall E fuel t w s n add, tz_model t = Some (MWordPiece w) -> tz_pre t = Some TBert -> s <> [] -> forallb valid_cp s = true -> forallb valid_cp n = true ->
  normalized_in_place E t s n -> exists r, snd (encode E fuel (bare t) s add) = Ok r /\ en_overflowing r = [] /\ flat_parallel r /\ reference w (e_u_space E) (e_u_punct E) n (rows r).
Proof.
  intros E fuel t w s n add Hm Hp Hne Hv Hvn HN. destruct (prepare_in_place E t s n Hne Hv Hvn HN) as (av & junk & k & Hprep). destruct HN as (_ & Hu & _).
  rewrite Hp in Hprep. cbn [pre_tokenize] in Hprep. rewrite bert_pre_spec in Hprep. cbn [bind pt_norm pt_splits flat_map] in Hprep.
  unfold bert_out in Hprep. cbn [sp_tokens is_nil sp_off fst sp_text] in Hprep. rewrite app_nil_r in Hprep. rewrite decoded_encs in Hprep by exact Hvn.
  set (ns := numbered_ns (unit_sizes s) junk s) in *. set (pieces := bert_pieces (e_u_space E) (e_u_punct E) n) in *.
  assert (HB : forall p ts, In p pieces -> split_base ns (mkSplit (utf8_encs (snd p)) (fst (piece_span p) + 0, snd (piece_span p) + 0) ts) = Ok (units (fst p))).
  { intros p ts Hin. unfold ns. assert (L : units (fst p) < length (unit_sizes s)).
    { rewrite valid_unit_sizes by exact Hv. destruct (bert_pieces_words (e_u_space E) (e_u_punct E) n) as [HI _]. destruct (proj1 (Forall_forall _ _) HI p Hin) as (K1 & (post & K2) & _).
      rewrite K2 in Hu. rewrite !units_app in Hu. destruct p as [pa pb]. cbn [fst snd] in *. pose proof (proj1 (units_0 pb)). destruct (units pb); [exfalso; auto | lia]. }
    rewrite base_numbered; cbn [sp_off fst piece_span]; rewrite ?Nat.add_0_r; [reflexivity | apply unit_sizes_pos | exact L]. }
  destruct (wp_tokenize_ok w (mkPt ns (map (piece_split 0) pieces))) as (l & Hl & HF). cbn [pt_splits pt_norm] in HF, Hl.
  assert (HD : Forall (fun sp => exists base, split_base ns sp = Ok base) l).
  { clear - HF HB. revert l HF HB. induction pieces as [|p ps IH]; intros l HF HB; cbn [map] in HF; inversion HF as [|? x ? l' (A1 & A2 & A3) HF']; subst; constructor.
    - exists (units (fst p)). specialize (HB p [] (or_introl eq_refl)). unfold split_base in *. rewrite A2. exact HB.
    - apply IH; [exact HF' | intros q ts Hq; apply HB; right; exact Hq]. }
  destruct (into_rows_defined ns 0 l HD 0) as (e & He). exists e. rewrite encode_bare.
  assert (Hcore : text_encoding E t s = Ok e) by (unfold text_encoding; rewrite Hprep; cbn [bind]; rewrite Hm; cbn [model_tokenize snd]; rewrite Hl; cbn [bind]; unfold into_encoding; cbn [pt_norm pt_splits]; exact He).
  split; [exact Hcore|]. destruct (into_rows_flat _ _ _ _ _ He) as [F1 F2]. split; [exact F2|]. split; [exact F1|].
  destruct (pieces_rows w ns pieces (bert_pieces_valid _ _ n Hvn) l 0 e HF He) as (bases & B1 & B2). exists (map (fun p => (units (fst p), snd p)) pieces). split; [apply bert_pieces_split|].
  assert (Eb : combine bases (map snd pieces) = map (fun p => (units (fst p), snd p)) pieces); [|exact (eq_ind _ (fun z => words_rows w 0 z (rows e)) B2 _ Eb)].
  clear - B1 HB. revert HB. induction B1 as [|p b ps bs Hb _ IH]; intros HB; [reflexivity|]. cbn [map combine]. rewrite IH by (intros q ts Hq; apply HB; right; exact Hq). f_equal. f_equal.
  specialize (Hb []). rewrite HB in Hb by (left; reflexivity). injection Hb as <-. reflexivity.
Qed.
Print Assumptions C81_reference.

(** The reference determines the rows: no two different lists of rows satisfy it. *)
Theorem C81_reference_unique : forall w sp pu text rs rs', reference w sp pu text rs -> reference w sp pu text rs' -> rs = rs'.
Proof. exact reference_fun. Qed.
Print Assumptions C81_reference_unique.

(** For any other normalizer: whenever encode succeeds, ids, tokens, words, types and masks are those of the reference on the normalized text (offsets may differ). *)
Theorem C81_reference_ids : forall E fuel t w s n add r, tz_model t = Some (MWordPiece w) -> tz_pre t = Some TBert -> s <> [] -> normalized_to E t s n ->
  snd (encode E fuel (bare t) s add) = Ok r -> exists rs, reference w (e_u_space E) (e_u_punct E) n rs /\ Forall2 same_but_offset (rows r) rs.
Proof.
  intros E fuel t w s n add r Hm Hp Hne HN H. rewrite encode_bare in H. pose proof H as H0. unfold text_encoding in H0. apply bind_ok in H0 as ([av' p] & H0 & _).
  assert (K : forallb valid_cp n = true /\ exists a ns k, prepare E t s = (p2 <- match tz_pre t with Some pt => pre_tokenize E pt (mkPt ns [mkSplit (utf8_encs n) (0, k) []]) | None => Ok (mkPt ns [mkSplit (utf8_encs n) (0, k) []]) end ;; Ok (a, p2))).
  { unfold normalized_to in HN. destruct (tz_av t) as [av|] eqn:Eav.
    - destruct HN as (Hnn & (sub & Hs & <-) & Hr & Hnr). destruct (prepare_any E t av s sub av' p Eav Hne Hr Hs H0) as (Hv & Hvn & a & ns & l & P & _ & L). rewrite (L Hnn Hnr) in P. split; [exact Hvn|]. eauto.
    - subst n. clear H. unfold prepare, new_pretok in *. rewrite !fresh_numbered in *. cbn [ns_text numbered_ns] in *. unfold convert_to_string in *. destruct (forallb valid_cp s) eqn:Hv; [|discriminate]. split; [reflexivity|]. cbn [bind] in *. rewrite Eav in *. cbn [bind]. eauto. }
  destruct K as (Hvn & a & ns & k & P). rewrite Hp in P. cbn [pre_tokenize] in P. rewrite bert_pre_spec in P. cbn [bind pt_norm pt_splits flat_map] in P.
  unfold bert_out in P. cbn [sp_tokens is_nil sp_off fst sp_text] in P. rewrite app_nil_r in P. rewrite decoded_encs in P by exact Hvn. set (pieces := bert_pieces (e_u_space E) (e_u_punct E) n) in *.
  unfold text_encoding in H. rewrite P in H. cbn [bind] in H. rewrite Hm in H. cbn [model_tokenize snd] in H.
  destruct (wp_tokenize_ok w (mkPt ns (map (piece_split 0) pieces))) as (l & Hl & HF). cbn [pt_splits pt_norm] in HF, Hl. rewrite Hl in H. cbn [bind] in H. unfold into_encoding in H. cbn [pt_norm pt_splits] in H.
  destruct (pieces_rows w ns pieces (bert_pieces_valid _ _ n Hvn) l 0 r HF H) as (bases & B1 & B2).
  destruct (words_rows_total w (map (fun p => (units (fst p), snd p)) pieces) 0) as (rs & Hrs). { rewrite Forall_map. cbn [snd]. apply bert_pieces_valid. exact Hvn. }
  exists rs. split; [exists (map (fun p => (units (fst p), snd p)) pieces); split; [apply bert_pieces_split | exact Hrs]|].
  eapply words_rows_bases; [exact B2 | | exact Hrs]. rewrite map_map. cbn [snd]. symmetry. unfold pieces. eapply combine_located. exact B1.
Qed.
Print Assumptions C81_reference_ids.
