(** BPE tokenizers over whole texts: C93. *)
From Verif Require Import Base BaseFacts Unicode UnicodeProofs Common Utils PostProcessor Decoder Normalizer PreTokenizer WordPiece Bpe AddedVocab Tokenizer Spec
  NormSpec NormProofs PreSpec PreProofs AvSpec AvProofs ExtractProofs TzSpec TzProofs WpSpec WpProofs OffSpec OffProofs RefSpec RefProofs TextProofs BpeSpec BpeProofs BpeWord PropsBpe UnkSpec PropsUnknown BpeRefSpec
  PropsEncode PropsOffsets PropsPipeline PropsReference PropsText Env Sample.
From Coq Require Import ZifyBool ZifyNat.

(** ** C93 *)
Lemma whole_dec b x : (exists i, whole_word b x i) \/ (forall i, ~ whole_word b x i).
Proof.
  unfold whole_word. destruct (b_ignore_merges b); [|right; intros i (H & _); discriminate]. destruct (QArith_base.Qeq_bool (b_dropout b) (QArith_base.Qmake 0 1)) eqn:Eq.
  - apply QArith_base.Qeq_bool_iff in Eq. destruct (sfind (utf8_encs x) (b_vocab b)) as [i|]; [left; exists i; auto | right; intros i (_ & _ & H); discriminate].
  - right. intros i (_ & H & _). apply QArith_base.Qeq_bool_iff in H. congruence.
Qed.
Lemma not_whole b x : (forall i, ~ whole_word b x i) -> not_direct b (utf8_encs x) \/ ~ no_dropout b.
Proof.
  intros H. destruct (QArith_base.Qeq_bool (b_dropout b) (QArith_base.Qmake 0 1)) eqn:Eq; [left | right; intros K; apply QArith_base.Qeq_bool_iff in K; congruence].
  intros Hi. destruct (sfind (utf8_encs x) (b_vocab b)) as [i|] eqn:Ef; [|reflexivity]. exfalso. apply (H i). split; [exact Hi|]. split; [apply QArith_base.Qeq_bool_iff; exact Eq | exact Ef].
Qed.
Lemma whole_result E b x i : whole_word b x i -> snd (bpe_word E b [] (utf8_encs x)) = Ok [mkTok i (utf8_encs x) (0, 0)].
Proof. intros (H1 & H2 & H3). unfold bpe_word. rewrite (proj2 (QArith_base.Qeq_bool_iff _ _) H2). unfold tokenize_with_cache. rewrite H1, H3. reflexivity. Qed.

Section BpeText.
Context (E : env) (b : bpe) (vocab : smap Z) (merges : list bytes) (d : QArith_base.Q) (unk pre suf : bytes) (fu bf ig : bool).
Hypothesis Hq : pq_ok E.
Hypothesis Hb : new_bpe vocab merges d unk pre suf fu bf ig = Ok b.

Lemma word_cases x : (encodable b x /\ exists ts, snd (bpe_word E b [] (utf8_encs x)) = Ok ts /\ bpe_tokens b x ts) \/ (~ encodable b x /\ snd (bpe_word E b [] (utf8_encs x)) = Undef OobIndex).
Proof.
  destruct (whole_dec b x) as [[i Hi]|Hn].
  - left. split; [left; eauto|]. eexists. split; [apply whole_result; exact Hi | apply bt_whole; exact Hi].
  - pose proof (not_whole b x Hn) as Hd. destruct (C31_accounting E vocab merges d unk pre suf fu bf ig b [] (utf8_encs x) Hq Hb (reach_empty E b) Hd) as [A1 A2].
    destruct (Nat.eq_dec (covered b (utf8_encs x)) 0) as [Hz|Hz].
    + right. split; [|apply A1; exact Hz]. intros [[i Hi]|H]; [apply (Hn i Hi) | lia].
    + left. split; [right; lia|]. destruct (A2 ltac:(lia)) as (ts & T1 & T2 & T3). exists ts. split; [exact T1|].
      destruct (word_ok E b [] (utf8_encs x) ts Hq (reach_empty E b) Hd T1) as (Hi & w & Hw & _ & Hts).
      destruct (C35_ids_resolve E vocab merges d unk pre suf fu bf ig b [] (utf8_encs x) Hq Hb (reach_empty E b) Hi) as (ts' & T1' & T4). assert (ts' = ts) by congruence. subst ts'.
      destruct (merge_word_spec E b (utf8_encs x) Hq) as [[H1 _]|[_ (w' & Hw' & Hs & Hz' & _)]]; [contradiction|]. assert (w' = w) by congruence. subst w'.
      apply bt_merged with (start := initial b (utf8_encs x)).
      * exact Hn.
      * apply C33_initial_symbols.
      * exact Hi.
      * rewrite Hts. exact Hs.
      * intros Hdr. rewrite Hts. apply Hz'. intros k. apply dropped_zero, QArith_base.Qeq_bool_iff. exact Hdr.
      * rewrite <- (steps_total_len _ _ _ Hs), <- Hts, T2. exact T3.
      * pose proof Hb as Hb'. apply new_bpe_vocab in Hb' as (_ & <- & _). exact T4.
Qed.

Definition runs (x : wstr) (ts : list token) : Prop := snd (bpe_word E b [] (utf8_encs x)) = Ok ts.
Lemma words_cases : forall (l : list (wstr * (nat * nat))),
  (Forall (fun p => encodable b (fst p)) l /\ exists out, plain_words E b (map (fun p => mkSplit (utf8_encs (fst p)) (snd p) []) l) = Ok out /\
     Forall2 (fun p s => sp_off s = snd p /\ runs (fst p) (sp_tokens s)) l out) \/
  (~ Forall (fun p => encodable b (fst p)) l /\ plain_words E b (map (fun p => mkSplit (utf8_encs (fst p)) (snd p) []) l) = Undef OobIndex).
Proof.
  induction l as [|[x o] l IH]; [left; split; [constructor | exists []; split; [reflexivity | constructor]]|]. cbn [map]. unfold plain_words. cbn [mapM]. fold (plain_words E b (map (fun p => mkSplit (utf8_encs (fst p)) (snd p) []) l)). cbn [sp_text sp_off fst snd].
  destruct (word_cases x) as [(Hx & ts & T1 & T2)|(Hx & T1)]; rewrite T1; cbn [bind].
  - destruct IH as [(Hl & out & O1 & O2)|(Hl & O1)]; rewrite O1; cbn [bind].
    + left. split; [constructor; assumption|]. eexists. split; [reflexivity|]. constructor; [split; [reflexivity | exact T1] | exact O2].
    + right. split; [intros H; inversion H; contradiction | reflexivity].
  - right. split; [intros H; inversion H; contradiction | reflexivity].
Qed.

(** rows of splits whose base is their offset *)
Lemma bpe_into_rows ns : forall l out i, Forall2 (fun p s => sp_off s = snd p /\ runs (fst p) (sp_tokens s)) l out ->
  Forall (fun p : wstr * (nat * nat) => forall tx ts, split_base ns (mkSplit tx (snd p) ts) = Ok (fst (snd p))) l ->
  exists e, into_rows ns 0 i out = Ok e /\ rows_of_words runs i (map (fun p => (fst (snd p), fst p)) l) (rows e).
Proof.
  intros l out i H. revert i. induction H as [|[x o] s l out [A1 A2] _ IH]; intros i HB; [eexists; split; [reflexivity | constructor]|].
  inversion HB as [|? ? B1 B2]; subst. cbn [fst snd] in *. destruct (IH (S i) B2) as (e & E1 & E2). cbn [into_rows].
  assert (Hs : split_base ns s = Ok (fst o)) by (specialize (B1 [] []); unfold split_base in *; cbn [sp_off] in B1; rewrite A1; exact B1).
  rewrite Hs. cbn [bind]. rewrite E1. cbn [bind]. eexists. split; [reflexivity|]. rewrite rows_append by apply split_rows_flat. rewrite split_rows_rows. cbn [map fst snd]. apply rw_cons; assumption.
Qed.

Lemma bpe_text fuel t c s n l add : tz_model t = Some (MBpe b c) -> reach_cache E b c -> s <> [] -> forallb valid_cp s = true -> forallb valid_cp n = true ->
  normalized_in_place E t s n -> text_words (tz_pre t) (e_u_space E) (e_u_punct E) n l ->
  (Forall (fun p => encodable b (snd p)) l /\ exists r, snd (encode E fuel (bare t) s add) = Ok r /\ en_overflowing r = [] /\ flat_parallel r /\ rows_of_words runs 0 l (rows r)) \/
  (~ Forall (fun p => encodable b (snd p)) l /\ snd (encode E fuel (bare t) s add) = Undef OobIndex).
Proof.
  intros Hm Hr Hne Hv Hvn HN HW. destruct (prepare_in_place E t s n Hne Hv Hvn HN) as (av & junk & k & Hprep). destruct HN as (_ & Hu & _).
  set (ns := numbered_ns (unit_sizes s) junk s) in *.
  assert (K : exists q, prepare E t s = Ok (av, mkPt ns (map (fun p => mkSplit (utf8_encs (fst p)) (snd p) []) q)) /\ map (fun p => (fst (snd p), fst p)) q = l /\
    Forall (fun p : wstr * (nat * nat) => forall tx ts, split_base ns (mkSplit tx (snd p) ts) = Ok (fst (snd p))) q).
  { unfold text_words in HW. destruct (tz_pre t) as [[]|]; try contradiction.
    - cbn [pre_tokenize] in Hprep. rewrite bert_pre_spec in Hprep. cbn [bind pt_norm pt_splits flat_map] in Hprep.
      unfold bert_out in Hprep. cbn [sp_tokens is_nil sp_off fst sp_text] in Hprep. rewrite app_nil_r in Hprep. rewrite decoded_encs in Hprep by exact Hvn.
      exists (map (fun p => (snd p, (fst (piece_span p) + 0, snd (piece_span p) + 0))) (bert_pieces (e_u_space E) (e_u_punct E) n)).
      split; [rewrite Hprep, map_map; reflexivity|]. split.
      + rewrite map_map. cbn [fst snd]. rewrite <- (bert_split_fun _ _ _ _ _ (bert_pieces_split (e_u_space E) (e_u_punct E) n) _ HW). apply map_ext. intros [pa pb]. cbn [piece_span fst snd]. rewrite Nat.add_0_r. reflexivity.
      + apply Forall_map. apply Forall_forall. intros p Hin tx ts. cbn [fst snd]. unfold ns. assert (L : units (fst p) < length (unit_sizes s)).
        { rewrite valid_unit_sizes by exact Hv. destruct (bert_pieces_words (e_u_space E) (e_u_punct E) n) as [HI _]. destruct (proj1 (Forall_forall _ _) HI p Hin) as (K1 & (post & K2) & _).
          rewrite K2 in Hu. rewrite !units_app in Hu. destruct p as [pa pb]. cbn [fst snd] in *. pose proof (proj1 (units_0 pb)). destruct (units pb); [exfalso; auto | lia]. }
        rewrite base_numbered; cbn [sp_off fst piece_span]; rewrite ?Nat.add_0_r; [reflexivity | apply unit_sizes_pos | exact L].
    - cbn [bind] in Hprep. exists [(n, (0, k))]. split; [exact Hprep|]. split; [symmetry; exact HW|]. constructor; [|constructor]. intros tx ts. cbn [fst snd]. unfold ns. apply base_numbered; [apply unit_sizes_pos|].
      cbn [sp_off fst]. rewrite valid_unit_sizes by exact Hv. pose proof (proj1 (units_0 s)). destruct (units s); [exfalso; auto | lia]. }
  destruct K as (q & Hp & <- & HB). rewrite encode_bare. unfold text_encoding. rewrite Hp. cbn [bind]. rewrite Hm.
  assert (Hmt : forall p, snd (model_tokenize E (MBpe b c) p) = snd (bpe_tokenize E b c p)) by (intros p; cbn [model_tokenize]; destruct (bpe_tokenize E b c p); reflexivity).
  rewrite Hmt, (proj1 (bpe_tokenize_transparent E b c _ (reach_cache_ok E b c Hr))). cbn [pt_splits pt_norm].
  rewrite Forall_map. cbn [snd]. destruct (words_cases q) as [(Hl & out & O1 & O2)|(Hl & O1)]; rewrite O1; cbn [bind].
  - left. split; [exact Hl|]. destruct (bpe_into_rows ns q out 0 O2 HB) as (e & E1 & E2). exists e. unfold into_encoding. cbn [pt_norm pt_splits]. split; [exact E1|]. destruct (into_rows_flat _ _ _ _ _ E1) as [F1 F2]. auto.
  - right. split; [exact Hl | reflexivity].
Qed.
End BpeText.

Lemma words_weaken (P Q : wstr -> list token -> Prop) l : forall i rs, (forall p ts, In p l -> P (snd p) ts -> Q (snd p) ts) -> rows_of_words P i l rs -> rows_of_words Q i l rs.
Proof.
  intros i rs HPQ H. induction H as [|i pos x l ts rs Ht H IH]; constructor; [apply (HPQ (pos, x) ts (or_introl eq_refl) Ht) | apply IH; intros p ts' Hp; apply HPQ; right; exact Hp].
Qed.


(** The text of a BPE tokenizer is encoded word by word as the reference says, whenever every word has something in the vocabulary. *)
Theorem C93_reference : forall E fuel t vocab merges d unk pre suf fu bf ig b c s n l add, pq_ok E -> new_bpe vocab merges d unk pre suf fu bf ig = Ok b ->
  tz_model t = Some (MBpe b c) -> reach_cache E b c -> s <> [] -> forallb valid_cp s = true -> forallb valid_cp n = true -> normalized_in_place E t s n ->
  text_words (tz_pre t) (e_u_space E) (e_u_punct E) n l -> Forall (fun p => encodable b (snd p)) l ->
  exists r, snd (encode E fuel (bare t) s add) = Ok r /\ en_overflowing r = [] /\ flat_parallel r /\ rows_of_words (bpe_tokens b) 0 l (rows r).
Proof.
  intros E fuel t vocab merges d unk pre suf fu bf ig b c s n l add Hq Hb Hm Hr Hne Hv Hvn HN HW Hl.
  destruct (bpe_text E b vocab merges d unk pre suf fu bf ig Hq Hb fuel t c s n l add Hm Hr Hne Hv Hvn HN HW) as [[_ (r & R1 & R2 & R3 & R4)]|[H _]]; [|contradiction].
  exists r. split; [exact R1|]. split; [exact R2|]. split; [exact R3|]. eapply words_weaken; [|exact R4]. intros [pos x] ts _ Hx. cbn [snd] in *. unfold runs in Hx.
  destruct (word_cases E b vocab merges d unk pre suf fu bf ig Hq Hb x) as [(_ & ts' & T1 & T2)|(_ & T1)]; [|congruence]. assert (ts' = ts) by congruence. subst ts'. exact T2.
Qed.
Print Assumptions C93_reference.
(** And it can be encoded only then: otherwise encode reads outside an empty word, with and without special tokens, truncation, post-processing and padding. *)
Theorem C93_undefined : forall E fuel t vocab merges d unk pre suf fu bf ig b c s n l add, pq_ok E -> new_bpe vocab merges d unk pre suf fu bf ig = Ok b ->
  tz_model t = Some (MBpe b c) -> reach_cache E b c -> s <> [] -> forallb valid_cp s = true -> forallb valid_cp n = true -> normalized_in_place E t s n ->
  text_words (tz_pre t) (e_u_space E) (e_u_punct E) n l -> Exists (fun p => ~ encodable b (snd p)) l ->
  snd (encode E fuel t s add) = Undef OobIndex.
Proof.
  intros E fuel t vocab merges d unk pre suf fu bf ig b c s n l add Hq Hb Hm Hr Hne Hv Hvn HN HW Hl.
  destruct (bpe_text E b vocab merges d unk pre suf fu bf ig Hq Hb fuel t c s n l add Hm Hr Hne Hv Hvn HN HW) as [[H _]|[_ H]]; [exfalso; revert Hl; apply Forall_Exists_neg; eapply Forall_impl; [|exact H]; cbn; auto|].
  rewrite encode_stages, H. reflexivity.
Qed.
Print Assumptions C93_undefined.
(** Every text has its words, so the two cases are all there are. *)
Theorem C93_words : forall pre sp pu n, pre = Some TBert \/ pre = None -> exists l, text_words pre sp pu n l /\ forall l', text_words pre sp pu n l' -> l' = l.
Proof.
  intros pre sp pu n [-> | ->]; cbn [text_words].
  - destruct (bert_split_total sp pu (length n) n 0 (le_n _)) as (l & Hl). exists l. split; [exact Hl|]. intros l' H'. eapply bert_split_fun; eassumption.
  - eexists. split; [reflexivity|]. auto.
Qed.
Print Assumptions C93_words.
(** With an unknown token in the vocabulary every text can be encoded. *)
Lemma covered_unk b s u : unk_id b = Some u -> s <> [] -> 0 < covered b s.
Proof.
  intros Hu Hs. unfold covered, pieces. destruct s as [|x s]; [congruence|]. cbn [length seq combine map fold_right fst snd].
  assert (0 < piece_weight b (piece_at (b_prefix b) (b_suffix b) (S (length s)) 0 x)); [|lia]. unfold piece_weight. destruct (sfind _ (b_vocab b)); [lia|]. rewrite Hu. destruct (length _); lia.
Qed.
Lemma utf8_encs_nonempty x : x <> [] -> utf8_encs x <> [].
Proof. destruct x as [|c x]; [congruence|]. intros _. cbn [utf8_encs flat_map]. unfold utf8_enc. destruct (c <? 128)%N, (c <? 2048)%N, (c <? 65536)%N; discriminate. Qed.
Lemma words_nonempty pre sp pu n l : n <> [] -> text_words pre sp pu n l -> Forall (fun p => snd p <> []) l.
Proof.
  unfold text_words. destruct pre as [[]|]; try contradiction; intros Hn H; [|subst l; constructor; [exact Hn | constructor]].
  clear Hn. induction H as [pos|pos c s l Hs H IH|pos c s l Hs Hp H IH|pos x s l Hx HF Hm H IH]; [constructor | exact IH | constructor; [discriminate | exact IH] | constructor; [exact Hx | exact IH]].
Qed.
Theorem C93_unknown_token_total : forall E fuel t vocab merges d unk pre suf fu bf ig b c s n add, pq_ok E -> new_bpe vocab merges d unk pre suf fu bf ig = Ok b ->
  tz_model t = Some (MBpe b c) -> reach_cache E b c -> s <> [] -> forallb valid_cp s = true -> forallb valid_cp n = true -> normalized_in_place E t s n ->
  tz_pre t = Some TBert \/ tz_pre t = None -> unk <> [] -> (exists u, sfind unk vocab = Some u) -> exists r, snd (encode E fuel (bare t) s add) = Ok r.
Proof.
  intros E fuel t vocab merges d unk pre suf fu bf ig b c s n add Hq Hb Hm Hr Hne Hv Hvn HN Hp Hu (u & Hf).
  assert (Hnn : n <> []) by (destruct HN as (HN & _); unfold normalized_to in HN; destruct (tz_av t); [apply HN | subst n; exact Hne]).
  destruct (C93_words (tz_pre t) (e_u_space E) (e_u_punct E) n Hp) as (l & Hl & _).
  assert (Hun : unk_id b = Some u). { pose proof Hb as Hb'. apply new_bpe_vocab in Hb' as (_ & Hv' & _ & Hun & _). unfold unk_id. rewrite Hun, Hv'. destruct unk; [congruence | exact Hf]. }
  destruct (C93_reference E fuel t vocab merges d unk pre suf fu bf ig b c s n l add Hq Hb Hm Hr Hne Hv Hvn HN Hl) as (r & R & _); [|exists r; exact R].
  eapply Forall_impl; [|exact (words_nonempty _ _ _ _ _ Hnn Hl)]. intros [pos x] Hx. right. eapply covered_unk; [exact Hun | apply utf8_encs_nonempty; exact Hx].
Qed.
Print Assumptions C93_unknown_token_total.

(** ** C94 *)
Lemma words_row_word (P : wstr -> list token -> Prop) i l rs : rows_of_words P i l rs -> Forall (fun r => exists k, r_word r = Some (i + k)) rs.
Proof.
  induction 1 as [|i pos x l ts rs Ht H IH]; [constructor|]. apply Forall_app. split.
  - unfold word_rows. apply Forall_map. apply Forall_forall. intros k _. exists 0. cbn [r_word]. rewrite Nat.add_0_r. reflexivity.
  - eapply Forall_impl; [|exact IH]. intros r (k & Hk). exists (S k). rewrite Hk. f_equal. lia.
Qed.
Lemma rows_of_word_one (P : wstr -> list token -> Prop) i l rs : rows_of_words P i l rs -> forall k pos x, nth_error l k = Some (pos, x) -> exists ts, P x ts /\ rows_of_word (i + k) rs = word_rows (i + k) pos ts.
Proof.
  assert (F1 : forall i pos ts, rows_of_word i (word_rows i pos ts) = word_rows i pos ts).
  { intros j pos ts. unfold rows_of_word, word_rows. induction ts as [|k ts IH]; [reflexivity|]. cbn [map filter r_word]. rewrite Nat.eqb_refl, IH. reflexivity. }
  assert (F2 : forall i j pos ts, i <> j -> rows_of_word i (word_rows j pos ts) = []).
  { intros i0 j pos ts Hij. unfold rows_of_word, word_rows. induction ts as [|k ts IH]; [reflexivity|]. cbn [map filter r_word]. destruct (Nat.eqb_spec j i0) as [Eq|Eq]; [congruence | exact IH]. }
  induction 1 as [|i pos0 x0 l ts rs Ht H IH]; intros k pos x Hk; [destruct k; discriminate|]. unfold rows_of_word in *. setoid_rewrite filter_app. destruct k as [|k]; cbn [nth_error] in Hk.
  - injection Hk as <- <-. exists ts. split; [exact Ht|]. rewrite Nat.add_0_r, F1. rewrite <- (app_nil_r (word_rows i pos0 ts)) at 2. f_equal.
    pose proof (words_row_word P _ _ _ H) as HF. clear - HF. induction HF as [|r rs (k & Hk) _ IH]; [reflexivity|]. cbn [filter]. rewrite Hk. destruct (S i + k =? i) eqn:Eq; [lia | exact IH].
  - destruct (IH k pos x Hk) as (ts' & T1 & T2). exists ts'. split; [exact T1|]. replace (i + S k) with (S i + k) by lia. rewrite F2 by lia. exact T2.
Qed.
Lemma tiles_shift d a z l : tiles a z l -> tiles (d + a) (d + z) (map (fun o => (d + fst o, d + snd o)) l).
Proof. induction 1 as [a|a m b l Hm H IH]; [constructor|]. cbn [map fst snd]. constructor; [lia | exact IH]. Qed.
Lemma tiles_end a z l : tiles a z l -> forall z', tiles a z' l -> z = z'.
Proof. induction 1 as [a|a m b l Hm H IH]; intros z' H'; inversion H'; subst; [reflexivity | apply IH; assumption]. Qed.
Lemma word_rows_off i pos ts : map r_off (word_rows i pos ts) = map (fun o => (pos + fst o, pos + snd o)) (map tk_off ts).
Proof. unfold word_rows. rewrite !map_map. reflexivity. Qed.
Lemma enc_units c : valid_cp c = true -> length (utf16_enc c) <= length (utf8_enc c) /\ (length (utf8_enc c) = length (utf16_enc c) <-> (c < 128)%N).
Proof.
  intros Hv. unfold utf8_enc, utf16_enc. destruct (N.ltb_spec c 128), (N.ltb_spec c 2048), (N.ltb_spec c 65536); cbn [length]; try lia.
Qed.
Lemma bytes_units x : forallb valid_cp x = true -> units x <= length (utf8_encs x) /\ (length (utf8_encs x) = units x <-> ascii x).
Proof.
  unfold units, ascii. induction x as [|c x IH]; intros Hv; [split; [cbn; lia | split; [constructor | reflexivity]]|]. cbn [forallb] in Hv. apply andb_prop in Hv as [Hc Hx]. destruct (IH Hx) as [I1 I2]. destruct (enc_units c Hc) as [C1 C2].
  cbn [utf8_encs flat_map]. fold (utf8_encs x). rewrite !app_length. split; [lia|]. split.
  - intros H. constructor; [apply C2; lia | apply I2; lia].
  - intros H. inversion H as [|? ? H1 H2]; subst. apply C2 in H1. apply I2 in H2. lia.
Qed.

Lemma words_located pre sp pu n l : text_words pre sp pu n l -> Forall (fun p => exists a z, n = a ++ snd p ++ z /\ fst p = units a) l.
Proof.
  unfold text_words. destruct pre as [[]|]; try contradiction; intros H.
  - assert (K : forall pos s l, bert_split sp pu pos s l -> forall h, units h = pos -> Forall (fun p => exists a z, h ++ s = a ++ snd p ++ z /\ fst p = units a) l).
    { clear. induction 1 as [pos|pos c s l Hs H IH|pos c s l Hs Hp H IH|pos x s l Hx HF Hm H IH]; intros h Hh.
      - constructor.
      - specialize (IH (h ++ [c])). rewrite units_app, Hh, <- app_assoc in IH. apply IH. reflexivity.
      - specialize (IH (h ++ [c])). rewrite units_app, Hh, <- app_assoc in IH. constructor; [exists h, s; cbn [fst snd]; auto | apply IH; reflexivity].
      - specialize (IH (h ++ x)). rewrite units_app, Hh, <- app_assoc in IH. constructor; [exists h, s; cbn [fst snd]; auto | apply IH; reflexivity]. }
    exact (K 0 n l H [] eq_refl).
  - subst l. constructor; [|constructor]. exists [], []. rewrite app_nil_r. split; reflexivity.
Qed.
Lemma words_valid pre sp pu n l : forallb valid_cp n = true -> text_words pre sp pu n l -> Forall (fun p => forallb valid_cp (snd p) = true) l.
Proof. intros Hv H. eapply Forall_impl; [|exact (words_located _ _ _ _ _ H)]. intros p (a & z & -> & _). apply (valid_parts _ _ _ Hv). Qed.

(** Spans count bytes from the start of the word: when every byte of the words is accounted for (C31), the tokens of the word [x] at [pos] tile the interval from [pos] to
    [pos] plus the number of bytes of [x]. That is the word itself, in the units of the offsets, exactly for ASCII words. *)
Theorem C94_spans : forall E fuel t vocab merges d unk pre suf fu bf ig b c s n l add, pq_ok E -> new_bpe vocab merges d unk pre suf fu bf ig = Ok b ->
  tz_model t = Some (MBpe b c) -> reach_cache E b c -> s <> [] -> forallb valid_cp s = true -> forallb valid_cp n = true -> normalized_in_place E t s n ->
  text_words (tz_pre t) (e_u_space E) (e_u_punct E) n l ->
  Forall (fun p => covered b (utf8_encs (snd p)) = length (utf8_encs (snd p)) /\ forall i, ~ whole_word b (snd p) i) l ->
  exists r, snd (encode E fuel (bare t) s add) = Ok r /\ forall k pos x, nth_error l k = Some (pos, x) ->
    tiles pos (pos + length (utf8_encs x)) (map r_off (rows_of_word k (rows r))) /\ (tiles pos (pos + units x) (map r_off (rows_of_word k (rows r))) <-> ascii x).
Proof.
  intros E fuel t vocab merges d unk pre suf fu bf ig b c s n l add Hq Hb Hm Hr Hne Hv Hvn HN HW Hl.
  assert (Hnn : n <> []) by (destruct HN as (HN & _); unfold normalized_to in HN; destruct (tz_av t); [apply HN | subst n; exact Hne]).
  assert (Henc : Forall (fun p => encodable b (snd p)) l).
  { pose proof (words_nonempty _ _ _ _ _ Hnn HW) as Hx. clear - Hl Hx. induction Hx as [|p l Hp _ IH]; inversion Hl as [|? ? [H1 H2] H3]; subst; constructor; [|apply IH; exact H3]. right. destruct p as [pos x]. cbn [snd] in *. apply utf8_encs_nonempty in Hp. apply (eq_ind_r (fun z => 0 < z)) with (2 := H1). destruct (utf8_encs x); [congruence | cbn; lia]. }
  destruct (bpe_text E b vocab merges d unk pre suf fu bf ig Hq Hb fuel t c s n l add Hm Hr Hne Hv Hvn HN HW) as [[_ (r & R1 & _ & _ & R2)]|[H _]]; [|contradiction].
  exists r. split; [exact R1|]. intros k pos x Hk. destruct (rows_of_word_one _ _ _ _ R2 k pos x Hk) as (ts & T1 & T2). cbn [Nat.add] in T2. rewrite T2, word_rows_off.
  pose proof (proj1 (Forall_forall _ _) Hl _ (nth_error_In _ _ Hk)) as [L1 L2]. cbn [snd] in L1, L2.
  pose proof (proj1 (Forall_forall _ _) (words_valid _ _ _ _ _ Hvn HW) _ (nth_error_In _ _ Hk)) as Hx. cbn [snd] in Hx.
  assert (HT : tiles pos (pos + length (utf8_encs x)) (map (fun o => (pos + fst o, pos + snd o)) (map tk_off ts))).
  { replace pos with (pos + 0) at 1 by lia. apply tiles_shift. rewrite <- L1. destruct (C31_accounting E vocab merges d unk pre suf fu bf ig b [] (utf8_encs x) Hq Hb (reach_empty E b) (not_whole b x L2)) as [A1 A2].
    unfold runs in T1. destruct (Nat.eq_dec (covered b (utf8_encs x)) 0) as [Hz|Hz]; [rewrite (A1 Hz) in T1; discriminate|]. destruct (A2 ltac:(lia)) as (ts' & B1 & _ & B2). assert (ts' = ts) by congruence. subst ts'. exact B2. }
  split; [exact HT|]. destruct (bytes_units x Hx) as [U1 U2]. split.
  - intros H. apply U2. pose proof (tiles_end _ _ _ HT _ H). lia.
  - intros H. apply U2 in H. rewrite <- H. exact HT.
Qed.
Print Assumptions C94_spans.

Lemma concat_tokens (P : wstr -> list token -> Prop) i l rs : rows_of_words P i l rs -> (forall p ts, In p l -> P (snd p) ts -> concat (map tk_value ts) = utf8_encs (snd p)) -> concat (map r_token rs) = utf8_encs (concat (map snd l)).
Proof.
  induction 1 as [|i pos x l ts rs Ht H IH]; intros HP; [reflexivity|]. rewrite map_app, concat_app, IH by (intros p ts' Hp; apply HP; right; exact Hp). cbn [map concat snd]. unfold utf8_encs at 2. rewrite flat_map_app. fold (utf8_encs x) (utf8_encs (concat (map snd l))). f_equal.
  transitivity (concat (map tk_value ts)); [unfold word_rows; rewrite map_map; reflexivity | exact (HP (pos, x) ts (or_introl eq_refl) Ht)].
Qed.
Lemma in_words_rows (P : wstr -> list token -> Prop) i l rs : rows_of_words P i l rs -> forall r, In r rs -> exists pos x ts k, In (pos, x) l /\ P x ts /\ In k ts /\ r_token r = tk_value k /\ r_off r = (pos + fst (tk_off k), pos + snd (tk_off k)).
Proof.
  induction 1 as [|i pos x l ts rs Ht H IH]; intros r Hr; [destruct Hr|]. apply in_app_iff in Hr as [Hr|Hr].
  - unfold word_rows in Hr. apply in_map_iff in Hr as (k & <- & Hk). exists pos, x, ts, k. cbn [r_token r_off]. repeat split; auto. left. reflexivity.
  - destruct (IH r Hr) as (pos' & x' & ts' & k & H1 & H2). exists pos', x', ts', k. split; [right; exact H1 | exact H2].
Qed.
Lemma ascii_encs x : ascii x -> utf8_encs x = x /\ units x = length x.
Proof.
  unfold units. induction 1 as [|c x Hc _ [IH1 IH2]]; [split; reflexivity|]. cbn [utf8_encs flat_map]. fold (utf8_encs x). rewrite app_length, IH1, IH2. unfold utf8_enc, utf16_enc.
  replace (c <? 128)%N with true by lia. replace (c <? 65536)%N with true by lia. split; reflexivity.
Qed.

Lemma slice_in (a x z : list N) i j : j <= length x -> firstn (length a + j - (length a + i)) (skipn (length a + i) (a ++ x ++ z)) = firstn (j - i) (skipn i x).
Proof.
  intros H. replace (length a + j - (length a + i)) with (j - i) by lia. rewrite skipn_app, (skipn_all2 a) by lia. cbn [app]. replace (length a + i - length a) with i by lia.
  rewrite skipn_app, firstn_app, skipn_length. replace (j - i - (length x - i)) with 0 by lia. cbn [firstn]. apply app_nil_r.
Qed.

(** For ASCII texts all of whose words consist of characters in the vocabulary, without affixes: the token's text is the text its span covers, the tokens of every word tile
    it, and all of them together spell the words: nothing but the white space between words is lost. *)
Theorem C94_ascii_exact : forall E fuel t vocab merges d unk fu bf ig b c s n l add, pq_ok E -> new_bpe vocab merges d unk [] [] fu bf ig = Ok b ->
  NoDup (map fst vocab) -> NoDup (map snd vocab) -> tz_model t = Some (MBpe b c) -> reach_cache E b c -> s <> [] -> forallb valid_cp s = true -> ascii n -> normalized_in_place E t s n ->
  text_words (tz_pre t) (e_u_space E) (e_u_punct E) n l ->
  Forall (fun p => Forall (fun ch => exists i, sfind [ch] vocab = Some i) (snd p) /\ forall i, ~ whole_word b (snd p) i) l ->
  exists r, snd (encode E fuel (bare t) s add) = Ok r /\
    Forall (fun q => r_token q = firstn (snd (r_off q) - fst (r_off q)) (skipn (fst (r_off q)) n)) (rows r) /\
    (forall k pos x, nth_error l k = Some (pos, x) -> tiles pos (pos + length x) (map r_off (rows_of_word k (rows r)))) /\
    concat (en_tokens r) = concat (map snd l).
Proof.
  intros E fuel t vocab merges d unk fu bf ig b c s n l add Hq Hb Hk Hn Hm Hr Hne Hv Ha HN HW Hl.
  assert (Hnn : n <> []) by (destruct HN as (HN & _); unfold normalized_to in HN; destruct (tz_av t); [apply HN | subst n; exact Hne]).
  assert (Hvn : forallb valid_cp n = true). { clear - Ha. apply forallb_forall. intros x Hx. pose proof (proj1 (Forall_forall _ _) Ha x Hx) as Hlt. cbn beta in Hlt. unfold valid_cp, is_surrogate. lia. }
  pose proof (words_located _ _ _ _ _ HW) as HL.
  assert (Hax : forall p, In p l -> ascii (snd p)). { intros p Hp. destruct (proj1 (Forall_forall _ _) HL p Hp) as (a & z & E1 & _). rewrite E1 in Ha. apply Forall_app in Ha as [_ Ha]. apply Forall_app in Ha as [Ha _]. exact Ha. }
  pose proof (words_nonempty _ _ _ _ _ Hnn HW) as Hx0.
  assert (HC : forall pos x, In (pos, x) l -> exists ts, snd (bpe_word E b [] (utf8_encs x)) = Ok ts /\ concat (map tk_value ts) = x /\ tiles 0 (length x) (map tk_off ts) /\
     Forall (fun t => tk_value t = firstn (snd (tk_off t) - fst (tk_off t)) (skipn (fst (tk_off t)) x)) ts).
  { intros pos x Hp. destruct (ascii_encs x (Hax _ Hp)) as [A1 _]. pose proof (proj1 (Forall_forall _ _) Hl _ Hp) as [L1 L2]. cbn [snd] in L1, L2. pose proof (not_whole b x L2) as Hd. rewrite A1 in Hd. rewrite A1.
    exact (C30_lossless E b [] x vocab merges d unk fu bf ig Hq Hb (reach_empty E b) Hk Hn (proj1 (Forall_forall _ _) Hx0 _ Hp) L1 Hd). }
  destruct (bpe_text E b vocab merges d unk [] [] fu bf ig Hq Hb fuel t c s n l add Hm Hr Hne Hv Hvn HN HW) as [[_ (r & R1 & _ & RP & R2)]|[H _]].
  2:{ exfalso. apply H. apply Forall_forall. intros [pos x] Hp. destruct (HC pos x Hp) as (ts & T1 & _). destruct (word_cases E b vocab merges d unk [] [] fu bf ig Hq Hb x) as [[K _]|[_ K]]; [exact K | congruence]. }
  exists r. split; [exact R1|]. split; [|split].
  - apply Forall_forall. intros q Hin. destruct (in_words_rows _ _ _ _ R2 q Hin) as (pos & x & ts & k & I1 & I2 & I3 & I4 & I5). destruct (HC _ _ I1) as (ts' & T1 & _ & T3 & T4). unfold runs in I2. assert (ts' = ts) by congruence. subst ts'.
    rewrite I4, I5. cbn [fst snd]. pose proof (proj1 (Forall_forall _ _) T4 k I3) as V. cbn beta in V. rewrite V.
    destruct (proj1 (Forall_forall _ _) HL _ I1) as (a & z & E1 & E2). cbn [fst snd] in E1, E2. assert (Hpos : pos = length a).
    { rewrite E2. apply ascii_encs. rewrite E1 in Ha. apply Forall_app in Ha. apply Ha. }
    assert (Hle : snd (tk_off k) <= length x). { clear - T3 I3. revert T3 I3. generalize 0 at 1 as o. intros o T3. intros I3. apply (in_map tk_off) in I3. revert I3. generalize (tk_off k) as q. induction T3 as [o|o m z l Hm H IH]; intros q Hq; [destruct Hq|]. destruct Hq as [<-|Hq]; [|apply IH; exact Hq]. cbn [snd]. clear - H. induction H as [|a m' b l Hm H IH]; lia. }
    rewrite E1, Hpos. symmetry. apply slice_in. exact Hle.
  - intros k pos x Hnth. destruct (rows_of_word_one _ _ _ _ R2 k pos x Hnth) as (ts & T1 & T2). cbn [Nat.add] in T2. rewrite T2, word_rows_off. destruct (HC _ _ (nth_error_In _ _ Hnth)) as (ts' & B1 & _ & B2 & _). unfold runs in T1. assert (ts' = ts) by congruence. subst ts'.
    replace pos with (pos + 0) at 1 by lia. apply tiles_shift. exact B2.
  - assert (Hct : concat (map r_token (rows r)) = utf8_encs (concat (map snd l))).
    { eapply concat_tokens; [exact R2|]. intros [pos x] ts Hp Ht. unfold runs in Ht. cbn [snd] in *. destruct (HC pos x Hp) as (ts' & B1 & B2 & _). assert (ts' = ts) by congruence. subst ts'. rewrite B2. symmetry. apply (ascii_encs x). exact (Hax _ Hp). }
    destruct (rows_cols r RP) as (_ & _ & T & _). rewrite T in Hct. rewrite Hct. apply ascii_encs. clear - Hax. induction l as [|p l IH]; [constructor|]. cbn [map concat]. apply Forall_app. split; [apply Hax; left; reflexivity | apply IH; intros q Hq; apply Hax; right; exact Hq].
Qed.
Print Assumptions C94_ascii_exact.

(** ** A concrete case *)
(** Vocabulary a, b, ab and the unknown token; merge "a b"; BERT words. "ab ba" becomes ab, b, a; "ab !" has a word with nothing in the vocabulary; the word "éa" overshoots. *)
Definition abt_vocab : smap Z := [(str "a", 0); (str "b", 1); (str "ab", 2); (str "[U]", 3)]%Z.
Definition abt_bpe (unk : bytes) : bpe := match new_bpe abt_vocab [merge_line (str "a", str "b")] (QArith_base.Qmake 0 1) unk [] [] false false false with Ok b => b | _ => drop_bpe end.
Definition abt (unk : bytes) : tokenizer := mkTz None None None None (Some TBert) (Some (MBpe (abt_bpe unk) [])) None None.
Example C93_case : pq_ok test_env /\ (forall unk, new_bpe abt_vocab [merge_line (str "a", str "b")] (QArith_base.Qmake 0 1) unk [] [] false false false = Ok (abt_bpe unk)) /\
  normalized_in_place test_env (abt []) (str "ab ba") (str "ab ba") /\ text_words (tz_pre (abt [])) (e_u_space test_env) (e_u_punct test_env) (str "ab ba") [(0, str "ab"); (3, str "ba")] /\
  Forall (fun p => encodable (abt_bpe []) (snd p)) [(0, str "ab"); (3, str "ba")] /\
  (exists r, snd (encode test_env 0 (bare (abt [])) (str "ab ba") true) = Ok r /\ en_tokens r = [str "ab"; str "b"; str "a"] /\ en_offsets r = [(0, 2); (3, 4); (4, 5)] /\ en_words r = [Some 0; Some 1; Some 1]) /\
  text_words (tz_pre (abt [])) (e_u_space test_env) (e_u_punct test_env) (str "ab !") [(0, str "ab"); (3, str "!")] /\ ~ encodable (abt_bpe []) (str "!") /\
  snd (encode test_env 0 (abt []) (str "ab !") true) = Undef OobIndex /\
  (exists r, snd (encode test_env 0 (bare (abt (str "[U]"))) (str "ab !") true) = Ok r /\ en_tokens r = [str "ab"; str "[U]"]).
Proof.
  split; [exact test_env_pq|]. split; [intros unk; reflexivity|]. split; [split; [reflexivity|]; split; [lia | intros av sub H; discriminate]|].
  split. { cbn [abt tz_pre text_words]. apply (bs_word _ _ 0 (str "ab") (str " ba")); [discriminate | repeat constructor | left; reflexivity|]. apply bs_space; [reflexivity|]. apply (bs_word _ _ 3 (str "ba") []); [discriminate | repeat constructor | exact I | constructor]. }
  split. { constructor; [|constructor; [|constructor]]; right; vm_compute; lia. }
  split. { eexists. split; [vm_compute; reflexivity|]. repeat split. }
  split. { cbn [abt tz_pre text_words]. apply (bs_word _ _ 0 (str "ab") (str " !")); [discriminate | repeat constructor | left; reflexivity|]. apply bs_space; [reflexivity|]. apply bs_punct; [reflexivity | reflexivity | constructor]. }
  split. { intros [(i & H & _)|H]; [discriminate | vm_compute in H; lia]. }
  split; [vm_compute; reflexivity|]. eexists. split; [vm_compute; reflexivity | reflexivity].
Qed.
Example C94_case : forall u, unk_id (abt_bpe (str "[U]")) = Some u -> u = 3%Z /\ Forall (fun p => covered (abt_bpe (str "[U]")) (utf8_encs (snd p)) = length (utf8_encs (snd p)) /\ forall i, ~ whole_word (abt_bpe (str "[U]")) (snd p) i) [(0, [0xE9; 0x61]%N); (3, str "ab")] /\
  (exists r, snd (encode test_env 0 (bare (abt (str "[U]"))) [0xE9; 0x61; 0x20; 0x61; 0x62]%N true) = Ok r /\ en_offsets r = [(0, 1); (1, 2); (2, 3); (3, 5)] /\ map r_off (rows_of_word 0 (rows r)) = [(0, 1); (1, 2); (2, 3)]) /\
  Forall (fun p => Forall (fun ch => exists i, sfind [ch] abt_vocab = Some i) (snd p) /\ forall i, ~ whole_word (abt_bpe []) (snd p) i) [(0, str "ab"); (3, str "ba")].
Proof.
  intros u Hu. split; [vm_compute in Hu; congruence|]. split. { constructor; [|constructor; [|constructor]]; (split; [vm_compute; reflexivity | intros i (H & _); discriminate]). }
  split. { eexists. split; [vm_compute; reflexivity|]. split; reflexivity. }
  constructor; [|constructor; [|constructor]]; (split; [|intros i (H & _); discriminate]); cbn [snd]; (constructor; [|constructor; [|constructor]]); eexists; vm_compute; reflexivity.
Qed.
