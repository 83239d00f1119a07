(** C31 (texts of the tokens when unknown bytes are dropped) and C90: what byte-level BPE keeps of a text. *)
From Verif Require Import Base BaseFacts Unicode UnicodeProofs Common Normalizer PreTokenizer WordPiece Bpe AddedVocab Decoder PostProcessor Tokenizer NormSpec NormProofs PreSpec PreProofs PropsPre
  WpSpec WpProofs DecSpec DecProofs PropsDecoder BpeSpec BpeProofs BpeWord PropsBpe AvSpec AvProofs ExtractProofs TzSpec TzProofs HistSpec HistProofs PropsHistory OffSpec OffProofs PropsOffsets RoundSpec RoundProofs PropsRound ByteSpec Env Sample.
From Coq Require Import ZifyBool ZifyNat ZifyN.

(** Without affixes, byte fallback and unknown token: the tokens' texts, put together, are the bytes of the word that are vocabulary tokens by themselves, in order. *)
Theorem C31_kept_bytes : forall E vocab merges d unk fu ig b c s, pq_ok E -> new_bpe vocab merges d unk [] [] fu false ig = Ok b -> reach_cache E b c -> unk_id b = None ->
  NoDup (map fst vocab) -> NoDup (map snd vocab) -> not_direct b s \/ ~ no_dropout b ->
  (filter (single vocab) s <> [] -> exists ts, snd (bpe_word E b c s) = Ok ts /\ concat (map tk_value ts) = filter (single vocab) s /\
     tiles 0 (length (filter (single vocab) s)) (map tk_off ts) /\ Forall (fun t => sfind (tk_value t) vocab = Some (tk_id t)) ts) /\
  (filter (single vocab) s = [] -> snd (bpe_word E b c s) = Undef OobIndex).
Proof.
  intros E vocab merges d unk fu ig b c s Hq Hb Hr Hu Hk Hn Hdir.
  pose proof (new_bpe_merges _ _ _ _ _ _ _ _ _ _ Hb) as Hmv.
  apply new_bpe_vocab in Hb as (Hm & Hv & _ & _ & Hpre & Hsuf & _ & Hfb & _).
  destruct (initial_eq b s) as (Hi & Hpos & _). rewrite Hpre, Hsuf in Hi.
  assert (Hpieces : pieces [] [] s = map (fun x => [x]) s).
  { unfold pieces. generalize (length s) at 1 as n. intros n. generalize 0 as a. clear. induction s as [|x s IH]; intros a; [reflexivity|].
    cbn [length seq combine map fst snd]. rewrite IH. f_equal. unfold piece_at. destruct (a =? 0), (S a =? n); reflexivity. }
  rewrite Hpieces in Hi. subst vocab.
  rewrite items_no_unk in Hi by (exact Hfb || exact Hu).
  assert (Hit : exists ids, initial b s = map (fun i => (i, 1)) ids /\ Forall2 (fun x i => sfind [x] (b_vocab b) = Some i) (filter (single (b_vocab b)) s) ids).
  { rewrite Hi. clear. induction s as [|x s IH]; [exists []; split; [reflexivity | constructor]|]. cbn [map filter known_only]. unfold single at 1. destruct IH as (ids & E1 & E2).
    destruct (sfind [x] (b_vocab b)) as [i|] eqn:Ex; [exists (i :: ids); split; [cbn [map]; rewrite E1; reflexivity | constructor; assumption] | exists ids; split; assumption]. }
  destruct Hit as (ids & Hids & HF). set (kept := filter (single (b_vocab b)) s) in *. clearbody kept.
  split; intros Hkept.
  2:{ subst kept. inversion HF; subst. cbn [map] in Hids. destruct (merge_word_spec E b s Hq) as [[_ H]|[H _]]; [|congruence]. rewrite (word_cold E b c s Hr Hdir), H. reflexivity. }
  assert (Hne : initial b s <> []) by (rewrite Hids; destruct HF; [congruence | discriminate]).
  destruct (merge_word_spec E b s Hq) as [[H1 _]|[_ (w & Hw & Hst & _)]]; [contradiction|].
  assert (Hvi : Forall (fun p => vocab_id (b_vocab b) (fst p)) (contents w)).
  { eapply steps_forall_vocab; [exact Hmv | exact Hst|]. rewrite Hids. clear - HF. induction HF as [|x i s ids Hx _ IH]; cbn [map]; constructor; [exists [x]; exact Hx | exact IH]. }
  destruct (word_to_tokens_ok (b_vocab b) w 0 Hvi) as [ts Hts]. exists ts.
  split; [rewrite (word_cold E b c s Hr Hdir), Hw; exact Hts|].
  assert (Hrule : forall p q r n, mfind p q (b_merges b) = Some (r, n) ->
     exists tp tq, sfind tp (b_vocab b) = Some p /\ sfind tq (b_vocab b) = Some q /\ sfind (tp ++ tq) (b_vocab b) = Some n).
  { intros p q r n Hf. apply (build_merges_spec _ _ _ _ _ _ Hm) in Hf. destruct Hf as [Hf|(_ & k & line & _ & _ & ([tp tq] & _ & G1 & G2 & G3) & _)]; [discriminate|].
    exists tp, tq. auto. }
  destruct (lossless_steps b _ _ Hn Hk Hrule Hst (map (fun x => [x]) kept)) as (texts & HT & Hc).
  { rewrite Hids. clear - HF. induction HF as [|x i s ids Hx HF IH]; cbn; constructor; [split; [exact Hx | reflexivity] | exact IH]. }
  assert (Hcs : concat texts = kept) by (rewrite Hc; clear; induction kept as [|x s IH]; cbn; [reflexivity | rewrite IH; reflexivity]).
  destruct (word_to_tokens_spec _ _ _ _ Hts) as (Hid & Hseq & Hval & Htiles).
  assert (Htl : total_len (contents w) = length kept).
  { rewrite (steps_total_len _ _ _ Hst), Hids. clear - HF. induction HF as [|x i s ids Hx HF IH]; cbn; [reflexivity|]. f_equal. exact IH. }
  rewrite Htl in Htiles. specialize (Htiles (steps_positive _ _ _ Hst Hpos)).
  assert (Htexts : map tk_value ts = texts /\ Forall (fun t => sfind (tk_value t) (b_vocab b) = Some (tk_id t)) ts).
  { clear - Hn Hid Hval HT. revert texts HT Hid. generalize (contents w). induction Hval as [|t ts Ht Hval IH]; intros l texts HT Hid.
    - destruct l; [|discriminate]. inversion HT; subst. split; [reflexivity | constructor].
    - destruct l as [|p l]; [discriminate|]. inversion HT as [|? tx ? txs [Hp _] HT']; subst. cbn in Hid. inversion Hid as [[E1 E2]]. destruct (IH _ _ HT' E2) as [I1 I2].
      assert (Htv : tk_value t = tx). { rewrite E1 in Ht. pose proof Hp as Hp'. apply sfind_in in Hp'. rewrite (id_to_token_unique _ _ _ Hn Hp') in Ht. congruence. }
      split; [cbn; f_equal; assumption|]. constructor; [congruence | exact I2]. }
  destruct Htexts as [Htexts Hfind]. split; [rewrite Htexts; exact Hcs|]. split; [exact Htiles | exact Hfind].
Qed.
Print Assumptions C31_kept_bytes.

(** ** C90 *)
Lemma high_bytes c : (128 <= c)%N -> Forall (fun b => (128 <= b)%N) (utf8_enc c).
Proof.
  intros H. unfold utf8_enc. replace (c <? 128)%N with false by lia. destruct (c <? 2048)%N; [|destruct (c <? 65536)%N]; repeat constructor; lia.
Qed.
Lemma gpt2_visible b : (33 <= b <= 126)%N -> gpt2_cp b = b.
Proof. intros H. unfold gpt2_cp. replace (gpt2_printable b) with true by (unfold gpt2_printable; lia). reflexivity. Qed.
Lemma gpt2_other b : ~ (33 <= b <= 126)%N -> (128 <= gpt2_cp b)%N.
Proof. intros H. unfold gpt2_cp. destruct (gpt2_printable b) eqn:Ep; [unfold gpt2_printable in Ep; lia | lia]. Qed.
Lemma high_dropped vocab t : ascii_singles vocab -> Forall (fun b => (128 <= b)%N) t -> filter (single vocab) t = [].
Proof.
  intros Hs. induction 1 as [|b t Hb _ IH]; [reflexivity|]. cbn [filter]. unfold single at 1. destruct (sfind [b] vocab) as [i|] eqn:Eb; [apply Hs in Eb; lia | exact IH].
Qed.
Lemma byte_kept vocab b : ascii_singles vocab -> filter (single vocab) (utf8_enc (gpt2_cp b)) = if keeps vocab b then [b] else [].
Proof.
  intros Hs. unfold keeps. destruct (N.leb_spec 33 b), (N.leb_spec b 126); cbn [andb]; try (apply high_dropped; [exact Hs | apply high_bytes, gpt2_other; lia]).
  rewrite gpt2_visible by lia. unfold utf8_enc. replace (b <? 128)%N with true by lia. cbn [filter]. unfold single. destruct (sfind [b] vocab); reflexivity.
Qed.
Lemma bytes_kept vocab t : ascii_singles vocab -> filter (single vocab) (remapped t) = filter (keeps vocab) t.
Proof. intros Hs. unfold remapped. induction t as [|b t IH]; [reflexivity|]. cbn [flat_map filter]. rewrite filter_app, IH, byte_kept by exact Hs. destruct (keeps vocab b); reflexivity. Qed.
Lemma char_kept vocab c : filter (keeps vocab) (utf8_enc c) = if keeps vocab c then [c] else [].
Proof.
  destruct (N.lt_ge_cases c 128) as [H|H].
  - unfold utf8_enc. replace (c <? 128)%N with true by lia. cbn [filter]. destruct (keeps vocab c); reflexivity.
  - replace (keeps vocab c) with false by (unfold keeps; lia). pose proof (high_bytes c H) as Hb. induction Hb as [|b t Hb _ IH]; [reflexivity|]. cbn [filter]. replace (keeps vocab b) with false by (unfold keeps; lia). exact IH.
Qed.
Lemma text_kept vocab w : ascii_singles vocab -> filter (single vocab) (remapped (utf8_encs w)) = filter (keeps vocab) w.
Proof. intros Hs. rewrite bytes_kept by exact Hs. unfold utf8_encs. induction w as [|c w IH]; [reflexivity|]. cbn [flat_map filter]. rewrite filter_app, IH, char_kept. destruct (keeps vocab c); reflexivity. Qed.

Lemma byte_prepare E t s rx : s <> [] -> forallb valid_cp s = true -> quiet E t s -> tz_pre t = Some (TByteLevel false rx) -> e_char_signed E = false \/ ascii s -> exists av junk l,
  prepare E t s = Ok (av, mkPt (numbered_ns (unit_sizes s) junk s) (map (fun x => mkSplit (remapped (sp_text x)) (sp_off x) (sp_tokens x)) l)) /\
  exists pieces, byte_pieces rx s pieces /\ map sp_text l = map utf8_encs pieces /\ map sp_off l = spans_from 0 pieces.
Proof.
  intros Hne Hv Hq Hp Hs. destruct (prepare_quiet E t s (fun _ => Hne) Hv Hq) as (av & junk & n & Hprep). rewrite Hp in Hprep. cbn [pre_tokenize] in Hprep. unfold byte_level_pre_tokenize in Hprep. cbn [bind] in Hprep.
  destruct (byte_level_split E rx (numbered_ns (unit_sizes s) junk s) s n Hv) as (l & H1 & H2 & H3 & H4 & H5). pose proof H1 as H1'. rewrite H1 in Hprep. cbn [bind pt_splits pt_norm] in Hprep.
  rewrite remap_all in Hprep by (rewrite H3; apply utf8_encs_bytes; exact Hv). rewrite H3, (proj2 (bytes_ok_iff E s) Hs) in Hprep. cbn [bind] in Hprep.
  exists av, junk, l. split; [exact Hprep|]. destruct rx.
  - pose proof (apos_pieces_ok (length s) s (le_n _) [] [] (fun H => H)) as HP. cbn [app] in HP. set (X := apos_iso [] [] s) in *.
    assert (El : l = map (piece_split 0) X).
    { unfold pt_split in H1'. cbn [pt_splits split_all is_nil sp_tokens] in H1'. cbn iota in H1'. change (fun u : ustr => find_matches E byte_level_pattern u) with (find_matches E byte_level_pattern) in H1'. rewrite (apos_split E (mkSplit (utf8_encs s) (0, n) []) s eq_refl Hv) in H1'. cbn [bind sp_off fst] in H1'. rewrite app_nil_r in H1'. injection H1' as <-. reflexivity. }
    exists (map snd X). split; [exact HP|]. split; [subst l; rewrite !map_map; reflexivity|]. eapply chained_spans; [exact H2|]. subst l. rewrite !map_map. apply map_ext. intros p. unfold piece_split, piece_span. cbn [sp_off fst snd]. lia.
  - exists [s]. split; [reflexivity|]. specialize (H5 (or_introl eq_refl)). destruct l as [|x [|y l]]; try discriminate. cbn [map concat] in *. rewrite app_nil_r in H3. rewrite H3, H5. split; reflexivity.
Qed.

Lemma spans_start pieces : forall pos, Forall (fun w => w <> []) pieces -> Forall (fun o => pos <= fst o < pos + units (concat pieces)) (spans_from pos pieces).
Proof.
  induction pieces as [|w pieces IH]; intros pos H; [constructor|]. inversion H as [|? ? Hw H']; subst. cbn [spans_from concat]. rewrite units_app.
  assert (0 < units w) by (pose proof (proj1 (units_0 w)); destruct (units w); [exfalso; auto | lia]).
  constructor; [cbn [fst]; lia|]. eapply Forall_impl; [|exact (IH (pos + units w) H')]. cbn beta. intros o Ho. lia.
Qed.
Lemma pieces_concat rx s pieces : byte_pieces rx s pieces -> concat pieces = s.
Proof. destruct rx; cbn; [apply apostrophe_concat | intros ->; cbn; apply app_nil_r]. Qed.
Lemma pieces_once rx s l l' : byte_pieces rx s l -> byte_pieces rx s l' -> l = l'.
Proof. destruct rx; cbn; [apply C61_pieces_once | congruence]. Qed.
Lemma pieces_nonempty rx s l : s <> [] -> byte_pieces rx s l -> Forall (fun w => w <> []) l.
Proof. intros Hs. destruct rx; cbn; [intros H; clear Hs; induction H as [|r l _ IH|r l _ _ IH|w r l Hw _ _ _ IH]; [apply Forall_nil | apply Forall_cons; [discriminate | exact IH] | apply Forall_cons; [discriminate | exact IH] | apply Forall_cons; [exact Hw | exact IH]] | intros ->; constructor; [exact Hs | constructor]]. Qed.

Section ByteBpe.
Context (E : env) (fuel : nat) (t : tokenizer) (vocab : smap Z) (merges : list bytes) (d : QArith_base.Q) (unk : bytes) (fu : bool) (b : bpe) (c : cache) (rx : bool) (s : wstr) (pieces : list wstr) (add : bool).
Hypothesis Hq : pq_ok E.
Hypothesis Hm : tz_model t = Some (MBpe b c).
Hypothesis Hb : new_bpe vocab merges d unk [] [] fu false false = Ok b.
Hypothesis Hr : reach_cache E b c.
Hypothesis Hu : unk = [] \/ sfind unk vocab = None.
Hypothesis Hd : dense vocab.
Hypothesis Hsing : ascii_singles vocab.
Hypothesis Hp : tz_pre t = Some (TByteLevel false rx).
Hypothesis Htr : tz_trunc t = None.
Hypothesis Hpo : tz_post t = None.
Hypothesis Hpa : tz_pad t = None.
Hypothesis Hq' : quiet E t s.
Hypothesis Hne : s <> [].
Hypothesis Hv : forallb valid_cp s = true.
Hypothesis Hs : e_char_signed E = false \/ ascii s.
Hypothesis Hpieces : byte_pieces rx s pieces.

Lemma byte_word w : (filter (keeps vocab) w <> [] -> exists ts, snd (bpe_word E b [] (remapped (utf8_encs w))) = Ok ts /\ concat (map tk_value ts) = filter (keeps vocab) w /\
     Forall (fun t => sfind (tk_value t) vocab = Some (tk_id t)) ts) /\
  (filter (keeps vocab) w = [] -> snd (bpe_word E b [] (remapped (utf8_encs w))) = Undef OobIndex).
Proof.
  assert (Hnu : unk_id b = None). { pose proof Hb as Hb'. apply new_bpe_vocab in Hb' as (_ & Hv' & _ & Hun & _). unfold unk_id. rewrite Hun, Hv'. destruct Hu as [-> | H]; [reflexivity|]. destruct unk; [reflexivity | exact H]. }
  assert (Hni : b_ignore_merges b = false). { pose proof Hb as Hb'. apply new_bpe_vocab in Hb'. tauto. }
  destruct Hd as (D1 & D2 & _).
  destruct (C31_kept_bytes E vocab merges d unk fu false b [] (remapped (utf8_encs w)) Hq Hb (reach_empty E b) Hnu D1 D2) as [H1 H2]; [left; unfold not_direct; congruence|].
  rewrite text_kept in H1, H2 by exact Hsing. split; [|exact H2]. intros Hk. destruct (H1 Hk) as (ts & T1 & T2 & _ & T3). exists ts. auto.
Qed.

Lemma byte_core : forall x l, map sp_text l = map utf8_encs x ->
  (Forall (fun w => filter (keeps vocab) w <> []) x -> exists out, plain_words E b (map (fun x => mkSplit (remapped (sp_text x)) (sp_off x) (sp_tokens x)) l) = Ok out /\ map sp_off out = map sp_off l /\
     concat (flat_map (fun x => map tk_value (sp_tokens x)) out) = filter (keeps vocab) (concat x) /\ Forall (fun t => sfind (tk_value t) vocab = Some (tk_id t)) (flat_map sp_tokens out)) /\
  (Exists (fun w => filter (keeps vocab) w = []) x -> plain_words E b (map (fun x => mkSplit (remapped (sp_text x)) (sp_off x) (sp_tokens x)) l) = Undef OobIndex).
Proof.
  induction x as [|w x IH]; intros [|sp l] Hl; try discriminate.
  - split; [intros _; exists []; repeat split; constructor | intros H; inversion H].
  - cbn [map] in Hl. injection Hl as Hl1 Hl2. destruct (IH l Hl2) as [I1 I2]. destruct (byte_word w) as [W1 W2]. cbn [map]. unfold plain_words. cbn [mapM]. fold (plain_words E b (map (fun x => mkSplit (remapped (sp_text x)) (sp_off x) (sp_tokens x)) l)). cbn [sp_text sp_off]. rewrite Hl1.
    split.
    + intros H. inversion H as [|? ? Hw Hx]; subst. destruct (W1 Hw) as (ts & T1 & T2 & T3). destruct (I1 Hx) as (out & O1 & O2 & O3 & O4). rewrite T1. cbn [bind]. rewrite O1. cbn [bind]. eexists. split; [reflexivity|].
      split; [cbn [map sp_off]; rewrite O2; reflexivity|]. split; [|cbn [flat_map sp_tokens]; apply Forall_app; split; assumption]. cbn [flat_map sp_tokens concat]. rewrite concat_app, filter_app, T2, O3. reflexivity.
    + intros H. destruct (list_eq_dec N.eq_dec (filter (keeps vocab) w) []) as [Hw|Hw]; [rewrite (W2 Hw); reflexivity|]. destruct (W1 Hw) as (ts & T1 & _). rewrite T1. cbn [bind].
      inversion H as [? ? H'|? ? H']; subst; [contradiction|]. rewrite (I2 H'). reflexivity.
Qed.

Lemma byte_encode :
  (Forall (fun w => filter (keeps vocab) w <> []) pieces -> exists r, snd (encode E fuel t s add) = Ok r /\ concat (en_tokens r) = filter (keeps vocab) s /\
     Forall2 (fun i x => sfind x vocab = Some i) (en_ids r) (en_tokens r)) /\
  (Exists (fun w => filter (keeps vocab) w = []) pieces -> snd (encode E fuel t s add) = Undef OobIndex).
Proof.
  destruct (byte_prepare E t s rx Hne Hv Hq' Hp Hs) as (av & junk & l & Hprep & pieces' & P1 & P2 & P3). assert (pieces' = pieces) as -> by exact (pieces_once rx s _ _ P1 Hpieces). clear P1.
  assert (Hmt : forall p, snd (model_tokenize E (MBpe b c) p) = snd (bpe_tokenize E b c p)) by (intros p; cbn [model_tokenize]; destruct (bpe_tokenize E b c p); reflexivity).
  rewrite encode_text. unfold text_encoding. rewrite Hprep. cbn [bind]. rewrite Hm, Hmt. rewrite (proj1 (bpe_tokenize_transparent E b c _ (reach_cache_ok E b c Hr))). cbn [pt_splits pt_norm].
  destruct (byte_core pieces l P2) as [C1 C2]. split.
  - intros H. destruct (C1 H) as (out & O1 & O2 & O3 & O4). rewrite O1. cbn [bind]. unfold into_encoding. cbn [pt_norm pt_splits].
    destruct (into_rows_defined (numbered_ns (unit_sizes s) junk s) 0 out) with (idx := 0) as (r & Hr').
    { apply Forall_forall. intros sp Hsp. exists (fst (sp_off sp)). apply base_numbered; [apply unit_sizes_pos|]. rewrite valid_unit_sizes by exact Hv. apply (in_map sp_off) in Hsp. rewrite O2, P3 in Hsp.
      pose proof (proj1 (Forall_forall _ _) (spans_start pieces 0 (pieces_nonempty rx s pieces Hne Hpieces)) _ Hsp) as Hlt. cbn beta in Hlt. rewrite (pieces_concat rx s pieces Hpieces) in Hlt. lia. }
    rewrite Hr'. cbn [bind]. exists r. split; [unfold do_post_process; rewrite Htr, Hpo, Hpa; reflexivity|]. destruct (into_rows_cols _ _ _ _ _ Hr') as [R1 R2]. rewrite R1, R2. split; [rewrite O3, (pieces_concat rx s pieces Hpieces); reflexivity|].
    clear - O4. induction out as [|x out IH]; [constructor|]. cbn [flat_map] in *. apply Forall_app in O4 as [A B]. apply Forall2_app; [|apply IH; exact B]. clear - A. induction A as [|y l Hy _ IH]; cbn [map]; constructor; assumption.
  - intros H. rewrite (C2 H). reflexivity.
Qed.
End ByteBpe.

Lemma keeps_all vocab w : Exists (fun c => keeps vocab c = true) w <-> filter (keeps vocab) w <> [].
Proof.
  split.
  - intros H E0. apply Exists_exists in H as (c & Hc & Hk). assert (In c (filter (keeps vocab) w)) by (apply filter_In; auto). rewrite E0 in H. destruct H.
  - intros H. apply Exists_exists. destruct (filter (keeps vocab) w) as [|c l] eqn:E0; [congruence|]. exists c. apply filter_In. rewrite E0. left. reflexivity.
Qed.
Lemma filter_whole (f : N -> bool) w : filter f w = w <-> Forall (fun c => f c = true) w.
Proof.
  split; [intros H; rewrite <- H; apply Forall_forall; intros c Hc; apply filter_In in Hc; tauto|].
  induction 1 as [|c w Hc _ IH]; [reflexivity|]. cbn [filter]. rewrite Hc, IH. reflexivity.
Qed.
Lemma kept_encs vocab s : filter (keeps vocab) s = utf8_encs s <-> Forall (fun c => keeps vocab c = true) s.
Proof.
  split.
  - intros H. apply filter_whole. assert (HL : length (filter (keeps vocab) s) <= length s) by (clear; induction s as [|c s IH]; cbn; [lia | destruct (keeps vocab c); cbn; lia]).
    assert (HU : length s <= length (utf8_encs s)) by (clear; induction s as [|c s IH]; cbn [utf8_encs flat_map length]; [lia|]; rewrite app_length; fold (utf8_encs s); assert (1 <= length (utf8_enc c)) by (unfold utf8_enc; destruct (c <? 128)%N, (c <? 2048)%N, (c <? 65536)%N; cbn; lia); lia).
    assert (Heq : length (filter (keeps vocab) s) = length s) by (pose proof (f_equal (@length N) H); lia). clear - Heq.
    induction s as [|c s IH]; [reflexivity|]. cbn [filter length] in *. assert (HL : length (filter (keeps vocab) s) <= length s) by (clear; induction s as [|c s IH]; cbn; [lia | destruct (keeps vocab c); cbn; lia]).
    destruct (keeps vocab c); cbn [length] in Heq; [|lia]. rewrite IH by lia. reflexivity.
  - intros H. rewrite (proj2 (filter_whole _ _) H). induction H as [|c s Hc _ IH]; [reflexivity|]. cbn [utf8_encs flat_map]. fold (utf8_encs s). rewrite <- IH. unfold utf8_enc. replace (c <? 128)%N with true by (unfold keeps in Hc; lia). reflexivity.
Qed.

(** What comes out: the tokens spell the printable ASCII characters of the text that are tokens by themselves, in order, and decoding gives exactly these, on the
    tokenizer as it was, as encode leaves it or after any further additions; with skip_special_tokens if none of the tokens is special. Everything else in the
    text, in particular every space, is lost. *)
Theorem C90_kept : forall E fuel t vocab rx s pieces add, pq_ok E -> byte_level_bpe E t vocab rx -> dense vocab -> vocab <> [] -> ascii_singles vocab ->
  s <> [] -> forallb valid_cp s = true -> e_char_signed E = false \/ ascii s -> quiet E t s -> byte_pieces rx s pieces ->
  Forall (Exists (fun c => keeps vocab c = true)) pieces ->
  exists r, snd (encode E fuel t s add) = Ok r /\ concat (en_tokens r) = filter (keeps vocab) s /\ Forall2 (fun i x => sfind x vocab = Some i) (en_ids r) (en_tokens r) /\
  forall t2 ops av m2 skip, tz_model t2 = Some m2 -> model_vocab m2 = vocab -> tz_av t2 = Some av -> history vocab ops av -> tz_dec t2 = Some DByteLevel ->
  (skip = true -> Forall (fun x => ~ registered_special ops x) (en_tokens r)) -> decode t2 (en_ids r) skip = Ok (filter (keeps vocab) s).
Proof.
  intros E fuel t vocab rx s pieces add Hq (Hp & Htr & Hpo & Hpa & merges & d & unk & fu & b & c & Hm & Hb & Hr & Hu) Hd Hvn Hsing Hne Hv Hs Hqu Hpc Hk.
  destruct (byte_encode E fuel t vocab merges d unk fu b c rx s pieces add Hq Hm Hb Hr Hu Hd Hsing Hp Htr Hpo Hpa Hqu Hne Hv Hs Hpc) as [H1 _].
  destruct H1 as (r & R1 & R2 & R3); [eapply Forall_impl; [|exact Hk]; intros w; apply keeps_all|]. exists r. split; [exact R1|]. split; [exact R2|]. split; [exact R3|].
  intros t2 ops av m2 skip Hm2 Hmv Hav Hh Hdec Hskip.
  assert (HD : Forall2 (denotes vocab av) (en_ids r) (en_tokens r)). { clear - R3 Hd Hvn Hh. induction R3 as [|i x li lx Hx _ IH]; constructor; [|exact IH]. eapply vocab_denotes; eassumption. }
  assert (HW : without (fun s => skip = true /\ registered_special ops s) (en_tokens r) (en_tokens r)).
  { clear - Hskip. revert Hskip. induction (en_tokens r) as [|x l IH]; intros H; [constructor|]. apply wo_keep; [intros [Hs Hx]; specialize (H Hs); inversion H; contradiction|]. apply IH. intros Hs. specialize (H Hs). inversion H; assumption. }
  rewrite (C21_decode vocab ops av t2 m2 _ Hd Hvn Hh Hav Hm2 Hmv Hdec _ _ skip _ HD HW).
  assert (Hvis : Forall (Forall (fun x => (33 <= x <= 126)%N)) (en_tokens r)).
  { apply Forall_forall. intros x Hx. apply Forall_forall. intros y Hy. assert (In y (concat (en_tokens r))) by (apply in_concat; eauto). rewrite R2 in H. apply filter_In in H as [_ H]. unfold keeps in H. lia. }
  assert (Hgr : map (fun bs => utf8_encs (map gpt2_cp bs)) (en_tokens r) = en_tokens r).
  { clear - Hvis. induction Hvis as [|x l Hx _ IH]; [reflexivity|]. cbn [map]. rewrite IH. f_equal. induction Hx as [|y x Hy _ IHx]; [reflexivity|]. cbn [map utf8_encs flat_map]. fold (utf8_encs (map gpt2_cp x)). rewrite IHx, gpt2_visible by exact Hy. unfold utf8_enc. replace (y <? 128)%N with true by lia. reflexivity. }
  assert (Hdc : decode_chain DByteLevel (en_tokens r) = Ok [concat (en_tokens r)]).
  { rewrite <- Hgr at 1. apply C22_byte_level_inverse_iff.
    - eapply Forall_impl; [|exact Hvis]. intros x Hx. eapply Forall_impl; [|exact Hx]. cbn beta. intros y Hy. lia.
    - apply Forall_forall. intros y Hy. apply in_concat in Hy as (x & Hx & Hy). pose proof (proj1 (Forall_forall _ _) (proj1 (Forall_forall _ _) Hvis x Hx) y Hy) as Hr'. cbn beta in Hr'. unfold decodable_byte. lia. }
  rewrite Hdc. cbn [bind concat]. rewrite app_nil_r, R2. reflexivity.
Qed.
Print Assumptions C90_kept.
(** So decoding gives the text back exactly when every character of it is such a character. *)
Theorem C90_round_trip_iff : forall E fuel t vocab rx s pieces add, pq_ok E -> byte_level_bpe E t vocab rx -> dense vocab -> vocab <> [] -> ascii_singles vocab ->
  s <> [] -> forallb valid_cp s = true -> e_char_signed E = false \/ ascii s -> quiet E t s -> byte_pieces rx s pieces ->
  Forall (Exists (fun c => keeps vocab c = true)) pieces ->
  exists r, snd (encode E fuel t s add) = Ok r /\
  forall t2 ops av m2 skip, tz_model t2 = Some m2 -> model_vocab m2 = vocab -> tz_av t2 = Some av -> history vocab ops av -> tz_dec t2 = Some DByteLevel ->
  (skip = true -> Forall (fun x => ~ registered_special ops x) (en_tokens r)) ->
  (decode t2 (en_ids r) skip = Ok (utf8_encs s) <-> Forall (fun c => (33 <= c <= 126)%N /\ exists i, sfind [c] vocab = Some i) s).
Proof.
  intros E fuel t vocab rx s pieces add Hq Hby Hd Hvn Hsing Hne Hv Hs Hqu Hpc Hk.
  destruct (C90_kept E fuel t vocab rx s pieces add Hq Hby Hd Hvn Hsing Hne Hv Hs Hqu Hpc Hk) as (r & R1 & _ & _ & R2). exists r. split; [exact R1|]. intros t2 ops av m2 skip A1 A2 A3 A4 A5 A6. rewrite (R2 t2 ops av m2 skip A1 A2 A3 A4 A5 A6).
  split.
  - intros H. injection H as H. apply kept_encs in H. eapply Forall_impl; [|exact H]. intros c Hc. cbn beta in *. unfold keeps in Hc. destruct (sfind [c] vocab) as [i|]; [|lia]. split; [lia | eauto].
  - intros H. f_equal. apply kept_encs. eapply Forall_impl; [|exact H]. intros c (Hc & i & Hi). unfold keeps. rewrite Hi. lia.
Qed.
Print Assumptions C90_round_trip_iff.
(** A text one of whose pieces has no such character, a lone space for instance, cannot be encoded: the merge reads outside an empty word. *)
Theorem C90_undefined : forall E fuel t vocab rx s pieces add, pq_ok E -> byte_level_bpe E t vocab rx -> dense vocab -> ascii_singles vocab ->
  s <> [] -> forallb valid_cp s = true -> e_char_signed E = false \/ ascii s -> quiet E t s -> byte_pieces rx s pieces ->
  Exists (Forall (fun c => keeps vocab c = false)) pieces -> snd (encode E fuel t s add) = Undef OobIndex.
Proof.
  intros E fuel t vocab rx s pieces add Hq (Hp & Htr & Hpo & Hpa & merges & d & unk & fu & b & c & Hm & Hb & Hr & Hu) Hd Hsing Hne Hv Hs Hqu Hpc Hk.
  destruct (byte_encode E fuel t vocab merges d unk fu b c rx s pieces add Hq Hm Hb Hr Hu Hd Hsing Hp Htr Hpo Hpa Hqu Hne Hv Hs Hpc) as [_ H2]. apply H2. eapply Exists_impl; [|exact Hk].
  intros w. induction 1 as [|x w Hx _ IH]; [reflexivity|]. cbn [filter]. rewrite Hx. exact IH.
Qed.
Print Assumptions C90_undefined.

(** A vocabulary with all 94 printable characters and the pair "he": "hello world" is decoded as "helloworld". *)
Definition ascii_vocab : smap Z := map (fun n => ([N.of_nat (33 + n)], Z.of_nat n)) (seq 0 94) ++ [(str "he", 94%Z)].
Definition ascii_bpe : bpe := match new_bpe ascii_vocab [merge_line (str "h", str "e")] (QArith_base.Qmake 0 1) [] [] [] false false false with Ok b => b | _ => drop_bpe end.
Definition ascii_tz : tokenizer := mkTz None None (Some (new_added_vocab [])) None (Some (TByteLevel false true)) (Some (MBpe ascii_bpe [])) (Some DByteLevel) None.
Lemma nodup_check {A} (eqb : A -> A -> bool) (Heq : forall x y, eqb x y = true <-> x = y) (l : list A) : (fix go l := match l with [] => true | x :: r => negb (existsb (eqb x) r) && go r end) l = true -> NoDup l.
Proof.
  induction l as [|x l IH]; intros H; [constructor|]. apply andb_prop in H as [H1 H2]. constructor; [|apply IH; exact H2]. intros Hin. apply negb_true_iff in H1. assert (existsb (eqb x) l = true) by (apply existsb_exists; exists x; split; [exact Hin | apply Heq; reflexivity]). congruence.
Qed.
Example C90_case : byte_level_bpe test_env ascii_tz ascii_vocab true /\ dense ascii_vocab /\ ascii_singles ascii_vocab /\ quiet test_env ascii_tz (str "hello world's") /\
  byte_pieces true (str "hello world's") [str "hello world"; str "'s"] /\ Forall (Exists (fun c => keeps ascii_vocab c = true)) [str "hello world"; str "'s"] /\
  exists r, snd (encode test_env 10 ascii_tz (str "hello world's") true) = Ok r /\ hd [] (en_tokens r) = str "he" /\ decode ascii_tz (en_ids r) true = Ok (str "helloworld's").
Proof.
  split. { split; [reflexivity|]. repeat (split; [reflexivity|]). exists [merge_line (str "h", str "e")], (QArith_base.Qmake 0 1), [], false, ascii_bpe, []. split; [reflexivity|]. split; [vm_compute; reflexivity|]. split; [constructor | left; reflexivity]. }
  split. { split; [|split].
    - apply (nodup_check leqb); [intros x y; destruct (leqb_spec x y); split; congruence | vm_compute; reflexivity].
    - apply (nodup_check Z.eqb); [apply Z.eqb_eq | vm_compute; reflexivity].
    - apply Forall_forall. intros p Hp. assert (H : forallb (fun p => (0 <=? snd p) && (snd p <? Z.of_nat (length ascii_vocab)))%Z ascii_vocab = true) by (vm_compute; reflexivity). rewrite forallb_forall in H. specialize (H p Hp). lia. }
  split. { intros x i Hx. apply sfind_in in Hx. assert (H : forallb (fun p => match fst p with [c] => (c <? 128)%N | _ => true end) ascii_vocab = true) by (vm_compute; reflexivity). rewrite forallb_forall in H. specialize (H _ Hx). cbn [fst] in H. lia. }
  split. { split; [reflexivity|]. split; intros x y i _ _ []. }
  split. { exact (apos_pieces_ok 13 (str "hello world's") (le_n _) [] [] (fun H => H)). }
  split. { repeat constructor. }
  eexists. split; [vm_compute; reflexivity|]. split; vm_compute; reflexivity.
Qed.
