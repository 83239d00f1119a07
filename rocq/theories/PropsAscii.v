(** C107: which vocabulary entries a BPE model can emit. Specification: AsciiSpec.v. *)
From Verif Require Import Base BaseFacts Unicode UnicodeProofs Common Utils PostProcessor Decoder Normalizer PreTokenizer WordPiece Bpe AddedVocab Tokenizer Spec
  NormSpec NormProofs DecSpec PreSpec PreProofs AvSpec AvProofs ExtractProofs TzSpec TzProofs WpSpec WpProofs OffSpec OffProofs RefSpec RefProofs TextProofs BpeSpec BpeProofs BpeWord UnkSpec
  BpeRefSpec PropsPre PropsBpe PropsUnknown PropsReference PropsBpeText Env AsciiSpec.
From Coq Require Import ZifyBool ZifyNat ZifyN Relations.
From Coq Require QArith_base.

Lemma utf8_lone_high : forall cs p x q, forallb valid_cp cs = true -> utf8_encs cs = p ++ x :: q -> plain p -> plain q -> (x < 128)%N.
Proof.
  assert (Hhi : forall c, (128 <= c)%N -> exists a b r, utf8_enc c = a :: b :: r /\ (128 <= a)%N /\ (128 <= b)%N).
  { intros c Hc. unfold utf8_enc. destruct (N.ltb_spec c 0x80); [lia|]. destruct (c <? 0x800)%N; [|destruct (c <? 0x10000)%N]; eexists _, _, _; (split; [reflexivity|]); split; lia. }
  induction cs as [|c cs IH]; intros p x q Hv He Hp Hq; [destruct p; discriminate|].
  cbn [forallb] in Hv. apply andb_prop in Hv as [_ Hv]. unfold utf8_encs in He. cbn [flat_map] in He. fold (utf8_encs cs) in He.
  destruct (N.lt_ge_cases c 128) as [Hc|Hc].
  - assert (E1 : utf8_enc c = [c]) by (unfold utf8_enc; replace (c <? 0x80)%N with true by lia; reflexivity). rewrite E1 in He. cbn [app] in He. destruct p as [|p0 p]; cbn [app] in He.
    + injection He as -> _. exact Hc.
    + injection He as -> He. exact (IH p x q Hv He (Forall_inv_tail Hp) Hq).
  - destruct (Hhi c Hc) as (a & b & r & E1 & Ha & Hb). rewrite E1 in He. cbn [app] in He. destruct p as [|p0 p]; cbn [app] in He.
    + injection He as -> He. subst q. pose proof (Forall_inv Hq) as H. cbn beta in H. lia.
    + injection He as -> _. pose proof (Forall_inv Hp) as H. cbn beta in H. lia.
Qed.

Section Ascii.
Context (vocab : smap Z) (merges : list bytes) (d : QArith_base.Q) (unk pre suf : bytes) (fu bf ig : bool) (b : bpe).
Hypothesis Hb : new_bpe vocab merges d unk pre suf fu bf ig = Ok b.
Hypothesis Hu : utf8_texts vocab.
Hypothesis Hid : NoDup (map snd vocab).
Hypothesis Hpre : plain pre.
Hypothesis Hsuf : plain suf.
Hypothesis Hunk : plain unk.
Definition plain_id (i : Z) : Prop := exists k, In (k, i) vocab /\ plain k.
Lemma around p x q i : plain p -> plain q -> sfind (p ++ x :: q) vocab = Some i -> plain_id i.
Proof.
  intros Hp Hq H. apply sfind_in in H. exists (p ++ x :: q). split; [exact H|]. destruct (Hu _ _ H) as (cs & Hv & E). symmetry in E.
  pose proof (utf8_lone_high cs p x q Hv E Hp Hq). apply Forall_app. split; [exact Hp|]. constructor; assumption.
Qed.
Lemma piece_plain s p i : In p (pieces pre suf s) -> sfind p vocab = Some i -> plain_id i.
Proof.
  intros Hin H. unfold pieces in Hin. apply in_map_iff in Hin as ([k x] & <- & _). cbn [fst snd] in H. unfold piece_at in H. cbn [app] in H.
  apply (around (if k =? 0 then [] else pre) x (if S k =? length s then suf else []) i); [destruct (k =? 0); [constructor | exact Hpre] | destruct (S k =? length s); [exact Hsuf | constructor] | exact H].
Qed.
Lemma fallback_plain p : Forall (fun q => plain_id (fst q)) (fallback_ids b p).
Proof.
  pose proof Hb as Hb'. apply new_bpe_vocab in Hb' as (_ & Ev & _). unfold fallback_ids. destruct (b_byte_fallback b); [|constructor]. apply Forall_flat_map. apply Forall_forall. intros y _. rewrite Ev.
  destruct (sfind (str "<000" ++ [y] ++ str ">") vocab) as [i|] eqn:Ei; [|constructor]. constructor; [|constructor]. cbn [fst]. apply (around (str "<000") y (str ">") i); [repeat constructor | repeat constructor | exact Ei].
Qed.
Lemma unk_plain u : unk_id b = Some u -> plain_id u.
Proof.
  pose proof Hb as Hb'. apply new_bpe_vocab in Hb' as (_ & Ev & _ & Eu & _). unfold unk_id. rewrite Ev, Eu. destruct (is_nil unk); [discriminate|]. intros H. exists unk. split; [apply sfind_in; exact H | exact Hunk].
Qed.
Lemma fallbacks_plain l : Forall (fun q => plain_id (fst q)) (flat_map (fallback_ids b) l).
Proof. apply Forall_flat_map. apply Forall_forall. intros p _. apply fallback_plain. Qed.
Lemma run_plain run out : run_symbols b run out -> Forall (fun q => plain_id (fst q)) out.
Proof.
  unfold run_symbols. destruct (unk_id b) as [u|] eqn:Eu; [|intros ->; apply fallbacks_plain]. pose proof (unk_plain u Eu) as HU. destruct (b_fuse_unk b).
  - intros ->. apply Forall_app. split; [apply fallbacks_plain|]. destruct (missed_count b run); [constructor|]. constructor; [exact HU | constructor].
  - induction 1 as [g Hg|run out m g H IH Hm Hg]; [apply fallbacks_plain|]. apply Forall_app. split; [exact IH|]. apply Forall_app. split; [apply fallbacks_plain|]. constructor; [exact HU | constructor].
Qed.
Lemma symbols_plain l out : word_symbols b l out -> (forall p i, In p l -> sfind p vocab = Some i -> plain_id i) -> Forall (fun q => plain_id (fst q)) out.
Proof.
  pose proof Hb as Hb'. apply new_bpe_vocab in Hb' as (_ & Ev & _). induction 1 as [run out H1 H2|run out p i rest more H1 H2 H3 H4 IH]; intros HP; [eapply run_plain; exact H2|].
  apply Forall_app. split; [eapply run_plain; exact H2|]. constructor; [cbn [fst]; apply (HP p i); [apply in_or_app; right; left; reflexivity | rewrite <- Ev; exact H3]|].
  apply IH. intros p' i' Hin. apply HP. apply in_or_app. right. right. exact Hin.
Qed.
Lemma same_text k k' i : In (k, i) vocab -> In (k', i) vocab -> k = k'.
Proof.
  clear - Hid. induction vocab as [|[k0 i0] v IH]; [intros []|]. cbn [map snd] in Hid. inversion Hid as [|? ? Hn HN]; subst. intros [H1|H1] [H2|H2].
  - congruence.
  - injection H1 as -> ->. exfalso. apply Hn. apply in_map_iff. exists (k', i). auto.
  - injection H2 as -> ->. exfalso. apply Hn. apply in_map_iff. exists (k, i). auto.
  - apply IH; assumption.
Qed.
Lemma step_plain x y : step (b_merges b) x y -> Forall (fun q => plain_id (fst q)) x -> Forall (fun q => plain_id (fst q)) y.
Proof.
  intros (rank & H) HF. destruct H as [A a la b0 lb B n Hm]. apply Forall_app in HF as [HA HF]. pose proof (Forall_inv HF) as Ha. pose proof (Forall_inv (Forall_inv_tail HF)) as Hbb. pose proof (Forall_inv_tail (Forall_inv_tail HF)) as HB. cbn beta in Ha, Hbb. cbn [fst] in Ha, Hbb.
  apply Forall_app. split; [exact HA|]. constructor; [|exact HB]. cbn [fst]. pose proof Hb as Hb'. apply new_bpe_vocab in Hb' as (HM & _).
  apply (build_merges_spec _ _ _ _ _ _ HM) in Hm as [Hm|(_ & k & line & _ & _ & (p & _ & G1 & G2 & G3) & _)]; [discriminate|].
  destruct Ha as (ka & I1 & P1). destruct Hbb as (kb & I2 & P2). rewrite <- (same_text _ _ _ (sfind_in _ _ _ G1) I1) in P1. rewrite <- (same_text _ _ _ (sfind_in _ _ _ G2) I2) in P2.
  exists (fst p ++ skipn (length pre) (snd p)). split; [apply sfind_in; exact G3|]. apply Forall_app. split; [exact P1|]. unfold plain in *. rewrite <- (firstn_skipn (length pre) (snd p)) in P2. apply Forall_app in P2. apply P2.
Qed.
Lemma steps_plain x y : steps (step (b_merges b)) x y -> Forall (fun q => plain_id (fst q)) x -> Forall (fun q => plain_id (fst q)) y.
Proof. induction 1 as [x|x y z H1 H2 IH]; [auto|]. intros HF. apply IH. eapply step_plain; eassumption. Qed.
End Ascii.

(** ** C107 *)
(** Every token of a word is plain ASCII, unless the model ignores merges and the word is itself a vocabulary text. *)
Theorem C107_tokens : forall E vocab merges d unk pre suf fu bf ig b c s ts, pq_ok E -> new_bpe vocab merges d unk pre suf fu bf ig = Ok b -> reach_cache E b c ->
  utf8_texts vocab -> NoDup (map snd vocab) -> plain pre -> plain suf -> plain unk -> snd (bpe_word E b c s) = Ok ts ->
  Forall (fun k => plain (tk_value k)) ts \/ (ig = true /\ exists i, sfind s vocab = Some i /\ ts = [mkTok i s (0, 0)]).
Proof.
  intros E vocab merges d unk pre suf fu bf ig b c s ts Hq Hb Hr Hu Hid Hp Hs Hk H. pose proof Hb as Hb'. apply new_bpe_vocab in Hb' as (_ & Ev & _ & _ & Ep & Es & _ & _ & Ei).
  assert (D : (not_direct b s \/ ~ no_dropout b) \/ (ig = true /\ exists i, sfind s vocab = Some i /\ ts = [mkTok i s (0, 0)])).
  { unfold bpe_word, tokenize_with_cache in H. unfold not_direct, no_dropout. destruct (QArith_base.Qeq_bool (b_dropout b) (QArith_base.Qmake 0 1)) eqn:Ed; [|left; right; intros Hx; apply QArith_base.Qeq_bool_iff in Hx; congruence].
    rewrite Ei, Ev in H |- *. destruct ig; [|left; left; discriminate]. destruct (sfind s vocab) as [i|] eqn:Ef; [|left; left; reflexivity]. right. split; [reflexivity|]. exists i. cbn [snd] in H. split; [reflexivity | congruence]. }
  destruct D as [D|D]; [left | right; exact D].
  destruct (word_ok E b c s ts Hq Hr D H) as (Hi & w & Hw & _ & Hts).
  destruct (C35_ids_resolve E vocab merges d unk pre suf fu bf ig b c s Hq Hb Hr Hi) as (ts' & T1 & T2). assert (ts' = ts) by congruence. subst ts'.
  destruct (merge_word_spec E b s Hq) as [[H1 _]|[_ (w' & Hw' & Hst & _)]]; [contradiction|]. assert (w' = w) by congruence. subst w'.
  assert (HF : Forall (fun q => plain_id vocab (fst q)) (token_seq ts)).
  { rewrite Hts. eapply steps_plain; [exact Hb | exact Hid | exact Hst|]. apply (symbols_plain vocab merges d unk pre suf fu bf ig b Hb Hu Hk _ _ (C33_initial_symbols b s)). rewrite Ep, Es. intros p i Hin. exact (piece_plain vocab pre suf Hu Hp Hs s p i Hin). }
  clear - HF T2 Hid. unfold token_seq in HF. rewrite Forall_map in HF. induction T2 as [|t ts Ht _ IH]; [constructor|]. pose proof (Forall_inv HF) as Hf. cbn beta in Hf. constructor; [|apply IH; exact (Forall_inv_tail HF)].
  cbn [fst] in Hf. destruct Hf as (k & I1 & P). rewrite (same_text vocab Hid _ _ _ Ht I1). exact P.
Qed.
Print Assumptions C107_tokens.

(** So, without ignore_merges, no text whatsoever - with any normalizer, pre-tokenizer and added tokens - is encoded with a token that has a non-ASCII character. *)
Lemma words_tokens E b l out : plain_words E b l = Ok out -> Forall (fun s => snd (bpe_word E b [] (sp_text s)) = Ok (sp_tokens s)) out.
Proof.
  revert out. induction l as [|s l IH]; intros out H; unfold plain_words in H; cbn [mapM] in H; [injection H as <-; constructor|]. fold (plain_words E b l) in H.
  destruct (snd (bpe_word E b [] (sp_text s))) as [ts| | |] eqn:Et; cbn [bind] in H; try discriminate. destruct (plain_words E b l) as [o| | |]; cbn [bind] in H; try discriminate. injection H as <-. constructor; [exact Et | apply IH; reflexivity].
Qed.
Lemma into_tokens ns ty : forall l i r, into_rows ns ty i l = Ok r -> en_tokens r = flat_map (fun s => map tk_value (sp_tokens s)) l.
Proof.
  induction l as [|s l IH]; intros i r H; cbn [into_rows] in H; [injection H as <-; reflexivity|]. destruct (split_base ns s) as [base| | |]; cbn [bind] in H; try discriminate. destruct (into_rows ns ty (S i) l) as [e| | |] eqn:Ee; cbn [bind] in H; try discriminate. injection H as <-.
  cbn [append_enc split_rows en_tokens flat_map]. rewrite (IH _ _ Ee). reflexivity.
Qed.
Theorem C107_encode : forall E fuel t vocab merges d unk pre suf fu bf b c s add r, pq_ok E -> new_bpe vocab merges d unk pre suf fu bf false = Ok b ->
  tz_model t = Some (MBpe b c) -> reach_cache E b c -> utf8_texts vocab -> NoDup (map snd vocab) -> plain pre -> plain suf -> plain unk ->
  snd (encode E fuel (bare t) s add) = Ok r -> Forall plain (en_tokens r).
Proof.
  intros E fuel t vocab merges d unk pre suf fu bf b c s add r Hq Hb Hm Hr Hu Hid Hp Hs Hk H. rewrite encode_bare in H. unfold text_encoding in H.
  destruct (prepare E t s) as [[av p]| | |]; cbn [bind] in H; try discriminate. rewrite Hm in H.
  assert (Hmt : forall p, snd (model_tokenize E (MBpe b c) p) = snd (bpe_tokenize E b c p)) by (intros p0; cbn [model_tokenize]; destruct (bpe_tokenize E b c p0); reflexivity).
  rewrite Hmt, (proj1 (bpe_tokenize_transparent E b c _ (reach_cache_ok E b c Hr))) in H. destruct (plain_words E b (pt_splits p)) as [out| | |] eqn:Eo; cbn [bind] in H; try discriminate.
  unfold into_encoding in H. cbn [pt_norm pt_splits] in H. rewrite (into_tokens _ _ _ _ _ H). apply Forall_flat_map. eapply Forall_impl; [|exact (words_tokens E b _ _ Eo)].
  intros x Hx. cbn beta in Hx. rewrite Forall_map. destruct (C107_tokens E vocab merges d unk pre suf fu bf false b [] (sp_text x) _ Hq Hb (reach_empty E b) Hu Hid Hp Hs Hk Hx) as [HF|[HF _]]; [exact HF | discriminate].
Qed.
Print Assumptions C107_encode.

Definition ea_vocab : smap Z := [(str "a", 0); ([0xC3; 0xA9]%N, 1); (str "a" ++ [0xC3; 0xA9]%N, 2); (str "<unk>", 3)]%Z.
Definition ea_bpe (ig : bool) : bpe := mkBpe ea_vocab [((0, 1), (0, 2))]%Z (QArith_base.Qmake 0 1) (str "<unk>") [] [] true false ig.
Definition ea_tz (ig : bool) : tokenizer := mkTz None None (Some (new_added_vocab [])) None (Some TBert) (Some (MBpe (ea_bpe ig) [])) None None.
(** "aé" and "é" are in the vocabulary, with the merge that makes the first; the text "aé" still comes out as "a", unknown - and whole with ignore_merges. *)
Example C107_case : pq_ok test_env /\ (forall ig, new_bpe ea_vocab [str "a " ++ [0xC3; 0xA9]%N] (QArith_base.Qmake 0 1) (str "<unk>") [] [] true false ig = Ok (ea_bpe ig)) /\ utf8_texts ea_vocab /\ NoDup (map snd ea_vocab) /\ plain (str "<unk>") /\
  (exists r, snd (encode test_env 0 (ea_tz false) [97; 0xE9]%N false) = Ok r /\ en_tokens r = [str "a"; str "<unk>"]) /\
  (exists r, snd (encode test_env 0 (ea_tz true) [97; 0xE9]%N false) = Ok r /\ en_tokens r = [str "a" ++ [0xC3; 0xA9]%N]).
Proof.
  split; [exact test_env_pq|]. split; [intros ig; destruct ig; vm_compute; reflexivity|]. split.
  - intros k i [H|[H|[H|[H|[]]]]]; injection H as <- _; [exists [97]%N | exists [0xE9]%N | exists [97; 0xE9]%N | exists (str "<unk>")]; split; reflexivity.
  - split; [repeat (constructor; [cbn; intuition discriminate|]); constructor|]. split; [repeat constructor|]. split; (eexists; split; [vm_compute; reflexivity | reflexivity]).
Qed.
