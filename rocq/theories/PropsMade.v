(** C119: a BPE tokenizer emits only what the merges can make; added tokens are no exception. Specification: MadeSpec.v. *)
From Verif Require Import Base BaseFacts Unicode UnicodeProofs Common Utils PostProcessor Decoder Normalizer PreTokenizer WordPiece Bpe AddedVocab Tokenizer Spec PostSpec
  TzSpec TzProofs RefSpec RefProofs BpeSpec BpeProofs BpeWord UnkSpec PropsUnknown TextProofs PropsBpe PropsEncode PropsAscii MergeSpec PropsMerges MadeSpec Env HistSpec AvSpec PropsAdded.
From Coq Require Import ZifyBool ZifyNat ZifyN Relations.
From Coq Require QArith_base.

Section Made.
Context (vocab : smap Z) (merges : list bytes) (d : QArith_base.Q) (unk pre suf : bytes) (fu bf ig : bool) (b : bpe).
Hypothesis Hb : new_bpe vocab merges d unk pre suf fu bf ig = Ok b.
Hypothesis Hid : NoDup (map snd vocab).
Notation md := (made vocab merges unk pre suf bf).
Definition made_id (i : Z) : Prop := exists k, In (k, i) vocab /\ md k.
Lemma piece_made s p i : In p (pieces pre suf s) -> sfind p vocab = Some i -> made_id i.
Proof.
  intros Hin H. exists p. split; [apply sfind_in; exact H|]. unfold pieces in Hin. apply in_map_iff in Hin as ([k x] & <- & _). cbn [fst snd] in H |- *. unfold piece_at in *.
  apply md_byte; [destruct (k =? 0); auto | destruct (S k =? length s); auto | exists i; exact H].
Qed.
Lemma fallback_made p : Forall (fun q => made_id (fst q)) (fallback_ids b p).
Proof.
  pose proof Hb as Hb'. apply new_bpe_vocab in Hb' as (_ & Ev & _ & _ & _ & _ & _ & Ef & _). unfold fallback_ids. rewrite Ef. destruct bf eqn:Ebf; [|constructor]. apply Forall_flat_map. apply Forall_forall. intros y _. rewrite Ev.
  destruct (sfind (str "<000" ++ [y] ++ str ">") vocab) as [i|] eqn:Ei; [|constructor]. constructor; [|constructor]. cbn [fst]. exists (str "<000" ++ [y] ++ str ">"). split; [apply sfind_in; exact Ei|].
  rewrite Ebf. apply md_fallback; [reflexivity | exists i; exact Ei].
Qed.
Lemma unk_made u : unk_id b = Some u -> made_id u.
Proof.
  pose proof Hb as Hb'. apply new_bpe_vocab in Hb' as (_ & Ev & _ & Eu & _). unfold unk_id. rewrite Ev, Eu. destruct (is_nil unk) eqn:En; [discriminate|]. intros H. exists unk. split; [apply sfind_in; exact H|].
  apply md_unknown; [intros E; rewrite E in En; discriminate | exists u; exact H].
Qed.
Lemma fallbacks_made l : Forall (fun q => made_id (fst q)) (flat_map (fallback_ids b) l).
Proof. apply Forall_flat_map. apply Forall_forall. intros p _. apply fallback_made. Qed.
Lemma run_made run out : run_symbols b run out -> Forall (fun q => made_id (fst q)) out.
Proof.
  unfold run_symbols. destruct (unk_id b) as [u|] eqn:Eu; [|intros ->; apply fallbacks_made]. pose proof (unk_made u Eu) as HU. destruct (b_fuse_unk b).
  - intros ->. apply Forall_app. split; [apply fallbacks_made|]. destruct (missed_count b run); [constructor|]. constructor; [exact HU | constructor].
  - induction 1 as [g Hg|run out m g H IH Hm Hg]; [apply fallbacks_made|]. apply Forall_app. split; [exact IH|]. apply Forall_app. split; [apply fallbacks_made|]. constructor; [exact HU | constructor].
Qed.
Lemma symbols_made l out : word_symbols b l out -> (forall p i, In p l -> sfind p vocab = Some i -> made_id i) -> Forall (fun q => made_id (fst q)) out.
Proof.
  pose proof Hb as Hb'. apply new_bpe_vocab in Hb' as (_ & Ev & _). induction 1 as [run out H1 H2|run out p i rest more H1 H2 H3 H4 IH]; intros HP; [eapply run_made; exact H2|].
  apply Forall_app. split; [eapply run_made; exact H2|]. constructor; [cbn [fst]; apply (HP p i); [apply in_or_app; right; left; reflexivity | rewrite <- Ev; exact H3]|].
  apply IH. intros p' i' Hin. apply HP. apply in_or_app. right. right. exact Hin.
Qed.
Lemma step_made x y : step (b_merges b) x y -> Forall (fun q => made_id (fst q)) x -> Forall (fun q => made_id (fst q)) y.
Proof.
  intros (rank & H) HF. destruct H as [A a la b0 lb B n Hm]. apply Forall_app in HF as [HA HF]. pose proof (Forall_inv HF) as Ha. pose proof (Forall_inv (Forall_inv_tail HF)) as Hbb. pose proof (Forall_inv_tail (Forall_inv_tail HF)) as HB. cbn beta in Ha, Hbb. cbn [fst] in Ha, Hbb.
  apply Forall_app. split; [exact HA|]. constructor; [|exact HB]. cbn [fst]. apply (C116_table _ _ _ _ _ _ _ _ _ _ Hb) in Hm as (k & _ & (line & Hl & (p & q & R & G1 & G2 & G3)) & _).
  destruct Ha as (ka & I1 & P1). destruct Hbb as (kb & I2 & P2). rewrite <- (same_text vocab Hid _ _ _ (sfind_in _ _ _ G1) I1) in P1. rewrite <- (same_text vocab Hid _ _ _ (sfind_in _ _ _ G2) I2) in P2.
  exists (p ++ skipn (length pre) q). split; [apply sfind_in; exact G3|]. eapply md_rule; [eapply nth_error_In; exact Hl | exact R | exact P1 | exact P2 | exists n; exact G3].
Qed.
Lemma steps_made x y : steps (step (b_merges b)) x y -> Forall (fun q => made_id (fst q)) x -> Forall (fun q => made_id (fst q)) y.
Proof. induction 1 as [x|x y z H1 H2 IH]; [auto|]. intros HF. apply IH. eapply step_made; eassumption. Qed.
End Made.

(** Every token of a word is made by the merges, unless the model ignores merges and the word is itself a vocabulary text. *)
Theorem C119_word : forall E vocab merges d unk pre suf fu bf ig b c s ts, pq_ok E -> new_bpe vocab merges d unk pre suf fu bf ig = Ok b -> reach_cache E b c ->
  NoDup (map snd vocab) -> snd (bpe_word E b c s) = Ok ts ->
  Forall (fun k => made vocab merges unk pre suf bf (tk_value k)) ts \/ (ig = true /\ exists i, sfind s vocab = Some i /\ ts = [mkTok i s (0, 0)]).
Proof.
  intros E vocab merges d unk pre suf fu bf ig b c s ts Hq Hb Hr Hid H. pose proof Hb as Hb'. apply new_bpe_vocab in Hb' as (_ & Ev & _ & _ & Ep & Es & _ & _ & Ei).
  assert (D : (not_direct b s \/ ~ no_dropout b) \/ (ig = true /\ exists i, sfind s vocab = Some i /\ ts = [mkTok i s (0, 0)])).
  { unfold bpe_word, tokenize_with_cache in H. unfold not_direct, no_dropout. destruct (QArith_base.Qeq_bool (b_dropout b) (QArith_base.Qmake 0 1)) eqn:Ed; [|left; right; intros Hx; apply QArith_base.Qeq_bool_iff in Hx; congruence].
    rewrite Ei, Ev in H |- *. destruct ig; [|left; left; discriminate]. destruct (sfind s vocab) as [i|] eqn:Ef; [|left; left; reflexivity]. right. split; [reflexivity|]. exists i. cbn [snd] in H. split; [reflexivity | congruence]. }
  destruct D as [D|D]; [left | right; exact D].
  destruct (word_ok E b c s ts Hq Hr D H) as (Hi & w & Hw & _ & Hts).
  destruct (C35_ids_resolve E vocab merges d unk pre suf fu bf ig b c s Hq Hb Hr Hi) as (ts' & T1 & T2). assert (ts' = ts) by congruence. subst ts'.
  destruct (merge_word_spec E b s Hq) as [[H1 _]|[_ (w' & Hw' & Hst & _)]]; [contradiction|]. assert (w' = w) by congruence. subst w'.
  assert (HF : Forall (fun q => made_id vocab merges unk pre suf bf (fst q)) (token_seq ts)).
  { rewrite Hts. eapply steps_made; [exact Hb | exact Hid | exact Hst|]. apply (symbols_made vocab merges d unk pre suf fu bf ig b Hb _ _ (C33_initial_symbols b s)). rewrite Ep, Es. intros p i Hin. exact (piece_made vocab merges unk pre suf bf s p i Hin). }
  clear - HF T2 Hid. unfold token_seq in HF. rewrite Forall_map in HF. induction T2 as [|t ts Ht _ IH]; [constructor|]. pose proof (Forall_inv HF) as Hf. cbn beta in Hf. constructor; [|apply IH; exact (Forall_inv_tail HF)].
  cbn [fst] in Hf. destruct Hf as (k & I1 & P). rewrite (same_text vocab Hid _ _ _ Ht I1). exact P.
Qed.
Print Assumptions C119_word.

(** So for every text, normalizer, pre-tokenizer and set of added tokens: every position of the result and of its overflowing parts that is not a special token of the template or padding shows a
    token made by the merges, with its id in the vocabulary. *)
Theorem C119_encode : forall E fuel t vocab merges d unk pre suf fu bf b c s add r, pq_ok E -> new_bpe vocab merges d unk pre suf fu bf false = Ok b ->
  tz_model t = Some (MBpe b c) -> reach_cache E b c -> NoDup (map snd vocab) -> (forall p, tz_post t = Some p -> specials_ok p) ->
  snd (encode E fuel t s add) = Ok r -> forall x y, part r x -> In y (rows x) ->
  (made vocab merges unk pre suf bf (r_token y) /\ In (r_token y, r_id y) vocab) \/ (add = true /\ special_row (tz_specials t) y) \/ (exists p, tz_pad t = Some p /\ pad_row p y).
Proof.
  intros E fuel t vocab merges d unk pre suf fu bf b c s add r Hq Hb Hm Hr Hid HS H x y Hx Hy.
  destruct (C12_masks E fuel t s add r HS H) as (core & Hc & HM). destruct (HM x y Hx Hy) as [He|He]; [left | right; exact He].
  assert (HT : Forall2 (fun k i => made vocab merges unk pre suf bf k /\ In (k, i) vocab) (en_tokens core) (en_ids core)).
  { clear - Hc Hm Hr Hb Hid Hq. unfold text_encoding in Hc. destruct (prepare E t s) as [[av p]| | |]; cbn [bind] in Hc; try discriminate. rewrite Hm in Hc.
    assert (Hmt : forall p, snd (model_tokenize E (MBpe b c) p) = snd (bpe_tokenize E b c p)) by (intros p0; cbn [model_tokenize]; destruct (bpe_tokenize E b c p0); reflexivity).
    rewrite Hmt, (proj1 (bpe_tokenize_transparent E b c _ (reach_cache_ok E b c Hr))) in Hc. destruct (plain_words E b (pt_splits p)) as [out| | |] eqn:Eo; cbn [bind] in Hc; try discriminate.
    unfold into_encoding in Hc. cbn [pt_norm pt_splits] in Hc. pose proof (words_tokens E b _ _ Eo) as HW. generalize dependent core. generalize 0 at 1 as i. clear Eo. 
    induction HW as [|sp out Hsp HW IH]; intros i core Hc; cbn [into_rows] in Hc; [injection Hc as <-; constructor|].
    destruct (split_base (pt_norm p) sp) as [base| | |]; cbn [bind] in Hc; try discriminate. destruct (into_rows (pt_norm p) 0 (S i) out) as [e| | |] eqn:Ee; cbn [bind] in Hc; try discriminate. injection Hc as <-.
    cbn [append_enc split_rows en_tokens en_ids]. apply Forall2_app; [|exact (IH _ _ Ee)].
    destruct (C119_word E vocab merges d unk pre suf fu bf false b [] (sp_text sp) _ Hq Hb (reach_empty E b) Hid Hsp) as [HF|[HF _]]; [|discriminate].
    assert (HV : Forall (fun k => In (tk_value k, tk_id k) vocab) (sp_tokens sp)).
    { assert (D : not_direct b (sp_text sp) \/ ~ no_dropout b) by (left; intros Ei; pose proof Hb as Hb'; apply new_bpe_vocab in Hb'; destruct Hb' as (_ & _ & _ & _ & _ & _ & _ & _ & Ei'); congruence).
      destruct (word_ok E b [] (sp_text sp) _ Hq (reach_empty E b) D Hsp) as (Hi & _). destruct (C35_ids_resolve E vocab merges d unk pre suf fu bf false b [] (sp_text sp) Hq Hb (reach_empty E b) Hi) as (ts' & T1 & T2). congruence. }
    clear - HF HV. induction HF as [|k l Hk _ IH]; [constructor|]. cbn [map]. constructor; [split; [exact Hk | exact (Forall_inv HV)] | apply IH; exact (Forall_inv_tail HV)]. }
  destruct He as (_ & _ & r0 & Hi & -> & -> & _). destruct (text_encoding_parallel E t s core Hc) as [HP _].
  destruct (rows_cols core HP) as (<- & _ & E2 & _) in HT. rewrite <- E2 in HT. clear - HT Hi. induction (rows core) as [|z l IH]; [destruct Hi|]. cbn [map] in HT. inversion HT; subst. destruct Hi as [<-|Hi]; auto.
Qed.
Print Assumptions C119_encode.

(** What is not made: a text of two bytes or more, other than the unknown token, that does not start or end with an affix, is no byte-fallback token and is the result of no rule. *)
Theorem C119_not_made : forall vocab lines unk pre suf bf k, 2 <= length k -> k <> unk -> (pre <> [] -> ~ exists r, k = pre ++ r) -> (suf <> [] -> ~ exists r, k = r ++ suf) ->
  (bf = true -> forall x, k <> str "<000" ++ [x] ++ str ">") -> (forall line p q, In line lines -> rule_text line (p, q) -> k <> p ++ skipn (length pre) q) -> ~ made vocab lines unk pre suf bf k.
Proof.
  intros vocab lines unk pre suf bf k H2 Hu Hp Hs Hf Hr H. destruct H as [p x q H4 H5 _ | _ _ | x Hbf _ | line p q Hl HR _ _ _].
  - destruct H4 as [-> | ->], H5 as [-> | ->]; cbn [app] in *.
    + cbn in H2. lia.
    + destruct suf as [|z suf']; [cbn in H2; lia|]. apply Hs; [discriminate|]. exists [x]. reflexivity.
    + destruct pre as [|z pre']; [cbn in H2; lia|]. apply Hp; [discriminate|]. eexists. reflexivity.
    + destruct pre as [|z pre']; [destruct suf as [|z suf']; [cbn in H2; lia|]; apply Hs; [discriminate|]; exists [x]; reflexivity|]. apply Hp; [discriminate|]. eexists. reflexivity.
  - congruence.
  - exact (Hf Hbf x eq_refl).
  - exact (Hr line p q Hl HR eq_refl).
Qed.
Print Assumptions C119_not_made.

(** A GPT-2 style tokenizer whose special token is in the vocabulary and in the added tokens: the text that is nothing but this token comes out letter by letter, with decode's help unrecognisable, whereas the
    same entry with ignore_merges comes out whole. *)
Definition eot_vocab : smap Z := [(str "<", 0); (str "|", 1); (str "e", 2); (str "o", 3); (str "t", 4); (str ">", 5); (str "eo", 6); (str "<|eot|>", 7)]%Z.
Definition eot_bpe (ig : bool) : bpe := mkBpe eot_vocab [((2, 3), (0, 6))]%Z (QArith_base.Qmake 0 1) [] [] [] false false ig.
Definition eot_tokens : list added_token := [mkAt 7 (str "<|eot|>") false false false false true].
Definition eot_tz (ig : bool) : tokenizer := mkTz None None (Some (new_added_vocab eot_tokens)) None (Some (TByteLevel false true)) (Some (MBpe (eot_bpe ig) [])) (Some DByteLevel) None.
Example C119_case : pq_ok test_env /\ NoDup (map snd eot_vocab) /\ (forall ig, new_bpe eot_vocab [str "e o"] (QArith_base.Qmake 0 1) [] [] [] false false ig = Ok (eot_bpe ig)) /\
  made eot_vocab [str "e o"] [] [] [] false (str "eo") /\ ~ made eot_vocab [str "e o"] [] [] [] false (str "<|eot|>") /\
  (exists t r, finish_construction (eot_tz false) = Ok t /\ snd (encode test_env 10 t (str "<|eot|>") false) = Ok r /\ en_tokens r = [str "<"; str "|"; str "eo"; str "t"; str "|"; str ">"] /\ en_ids r = [0; 1; 6; 4; 1; 5]%Z) /\
  (exists t r, finish_construction (eot_tz true) = Ok t /\ snd (encode test_env 10 t (str "<|eot|>") false) = Ok r /\ en_ids r = [7]%Z /\ en_offsets r = [(0, 0)]).
Proof.
  split; [exact test_env_pq|]. split; [repeat (constructor; [cbn; intuition discriminate|]); constructor|]. split; [intros ig; destruct ig; vm_compute; reflexivity|].
  assert (R : rule_text (str "e o") (str "e", str "o")) by (apply two_fields_iff; reflexivity).
  split; [|split].
  - change (str "eo") with (str "e" ++ skipn (length (@nil N)) (str "o")). eapply md_rule; [left; reflexivity | exact R | | | exists 6%Z; reflexivity];
      [change (str "e") with ([] ++ [101%N] ++ []) | change (str "o") with ([] ++ [111%N] ++ [])]; (apply md_byte; [left; reflexivity | left; reflexivity | eexists; reflexivity]).
  - apply C119_not_made; try congruence; try (cbn; lia); [discriminate|]. intros line p q [<-|[]] HR. destruct (C116_parts _ _ _ _ _ R HR) as [<- <-]. discriminate.
  - split; (eexists; eexists; split; [vm_compute; reflexivity|]; split; [vm_compute; reflexivity|]; split; reflexivity).
Qed.
