(** C108: which ids encode returns, and that decode accepts them. Specification: DecodableSpec.v. *)
From Verif Require Import Base BaseFacts Unicode Common Utils PostProcessor Decoder Normalizer PreTokenizer WordPiece Bpe AddedVocab Tokenizer Spec
  PostSpec AvSpec AvProofs TzSpec TzProofs WpSpec WpProofs OffSpec OffProofs RefSpec RefProofs TextProofs BpeSpec BpeProofs BpeWord BpeRefSpec OutSpec HistSpec HistProofs
  PropsBpe PropsReference PropsBpeText PropsAscii PropsEncode PropsDecoder PropsHistory RoundProofs PropsRound Env AsciiSpec DecodableSpec.
From Coq Require Import ZifyBool ZifyNat ZifyN.
From Coq Require QArith_base.

Lemma wp_entries w s ts : wp_word w s = Ok ts -> Forall (fun k => model_entry (MWordPiece w) (tk_value k) (tk_id k)) ts.
Proof.
  intros H. destruct (wp_word_spec w s) as (ts' & Hts & Hc). rewrite H in Hts. injection Hts as <-.
  assert (HU : forall n, model_entry (MWordPiece w) (tk_value (wp_unk_token w n)) (tk_id (wp_unk_token w n))).
  { intros n. unfold wp_unk_token, model_entry. cbn [tk_value tk_id model_vocab]. destruct (sfind (wp_unk w) (wp_vocab w)) as [i|] eqn:E; [left; apply sfind_in; exact E | right; exists w; auto]. }
  destruct Hc as [(_ & ->)|[(_ & Hg)|(_ & _ & ->)]]; [constructor; [apply HU | constructor] | | constructor; [apply HU | constructor]].
  apply greedy_tiles in Hg as [_ HF]. eapply Forall_impl; [|exact HF]. intros k [_ Hk]. left. apply sfind_in. exact Hk.
Qed.
Lemma bpe_entries E vocab merges d unk pre suf fu bf ig b c s ts : pq_ok E -> new_bpe vocab merges d unk pre suf fu bf ig = Ok b -> reach_cache E b c -> snd (bpe_word E b c s) = Ok ts ->
  Forall (fun k => model_entry (MBpe b c) (tk_value k) (tk_id k)) ts.
Proof.
  intros Hq Hb Hr H. pose proof Hb as Hb'. apply new_bpe_vocab in Hb' as (_ & Ev & _ & _ & _ & _ & _ & _ & Ei).
  assert (D : (not_direct b s \/ ~ no_dropout b) \/ (exists i, sfind s vocab = Some i /\ ts = [mkTok i s (0, 0)])).
  { unfold bpe_word, tokenize_with_cache in H. unfold not_direct, no_dropout. destruct (QArith_base.Qeq_bool (b_dropout b) (QArith_base.Qmake 0 1)) eqn:Ed; [|left; right; intros Hx; apply QArith_base.Qeq_bool_iff in Hx; congruence].
    rewrite Ei, Ev in H |- *. destruct ig; [|left; left; discriminate]. destruct (sfind s vocab) as [i|] eqn:Ef; [|left; left; reflexivity]. right. exists i. cbn [snd] in H. split; [reflexivity | congruence]. }
  unfold model_entry. cbn [model_vocab]. rewrite Ev. destruct D as [D|(i & D & ->)].
  - destruct (word_ok E b c s ts Hq Hr D H) as (Hi & _). destruct (C35_ids_resolve E vocab merges d unk pre suf fu bf ig b c s Hq Hb Hr Hi) as (ts' & T1 & T2). assert (ts' = ts) by congruence. subst ts'.
    eapply Forall_impl; [|exact T2]. intros k Hk. left. exact Hk.
  - constructor; [|constructor]. left. apply sfind_in. exact D.
Qed.
Lemma text_entries E t m s core : pq_ok E -> built_model E (reach_cache E) t -> tz_model t = Some m -> text_encoding E t s = Ok core ->
  Forall2 (model_entry m) (en_tokens core) (en_ids core).
Proof.
  intros Hq Hb Hm H. unfold text_encoding in H. destruct (prepare E t s) as [[av p]| | |]; cbn [bind] in H; try discriminate. rewrite Hm in H.
  assert (K : exists out, (match into_rows (pt_norm p) 0 0 out with Ok e => e = core | _ => False end) /\ Forall (fun x => Forall (fun k => model_entry m (tk_value k) (tk_id k)) (sp_tokens x)) out).
  { destruct m as [w|b c].
    - cbn [model_tokenize snd] in H. destruct (wp_tokenize_ok w p) as (l & Hl & HF). rewrite Hl in H. cbn [bind] in H. unfold into_encoding in H. cbn [pt_norm pt_splits] in H. exists l. rewrite H. split; [reflexivity|].
      clear - HF. induction HF as [|x y l l' (_ & _ & Hw) _ IH]; constructor; [eapply wp_entries; exact Hw | exact IH].
    - assert (Hmt : forall p, snd (model_tokenize E (MBpe b c) p) = snd (bpe_tokenize E b c p)) by (intros p0; cbn [model_tokenize]; destruct (bpe_tokenize E b c p0); reflexivity).
      destruct (Hb b c Hm) as (Hr & vocab & merges & d & unk & pre & suf & fu & bf & ig & Hn).
      rewrite Hmt, (proj1 (bpe_tokenize_transparent E b c _ (reach_cache_ok E b c Hr))) in H. destruct (plain_words E b (pt_splits p)) as [out| | |] eqn:Eo; cbn [bind] in H; try discriminate.
      unfold into_encoding in H. cbn [pt_norm pt_splits] in H. exists out. rewrite H. split; [reflexivity|]. eapply Forall_impl; [|exact (words_tokens E b _ _ Eo)].
      intros x Hx. cbn beta in Hx. pose proof (bpe_entries E vocab merges d unk pre suf fu bf ig b [] _ _ Hq Hn (reach_empty E b) Hx) as HE. eapply Forall_impl; [|exact HE]. intros k [Hk|(w & Hk & _)]; [left; exact Hk | discriminate]. }
  destruct K as (out & K1 & K2). destruct (into_rows (pt_norm p) 0 0 out) as [e| | |] eqn:Ee; try contradiction. subst e. destruct (into_rows_cols _ _ _ _ _ Ee) as [-> ->].
  clear - K2. induction K2 as [|x l Hx _ IH]; cbn [flat_map]; [constructor|]. apply Forall2_app; [|exact IH]. induction Hx as [|k ks Hk _ IHk]; cbn [map]; constructor; assumption.
Qed.

(** ** C108 *)
(** Every position of the result and of its overflowing encodings that comes from the text shows an entry of the model's vocabulary, with its id. *)
Theorem C108_entries : forall E fuel t m s add r, pq_ok E -> built_model E (reach_cache E) t -> tz_model t = Some m -> (forall p, tz_post t = Some p -> specials_ok p) ->
  snd (encode E fuel t s add) = Ok r -> forall x y, part r x -> In y (rows x) ->
  model_entry m (r_token y) (r_id y) \/ (add = true /\ special_row (tz_specials t) y) \/ (exists p, tz_pad t = Some p /\ pad_row p y).
Proof.
  intros E fuel t m s add r Hq Hb Hm Hs H x y Hx Hy. destruct (C12_masks E fuel t s add r Hs H) as (core & Hc & HM). destruct (HM x y Hx Hy) as [HT|HT]; [left | right; exact HT].
  destruct HT as (_ & _ & r0 & Hi & -> & -> & _). pose proof (text_entries E t m s core Hq Hb Hm Hc) as HE. destruct (text_encoding_parallel E t s core Hc) as [HP _].
  destruct (rows_cols core HP) as (<- & _ & E2 & _) in HE. rewrite <- E2 in HE. clear - HE Hi. induction (rows core) as [|z l IH]; [destruct Hi|]. cbn [map] in HE. inversion HE; subst. destruct Hi as [<-|Hi]; auto.
Qed.
Print Assumptions C108_entries.

Lemma entry_known v ops av m i k : dense v -> v <> [] -> history v ops av -> model_vocab m = v -> model_entry m k i -> known v av i.
Proof.
  intros Hd Hn Hh Hv He. assert (HZ : exists k0, In (k0, i) v).
  { destruct He as [He|(w & -> & _ & -> & _)]; [rewrite Hv in He; eauto|]. cbn [model_vocab] in Hv. clear Hh. destruct Hd as (_ & Hd2 & Hd3).
    assert (HI : incl (map Z.of_nat (seq 0 (length v))) (map snd v)).
    { apply NoDup_length_incl; [exact Hd2 | rewrite !map_length, seq_length; reflexivity|]. intros z Hz. apply in_map_iff in Hz as (q & <- & Hq). rewrite Forall_forall in Hd3. specialize (Hd3 q Hq). apply in_map_iff. exists (Z.to_nat (snd q)). split; [lia|]. apply in_seq. lia. }
    assert (H0 : In 0%Z (map snd v)). { apply HI. destruct v; [contradiction|]. left. reflexivity. } apply in_map_iff in H0 as ([k0 z] & <- & H0). exists k0. exact H0. }
  destruct HZ as (k0 & HZ). exists k0. eapply vocab_denotes; [exact Hd | exact Hn | exact Hh|]. apply sfind_nodup; [apply Hd | exact HZ].
Qed.

(** decode returns a text exactly for lists of known ids; for any other it throws. *)
Theorem C108_decode_iff : forall v ops av t m d, dense v -> v <> [] -> history v ops av ->
  tz_av t = Some av -> tz_model t = Some m -> model_vocab m = v -> tz_dec t = Some d ->
  forall ids skip, ((exists text, decode t ids skip = Ok text) <-> Forall (known v av) ids) /\ (~ Forall (known v av) ids -> decode t ids skip = Throw BadOptionalAccess).
Proof.
  intros v ops av t m d Hd Hn Hh Hav Hm Hv Hdec ids skip.
  assert (HD : Forall (known v av) ids \/ exists i, In i ids /\ forall s, ~ denotes v av i s).
  { induction ids as [|i ids IH]; [left; constructor|]. destruct (proj2 (C21_denotes_unique v ops av Hd Hn Hh i)) as [Hi|Hi]; [|right; exists i; split; [left; reflexivity | exact Hi]].
    destruct IH as [IH|(j & Hj & Hj')]; [left; constructor; assumption | right; exists j; split; [right; exact Hj | exact Hj']]. }
  assert (HOK : Forall (known v av) ids -> exists text, decode t ids skip = Ok text).
  { intros HF. assert (HT : exists texts, Forall2 (denotes v av) ids texts). { clear - HF. induction HF as [|i ids (k & Hk) _ (ks & IH)]; [exists []; constructor | exists (k :: ks); constructor; assumption]. } destruct HT as (texts & HT).
    assert (HW : exists kept, without (fun s => skip = true /\ registered_special ops s) texts kept).
    { clear - texts. induction texts as [|k ks (kept & IH)]; [exists []; constructor|]. destruct skip; [|exists (k :: kept); apply wo_keep; [intros [C _]; discriminate | exact IH]].
      assert (HR : registered_special ops k \/ ~ registered_special ops k).
      { unfold registered_special. destruct k as [|k0 k1]; [right; intros [C _]; congruence|]. destruct (existsb (fun tok => at_special tok && leqb (at_content tok) (k0 :: k1)) ops) eqn:Ex.
        - left. split; [discriminate|]. apply existsb_exists in Ex as (tok & Hin & Hx). apply andb_prop in Hx as [X1 X2]. apply leqb_eq in X2. exists tok. auto.
        - right. intros (_ & tok & Hin & X1 & X2). assert (existsb (fun tok => at_special tok && leqb (at_content tok) (k0 :: k1)) ops = true); [|congruence]. apply existsb_exists. exists tok. split; [exact Hin|]. rewrite X1, X2. cbn [andb]. apply leqb_eq. reflexivity. }
      destruct HR as [HR|HR]; [exists kept; apply wo_drop; [split; [reflexivity | exact HR] | exact IH] | exists (k :: kept); apply wo_keep; [intros [_ C]; contradiction | exact IH]]. }
    destruct HW as (kept & HW). rewrite (C21_decode v ops av t m d Hd Hn Hh Hav Hm Hv Hdec ids texts skip kept HT HW). destruct (proj1 (C20_no_text_iff d) kept) as (out & ->). cbn [bind]. eexists. reflexivity. }
  assert (HNO : (exists i, In i ids /\ forall s, ~ denotes v av i s) -> decode t ids skip = Throw BadOptionalAccess) by exact (C21_unknown_id v ops av t m d Hd Hn Hh Hav Hm Hv Hdec ids skip).
  split; [split; [|exact HOK]|].
  - intros (text & Ht). destruct HD as [HF|HF]; [exact HF|]. rewrite (HNO HF) in Ht. discriminate.
  - intros HF. destruct HD as [HG|HG]; [contradiction | exact (HNO HG)].
Qed.
Print Assumptions C108_decode_iff.

(** The ids of the result and of every overflowing encoding can be decoded - by the same tokenizer, or after any further additions of tokens ([t2]) - if the ids of
    the special tokens of the template (when they are added) and of the padding stand for something. *)
Theorem C108_decodes : forall E fuel t m s add r v ops av t2 m2 d, pq_ok E -> built_model E (reach_cache E) t -> tz_model t = Some m -> (forall p, tz_post t = Some p -> specials_ok p) ->
  dense v -> v <> [] -> model_vocab m = v -> history v ops av -> tz_av t2 = Some av -> tz_model t2 = Some m2 -> model_vocab m2 = v -> tz_dec t2 = Some d ->
  (add = true -> forall st i, In st (tz_specials t) -> In i (st_ids st) -> known v av i) -> (forall p, tz_pad t = Some p -> known v av (p_id p)) ->
  snd (encode E fuel t s add) = Ok r -> forall x skip, part r x -> exists text, decode t2 (en_ids x) skip = Ok text.
Proof.
  intros E fuel t m s add r v ops av t2 m2 d Hq Hb Hm Hs Hd Hn Hv Hh Hav Hm2 Hv2 Hdec HS HPd H x skip Hx. apply (C108_decode_iff v ops av t2 m2 d Hd Hn Hh Hav Hm2 Hv2 Hdec).
  pose proof (C10_parallel_columns E fuel t s add r Hs H) as HP. assert (HX : flat_parallel x). { clear - HP Hx. induction Hx as [e|e o x Ho _ IH]; inversion HP as [? HF HO]; subst; [exact HF|]. apply IH. rewrite Forall_forall in HO. apply HO. exact Ho. }
  destruct (rows_cols x HX) as (<- & _). rewrite Forall_map. apply Forall_forall. intros y Hy. destruct (C108_entries E fuel t m s add r Hq Hb Hm Hs H x y Hx Hy) as [He|[[Ha He]|(p & Hp & He)]].
  - exact (entry_known v ops av m _ _ Hd Hn Hh Hv He).
  - destruct He as (_ & _ & _ & _ & st & j & Hst & Hj & _). exact (HS Ha st _ Hst (nth_error_In _ _ Hj)).
  - rewrite He. cbn [r_id]. exact (HPd p Hp).
Qed.
Print Assumptions C108_decodes.

(** C107 for the whole pipeline: if the template's special tokens and the padding token are plain ASCII, so is every token of the result and of its overflowing encodings. *)
Theorem C107_everything : forall E fuel t vocab merges d unk pre suf fu bf b c s add r, pq_ok E -> new_bpe vocab merges d unk pre suf fu bf false = Ok b ->
  tz_model t = Some (MBpe b c) -> reach_cache E b c -> utf8_texts vocab -> NoDup (map snd vocab) -> plain pre -> plain suf -> plain unk ->
  (forall p, tz_post t = Some p -> specials_ok p) -> (forall st k, In st (tz_specials t) -> In k (st_tokens st) -> plain k) -> (forall p, tz_pad t = Some p -> plain (p_token p)) ->
  snd (encode E fuel t s add) = Ok r -> forall x, part r x -> Forall plain (en_tokens x).
Proof.
  intros E fuel t vocab merges d unk pre suf fu bf b c s add r Hq Hb Hm Hr Hu Hid Hp Hs Hk HS HT HPd H x Hx.
  pose proof (C10_parallel_columns E fuel t s add r HS H) as HP. assert (HX : flat_parallel x). { clear - HP Hx. induction Hx as [e|e o x Ho _ IH]; inversion HP as [? HF HO]; subst; [exact HF|]. apply IH. rewrite Forall_forall in HO. apply HO. exact Ho. }
  destruct (C12_masks E fuel t s add r HS H) as (core & Hc & HM). pose proof (C107_encode E fuel t vocab merges d unk pre suf fu bf b c s add core Hq Hb Hm Hr Hu Hid Hp Hs Hk) as HC. rewrite encode_bare in HC. specialize (HC Hc).
  destruct (rows_cols x HX) as (_ & _ & <- & _). rewrite Forall_map. apply Forall_forall. intros y Hy. destruct (HM x y Hx Hy) as [He|[[_ He]|(p & Hpp & He)]].
  - destruct He as (_ & _ & r0 & Hi & _ & -> & _). destruct (text_encoding_parallel E t s core Hc) as [HPc _]. destruct (rows_cols core HPc) as (_ & _ & E2 & _). rewrite <- E2, Forall_map, Forall_forall in HC. exact (HC r0 Hi).
  - destruct He as (_ & _ & _ & _ & st & j & Hst & _ & Hj). exact (HT st _ Hst (nth_error_In _ _ Hj)).
  - rewrite He. cbn [r_token]. exact (HPd p Hpp).
Qed.
Print Assumptions C107_everything.

(** A tokenizer with a template that adds [CLS] and [MASK] and pads to six: everything it returns can be decoded. *)
Definition dk_vocab : smap Z := [(str "play", 0); (str "##ing", 1); (str "[CLS]", 2)]%Z.
Definition dk_ops : list added_token := [special "[CLS]"; special "[MASK]"].
Definition dk_template : post_processor := PTemplate [mkPiece (str "SpecialToken") (str "[CLS]") 0; mkPiece (str "Sequence") (str "A") 0; mkPiece (str "SpecialToken") (str "[MASK]") 0]
  [mkSpecial (str "[CLS]") [2%Z] [str "[CLS]"]; mkSpecial (str "[MASK]") [3%Z] [str "[MASK]"]].
Definition dk_t0 (pad : Z) : tokenizer := mkTz None (Some (mkPad PRight Fixed 6 pad 0 (str "[MASK]") 0)) (Some (new_added_vocab dk_ops)) None (Some TBert)
  (Some (MWordPiece (mkWp dk_vocab (str "[UNK]") 100 (str "##")))) (Some (DWordPiece (str "##") false)) (Some dk_template).
Example C108_case : dense dk_vocab /\ forall pad, exists t av, finish_construction (dk_t0 pad) = Ok t /\ tz_av t = Some av /\ history dk_vocab dk_ops av /\ built_model test_env (reach_cache test_env) t /\
  specials_ok dk_template /\ known dk_vocab av 2 /\ known dk_vocab av 3 /\ ~ known dk_vocab av 9 /\
  (exists r, snd (encode test_env 10 t (str "playing") true) = Ok r /\ en_ids r = [2; 0; 1; 3; pad; pad]%Z /\ (pad = 3%Z -> decode t (en_ids r) true = Ok (str "playing")) /\ (pad = 9%Z -> decode t (en_ids r) true = Throw BadOptionalAccess)) /\
  (** the unknown token is not in this vocabulary: an unknown word is decoded as the entry with id 0 *)
  (exists r, snd (encode test_env 10 t (str "chess") true) = Ok r /\ en_tokens r = [str "[CLS]"; str "[UNK]"; str "[MASK]"; str "[MASK]"; str "[MASK]"; str "[MASK]"] /\ (pad = 3%Z -> decode t (en_ids r) true = Ok (str "play"))).
Proof.
  split; [split; [|split]; [repeat constructor; cbn; intuition discriminate | repeat constructor; cbn; intuition lia | repeat constructor; cbn; lia]|]. intros pad.
  destruct (av_add_tokens true (new_added_vocab dk_ops) (Some dk_vocab) dk_ops) as [[av n]| | |] eqn:E; try (vm_compute in E; discriminate).
  assert (HH : history dk_vocab dk_ops av) by (eapply h_new; exact E).
  exists (set_av (dk_t0 pad) (Some av)), av. split.
  { unfold finish_construction, add_tokens. change (tz_av (dk_t0 pad)) with (Some (new_added_vocab dk_ops)). cbv beta iota. change (option_map model_vocab (tz_model (dk_t0 pad))) with (Some dk_vocab).
    change (av_added (new_added_vocab dk_ops)) with dk_ops. rewrite E. reflexivity. }
  split; [reflexivity|]. split; [exact HH|]. split; [intros b c C; discriminate|]. split; [cbn; repeat constructor|]. vm_compute in E. injection E as <- <-.
  split; [exists (str "[CLS]"); left; reflexivity|]. split; [exists (str "[MASK]"); left; reflexivity|]. split.
  - intros (k & [Hk|(_ & Hk)]); [|cbn in Hk; intuition discriminate]. unfold assigned in Hk. cbn [av_map sfind] in Hk. destruct (leqb _ _); [discriminate|]. destruct (leqb _ _); discriminate.
  - split.
    + eexists. split; [vm_compute; reflexivity|]. split; [reflexivity|]. split; intros ->; vm_compute; reflexivity.
    + eexists. split; [vm_compute; reflexivity|]. split; [reflexivity|]. intros ->; vm_compute; reflexivity.
Qed.
