(** C98, C99: when calls end, and how they can fail. Vocabulary in OutSpec.v; [truncation_loops] in Spec.v, [reach_cache] in BpeSpec.v. *)
From Coq Require Import ZifyBool ZifyNat ZifyN.
From Verif Require Import Base Unicode Common Utils PostProcessor Decoder Normalizer PreTokenizer WordPiece Bpe AddedVocab Tokenizer BaseFacts Spec UtilsProofs PropsUtils UnicodeProofs DecProofs BpeSpec BpeProofs BpeWord PropsBpe PreSpec PropsPre TzSpec TzProofs OutSpec OutProofs Env.

(** ** More fuel changes nothing once a call has ended *)
Lemma right_fuel : forall f f' n maxl o st (seen : bool) r, f <= f' -> right_ranges f n maxl o st seen = r -> r <> Diverge -> right_ranges f' n maxl o st seen = r.
Proof.
  induction f as [|f IH]; intros f' n maxl o st seen r Hf H Hr; [cbn in H; congruence|]. destruct f' as [|f']; [lia|]. cbn [right_ranges] in *.
  destruct (size_t_of_int st <? n)%Z; [|exact H]. destruct seen; [apply IH; [lia | exact H | exact Hr]|]. cbv zeta in *.
  destruct (right_ranges f n maxl o (st + o) _) as [l|x|u|] eqn:E; cbn [bind] in H; [..|congruence]; erewrite (IH f' _ _ _ _ _ _ ltac:(lia) E) by discriminate; exact H.
Qed.
Lemma left_fuel : forall f f' maxl o st (seen : bool) r, f <= f' -> left_ranges f maxl o st seen = r -> r <> Diverge -> left_ranges f' maxl o st seen = r.
Proof.
  induction f as [|f IH]; intros f' maxl o st seen r Hf H Hr; [cbn in H; congruence|]. destruct f' as [|f']; [lia|]. cbn [left_ranges] in *.
  destruct (0 <=? st)%Z; [|exact H]. cbv zeta in *. destruct (_ && _)%bool; [|apply IH; [lia | exact H | exact Hr]].
  destruct (left_ranges f maxl o (st + 1 - o) _) as [l|x|u|] eqn:E; cbn [bind] in H; [..|congruence]; erewrite (IH f' _ _ _ _ _ ltac:(lia) E) by discriminate; exact H.
Qed.
Lemma truncate_fuel f f' e maxl stride d r : f <= f' -> truncate f e maxl stride d = r -> r <> Diverge -> truncate f' e maxl stride d = r.
Proof.
  intros Hf H Hr. unfold truncate in *. cbv zeta in *. destruct (_ <=? _)%Z; [exact H|]. destruct (maxl =? 0)%Z; [exact H|]. destruct d; [| |exact H].
  - destruct (right_ranges f _ _ _ _ _) as [l|x|u|] eqn:E; [| | |cbn [bind] in H; congruence]; rewrite (right_fuel _ f' _ _ _ _ _ _ Hf E) by discriminate; exact H.
  - destruct (left_ranges f _ _ _ _) as [l|x|u|] eqn:E; [| | |cbn [bind] in H; congruence]; rewrite (left_fuel _ f' _ _ _ _ _ Hf E) by discriminate; exact H.
Qed.
Lemma trunc_fuel f f' t e r : f <= f' -> truncate_encoding f t e = r -> r <> Diverge -> truncate_encoding f' t e = r.
Proof.
  intros Hf H Hr. unfold truncate_encoding in *. cbv zeta in *. destruct (t_max t =? 0)%Z; [eapply truncate_fuel; eassumption|]. destruct (_ <=? _)%Z; [exact H|].
  destruct (t_strat t); try exact H; [|destruct (_ <? _)%Z; [|exact H]]; eapply truncate_fuel; eassumption.
Qed.

(** ** How truncation ends *)
Lemma right_kind : forall f n maxl o st (seen : bool), match right_ranges f n maxl o st seen with Ok _ | Diverge => True | _ => False end.
Proof.
  induction f as [|f IH]; intros n maxl o st seen; [exact I|]. cbn [right_ranges]. destruct (_ <? _)%Z; [|exact I]. destruct seen; [apply IH|]. cbv zeta.
  specialize (IH n maxl o (st + o)%Z (Z.min (st + maxl) n =? n)%Z). destruct (right_ranges _ _ _ _ _ _); cbn [bind]; auto.
Qed.
Lemma left_kind : forall f maxl o st (seen : bool), match left_ranges f maxl o st seen with Ok _ | Diverge => True | _ => False end.
Proof.
  induction f as [|f IH]; intros maxl o st seen; [exact I|]. cbn [left_ranges]. destruct (_ <=? _)%Z; [|exact I]. cbv zeta. destruct (_ && _)%bool; [|apply IH].
  match goal with |- context [left_ranges f maxl o ?a ?b] => specialize (IH maxl o a b); destruct (left_ranges f maxl o a b) end; cbn [bind]; auto.
Qed.
Lemma zslice_ends {A} P (l : list A) a b : ends P oob (fun _ => True) (zslice l a b).
Proof. unfold zslice, vslice. destruct (_ <=? _)%Z; [|reflexivity]. destruct (_ && _)%bool; [exact I | reflexivity]. Qed.
Lemma slice_ends P e r : ends P oob (fun _ => True) (slice_enc e r).
Proof. destruct r as [a b]. unfold slice_enc. do 7 (eapply ends_bind; [apply zslice_ends | intros ? _]). exact I. Qed.
Lemma mapM_ends {A B} P Q (R : B -> Prop) (f : A -> res B) l : (forall x, In x l -> ends P Q R (f x)) -> ends P Q (Forall R) (mapM f l).
Proof.
  induction l as [|x l IH]; intros H; [constructor|]. cbn [mapM]. eapply ends_bind; [apply H; left; reflexivity|]. intros y Hy. eapply ends_bind; [apply IH; intros z Hz; apply H; right; exact Hz|]. intros ys Hys. constructor; assumption.
Qed.
Lemma truncate_kind P f e maxl stride d : truncate f e maxl stride d = Diverge \/ ends P oob (fun _ => True) (truncate f e maxl stride d).
Proof.
  unfold truncate. cbv zeta. destruct (_ <=? _)%Z; [right; exact I|]. destruct (maxl =? 0)%Z; [right; exact I|].
  assert (K : forall ranges, ends P oob (fun _ => True) (match ranges with [] => Undef OobIndex | first :: others => e0 <- slice_enc e first ;; ov <- mapM (slice_enc e) others ;; Ok (set_overflowing e0 ov) end)).
  { intros [|x l]; [reflexivity|]. eapply ends_bind; [apply slice_ends|]. intros e0 _. eapply ends_bind; [apply mapM_ends; intros; apply slice_ends|]. intros; exact I. }
  destruct d; [| |right; exact (K [])].
  - pose proof (right_kind f (Z.of_nat (length (en_ids e))) maxl (maxl - stride) 0 false) as G. destruct (right_ranges _ _ _ _ _ _); [right; apply K|contradiction|contradiction|left; reflexivity].
  - pose proof (left_kind f maxl (maxl - stride) (Z.of_nat (length (en_ids e)) - 1) false) as G. destruct (left_ranges _ _ _ _ _); [right; apply K|contradiction|contradiction|left; reflexivity].
Qed.
Lemma trunc_kind P f t e : truncate_encoding f t e = Diverge \/ ends P oob (fun _ => True) (truncate_encoding f t e).
Proof.
  unfold truncate_encoding. cbv zeta. destruct (t_max t =? 0)%Z; [apply truncate_kind|]. destruct (_ <=? _)%Z; [right; exact I|]. destruct (t_strat t); try (right; exact I); [apply truncate_kind|]. destruct (_ <? _)%Z; [apply truncate_kind | right; exact I].
Qed.

(** ** The model *)
Lemma bpe_ends P E b p c vocab merges d unk pre suf fu bf ig : pq_ok E -> new_bpe vocab merges d unk pre suf fu bf ig = Ok b -> reach_cache E b c -> ends P oob (fun _ => True) (snd (bpe_tokenize E b c p)).
Proof.
  intros Hq Hb Hr. rewrite (proj1 (bpe_tokenize_transparent E b c p (reach_cache_ok E b c Hr))). eapply ends_bind; [|intros; exact I]. unfold plain_words. apply mapM_ends with (R := fun _ => True). intros s _. eapply ends_bind with (R := fun _ => True); [|intros; exact I].
  destruct (initial b (sp_text s)) as [|x l] eqn:Ei.
  - destruct (merge_word_spec E b (sp_text s) Hq) as [[_ Hu]|[Hn _]]; [|contradiction]. unfold bpe_word, tokenize_with_cache. rewrite Hu. cbn [bind].
    destruct (QArith_base.Qeq_bool _ _); [|reflexivity]. destruct (if b_ignore_merges b then sfind (sp_text s) (b_vocab b) else None); [exact I|]. reflexivity.
  - destruct (C35_ids_resolve _ _ _ _ _ _ _ _ _ _ _ [] (sp_text s) Hq Hb (reach_empty _ _)) as (ts & -> & _); [congruence | exact I].
Qed.

(** ** Everything before truncation *)
Lemma text_ends E t s : pq_ok E -> scalar_env E -> regex_progress E -> built_model E (reach_cache E) t -> ends (may_throw E t s) (may_undef E t s) (fun _ => True) (text_encoding E t s).
Proof.
  intros Hq Hse Hrp Hbm. unfold text_encoding. eapply ends_bind with (R := fun _ => True).
  - unfold prepare, new_pretok. rewrite new_text. unfold convert_to_string. destruct (forallb valid_cp s) eqn:Hs.
    2:{ cbn. assert (K : exists c, In c s /\ valid_cp c = false). { clear -Hs. induction s as [|c s IH]; [discriminate|]. cbn in Hs. destruct (valid_cp c) eqn:Ec; [destruct (IH Hs) as (x & A & B); exists x; split; [right; exact A | exact B] | exists c; split; [left; reflexivity | exact Ec]]. }
        destruct K as (c & A & B). eapply throw_text; eassumption. }
    cbn [bind]. set (part := fun q => normalizes_with t q).
    eapply ends_bind with (R := fun p => ns_text (pt_norm (snd p)) = s /\ Forall byte_split (pt_splits (snd p))).
    + assert (GB : forall x, good_split x -> byte_split x).
      { intros x (w & Hw & Hx). unfold byte_split. rewrite Hx. apply utf8_encs_bytes. exact Hw. }
      destruct (tz_av t) as [a|] eqn:Eav.
      * eapply ends_bind with (R := fun p => ns_text (pt_norm (snd p)) = s /\ Forall byte_split (pt_splits (snd p))); [|intros [m p] Hp; exact Hp].
        eapply ends_mono; [apply (extract_ends E Hse Hrp (tz_norm t) part) with (known := av_trie_norm a ++ av_trie_raw a <> [])| | |].
        -- intros n Hn q Hq'. exists a, n. auto.
        -- auto.
        -- exact Hs.
        -- intros x [[b Hb Hi|p c b Hb Ho Hi|f w Hb Hn|cl ch st lo w Hb Ho Hn|p c w Hb Hc Hn]|[-> Hk]]; [eapply throw_prepend|eapply throw_pattern|eapply throw_form|eapply throw_bert|eapply throw_regex|eapply throw_added]; eassumption.
        -- intros u Hu. destruct Hu; [eapply undef_replace; eassumption | apply undef_index].
        -- intros [m p] [A B]. cbn in *. split; [exact A|]. eapply Forall_impl; [exact GB | exact B].
      * cbn. rewrite new_text. split; [reflexivity|]. constructor; [|constructor]. apply GB. exists s. auto.
    + intros [av p1] [A B]. cbn [snd] in *. eapply ends_bind with (R := fun _ => True); [|intros; exact I]. destruct (tz_pre t) as [pt|] eqn:Ept; [|exact I].
      eapply ends_mono; [apply (pre_ends_part E s (fun q => cuts_with t q)) with (p := p1)| | |auto].
      * intros x Hx. exists pt. auto.
      * repeat split; [unfold valid_text; rewrite A; exact Hs | rewrite A; auto | exact B].
      * intros x [-> [(rx & C & D)|(aps & rx & C & D)]]; [eapply throw_empty | eapply throw_byte]; eassumption.
      * intros u [-> |[-> (pat & bh & inv & x & C & D)]]; [apply undef_index | eapply undef_pattern; eassumption].
  - intros [av p] _. eapply ends_bind with (R := fun _ => True).
    + destruct (tz_model t) as [[w|b c]|] eqn:Em; [apply wp_ends | | exact I]. destruct (Hbm b c Em) as (Hr & vocab & merges & d & unk & pre & suf & fu & bf & ig & Hb).
      cbn [model_tokenize]. pose proof (bpe_ends (may_throw E t s) E b p c _ _ _ _ _ _ _ _ _ Hq Hb Hr) as G. destruct (bpe_tokenize E b c p) as [c' r]. cbn [snd] in *. eapply ends_mono; [exact G | auto | intros u ->; apply undef_index | auto].
    + intros p' _. eapply ends_mono; [apply (rows_ends (may_throw E t s)) | auto | intros u ->; apply undef_index | auto].
Qed.
(** ** Post-processing and padding *)
Definition finish (t : tokenizer) (e : encoding) (add : bool) : res encoding :=
  e2 <- match tz_post t with Some pp => process pp e add | None => Ok e end ;; match tz_pad t with Some pd => pad_encoding pd e2 | None => Ok e2 end.
Lemma finish_ends E t s e add : ends (may_throw E t s) (may_undef E t s) (fun _ => True) (finish t e add).
Proof.
  unfold finish. eapply ends_bind with (R := fun _ => True).
  - destruct (tz_post t) as [pp|]; [|exact I]. eapply ends_mono; [apply (process_ends (may_throw E t s)) | auto | intros u ->; apply undef_index | auto].
  - intros e2 _. destruct (tz_pad t) as [pd|] eqn:Epd; [|exact I]. unfold pad_encoding. apply pad_ends. intros Ht Hd.
    assert (K : p_strat pd = Fixed /\ (p_fixed pd < 0)%Z); [|destruct K; eapply throw_padding; eassumption].
    revert Ht. unfold pad_target. cbv zeta.
    assert (G : forall l : Z, ((if ((0 <? p_multiple pd)%Z && (0 <? Z.rem l (p_multiple pd))%Z)%bool then l + (p_multiple pd - Z.rem l (p_multiple pd)) else l) < 0 -> l < 0)%Z).
    { intros l H. destruct (Z.ltb_spec 0 (p_multiple pd)); cbn [andb] in H; [|exact H]. destruct (Z.ltb_spec 0 (Z.rem l (p_multiple pd))); [|exact H].
      destruct (Z.lt_ge_cases l 0) as [|Hl]; [assumption|]. pose proof (Z.rem_bound_pos l (p_multiple pd) ltac:(lia) ltac:(lia)). lia. }
    intros Ht. apply G in Ht. destruct (p_strat pd); [lia | auto | lia].
Qed.
Lemma process_split fuel t e add : do_post_process fuel t e add = (e1 <- match tz_trunc t with Some tr => truncate_encoding fuel tr e | None => Ok e end ;; finish t e1 add).
Proof. reflexivity. Qed.

(** ** The theorems *)
Definition loops_on (E : env) (t : tokenizer) (s : wstr) : Prop := exists tr e, tz_trunc t = Some tr /\ text_encoding E t s = Ok e /\ truncation_loops tr (length (en_ids e)).
(** the parameters of truncation are C++ ints and the text has fewer than 2^31 tokens *)
Definition int_sized (E : env) (t : tokenizer) (s : wstr) : Prop :=
  forall tr, tz_trunc t = Some tr -> int32 (t_max tr) /\ int32 (t_stride tr) /\ forall e, text_encoding E t s = Ok e -> (Z.of_nat (length (en_ids e)) < 2 ^ 31)%Z.

Theorem C98_encode : forall E t s add, pq_ok E -> scalar_env E -> regex_progress E -> built_model E (reach_cache E) t -> int_sized E t s ->
  (loops_on E t s -> forall fuel, snd (encode E fuel t s add) = Diverge) /\
  (~ loops_on E t s -> exists r k, r <> Diverge /\ forall fuel, k <= fuel -> snd (encode E fuel t s add) = r).
Proof.
  intros E t s add Hq Hse Hrp Hbm Hi. split.
  - intros (tr & e & Htr & He & HL) fuel. destruct (Hi tr Htr) as (H1 & H2 & H3). rewrite encode_text, He. cbn [bind]. rewrite process_split, Htr.
    assert (K : truncate_encoding fuel tr e = Diverge); [|rewrite K; reflexivity]. destruct (C03_truncation_terminates tr e (H3 e He) H1 H2) as [G _].
    destruct (truncate_encoding fuel tr e) eqn:Ex; try reflexivity; exfalso; (apply (proj1 G); [exists fuel; rewrite Ex; discriminate | exact HL]).
  - intros HN. pose proof (text_ends E t s Hq Hse Hrp Hbm) as HT. destruct (text_encoding E t s) as [e|x|u|] eqn:He; [| | |destruct HT].
    + set (k := length (en_ids e) + 2). set (e1 := match tz_trunc t with Some tr => truncate_encoding k tr e | None => Ok e end).
      assert (HD : e1 <> Diverge).
      { unfold e1. destruct (tz_trunc t) as [tr|] eqn:Htr; [|discriminate]. destruct (Hi tr Htr) as (H1 & H2 & H3). apply (proj2 (C03_truncation_terminates tr e (H3 e He) H1 H2) k); [|apply le_n].
        intros HL. apply HN. exists tr, e. auto. }
      exists (x <- e1 ;; finish t x add), k. split.
      * destruct e1 as [x| | |]; try discriminate; [|congruence]. cbn [bind]. pose proof (finish_ends E t s x add) as G. destruct (finish t x add); try discriminate. destruct G.
      * intros fuel Hf. rewrite encode_text, He. cbn [bind]. rewrite process_split. f_equal. unfold e1 in *. destruct (tz_trunc t) as [tr|]; [|reflexivity]. eapply trunc_fuel; [exact Hf | reflexivity | exact HD].
    + exists (Throw x), 0. split; [discriminate|]. intros fuel _. rewrite encode_text, He. reflexivity.
    + exists (Undef u), 0. split; [discriminate|]. intros fuel _. rewrite encode_text, He. reflexivity.
Qed.
Print Assumptions C98_encode.

Lemma encode_ends E fuel t s add : pq_ok E -> scalar_env E -> regex_progress E -> built_model E (reach_cache E) t ->
  snd (encode E fuel t s add) = Diverge \/ ends (may_throw E t s) (may_undef E t s) (fun _ => True) (snd (encode E fuel t s add)).
Proof.
  intros Hq Hse Hrp Hbm. rewrite encode_text. pose proof (text_ends E t s Hq Hse Hrp Hbm) as HT. destruct (text_encoding E t s) as [e|x|u|]; [|right; exact HT|right; exact HT|destruct HT].
  cbn [bind]. rewrite process_split. destruct (tz_trunc t) as [tr|]; [|right; apply finish_ends].
  destruct (trunc_kind (may_throw E t s) fuel tr e) as [-> |G]; [left; reflexivity|]. right. eapply ends_bind; [eapply ends_mono; [exact G | auto | intros u ->; apply undef_index | intros x Hx; exact Hx]|]. intros e1 _. apply finish_ends.
Qed.
Theorem C99_encode_exceptions : forall E fuel t s add x, pq_ok E -> scalar_env E -> regex_progress E -> built_model E (reach_cache E) t -> snd (encode E fuel t s add) = Throw x -> may_throw E t s x.
Proof. intros E fuel t s add x Hq Hse Hrp Hbm H. destruct (encode_ends E fuel t s add Hq Hse Hrp Hbm) as [G|G]; rewrite H in G; [discriminate | exact G]. Qed.
Print Assumptions C99_encode_exceptions.
Theorem C99_encode_undefined : forall E fuel t s add u, pq_ok E -> scalar_env E -> regex_progress E -> built_model E (reach_cache E) t -> snd (encode E fuel t s add) = Undef u -> may_undef E t s u.
Proof. intros E fuel t s add u Hq Hse Hrp Hbm H. destruct (encode_ends E fuel t s add Hq Hse Hrp Hbm) as [G|G]; rewrite H in G; [discriminate | exact G]. Qed.
Print Assumptions C99_encode_undefined.

Lemma chain_total : forall d l, exists r, decode_chain d l = Ok r.
Proof.
  fix IH 1. intros d l. destruct d as [p cl| | | | |ds|]; try (eexists; reflexivity).
  - destruct cl; [destruct (wp_cleanup_total p l) as (r & -> & _); eauto|]. destruct l as [|t l]; [eexists; reflexivity|]. destruct (wp_decode_spec p t l) as (r & -> & _). eauto.
  - revert l. induction ds as [|q ds IHd]; intros l; [eexists; reflexivity|]. rewrite decode_seq_cons. destruct (IH q l) as [r ->]. apply IHd.
Qed.
Lemma ids_ends t skip ids : ends (fun x => x = BadOptionalAccess) (fun u => u = NullDeref) (fun _ => True) (decode_ids t skip ids).
Proof.
  induction ids as [|i ids IH]; [exact I|]. cbn [decode_ids]. destruct (tz_av t) as [av|]; [|reflexivity]. eapply ends_bind with (R := fun _ => True).
  - destruct (av_id_to_token av i); [exact I|]. destruct (tz_model t) as [m|]; [|reflexivity]. destruct (model_id_to_token _ _); [exact I | reflexivity].
  - intros tok _. eapply ends_bind; [apply IH | intros; exact I].
Qed.
Lemma decode_ends t ids skip : ends (fun x => x = BadOptionalAccess) (fun u => u = NullDeref) (fun _ => True) (decode t ids skip).
Proof. unfold decode. eapply ends_bind; [apply ids_ends|]. intros l _. destruct (tz_dec t) as [d|]; [|reflexivity]. destruct (chain_total d l) as [r ->]. exact I. Qed.
(** the id could not be found / a part of the tokenizer is missing *)
Theorem C98_decode : forall t ids skip, decode t ids skip <> Diverge.
Proof. intros t ids skip H. pose proof (decode_ends t ids skip) as G. rewrite H in G. exact G. Qed.
Print Assumptions C98_decode.
Theorem C99_decode : forall t ids skip,
  (forall x, decode t ids skip = Throw x -> x = BadOptionalAccess) /\
  (forall u, decode t ids skip = Undef u -> u = NullDeref /\ (tz_av t = None \/ tz_model t = None \/ tz_dec t = None)).
Proof.
  intros t ids skip. pose proof (decode_ends t ids skip) as G. split.
  - intros x H. rewrite H in G. exact G.
  - intros u H. rewrite H in G. split; [exact G|]. destruct (tz_av t) as [av|] eqn:Ea; [|auto]. destruct (tz_model t) as [m|] eqn:Em; [|auto]. destruct (tz_dec t) as [d|] eqn:Ed; [|auto]. exfalso.
    assert (K : forall l, ends (fun _ => True) (fun _ => False) (fun _ => True) (decode_ids t skip l)).
    { induction l as [|i l IH]; [exact I|]. cbn [decode_ids]. rewrite Ea, Em. eapply ends_bind with (R := fun _ => True); [|intros tok _; eapply ends_bind; [apply IH | intros; exact I]].
      destruct (av_id_to_token av i); [exact I|]. destruct (model_id_to_token _ _); exact I. }
    unfold decode in H. rewrite Ed in H. specialize (K ids). destruct (decode_ids t skip ids) as [l| | |]; cbn [bind] in H; try discriminate; [|destruct K]. destruct (chain_total d l) as [r Hr]. rewrite Hr in H. discriminate.
Qed.
Print Assumptions C99_decode.

Lemma choose_ends av v c : ends (fun _ => False) (fun u => (u = NullDeref /\ v = None) \/ (u = DerefEnd /\ exists m, v = Some m /\ vocab_size m = 0%Z)) (fun _ => True) (choose_id av v c).
Proof.
  unfold choose_id. destruct (sfind c (av_map av)); [exact I|]. destruct v as [v|]; [|left; auto]. destruct (token_to_id v c); [exact I|]. destruct (max_value _); [destruct (_ || _)%bool; exact I|].
  destruct (Z.eqb_spec (vocab_size v) 0); [right; split; [reflexivity | eauto] | exact I].
Qed.
Definition add_undef (alias : bool) (v : option (smap Z)) (u : ub) : Prop :=
  (u = NullDeref /\ v = None) \/ (u = DerefEnd /\ exists m, v = Some m /\ vocab_size m = 0%Z) \/ (u = IterInvalidated /\ alias = true).
Lemma assign_ends alias v l : forall av, ends (fun _ => False) (add_undef alias v) (fun _ => True) (assign_ids alias av v l).
Proof.
  induction l as [|t l IH]; intros av; [exact I|]. cbn [assign_ids]. destruct (is_nil _); [apply IH|]. eapply ends_bind; [eapply ends_mono; [apply choose_ends | auto | unfold add_undef; tauto | intros x Hx; exact Hx]|]. intros i _. cbv zeta.
  destruct (smem _ _); [apply IH|]. destruct alias; [right; right; auto | apply IH].
Qed.
Lemma refresh_ends alias v av : ends (fun _ => False) (add_undef alias v) (fun _ => True) (refresh_added_tokens av v).
Proof. unfold refresh_added_tokens. cbv zeta. destruct v; [exact I|]. destruct (_ ++ _); [exact I | left; auto]. Qed.
Lemma add_ends alias t l : ends (fun _ => False) (fun u => (u = NullDeref /\ (tz_av t = None \/ tz_model t = None)) \/ (u = DerefEnd /\ exists m, tz_model t = Some m /\ vocab_size (model_vocab m) = 0%Z) \/ (u = IterInvalidated /\ alias = true)) (fun _ => True) (add_tokens alias t l).
Proof.
  unfold add_tokens. destruct (tz_av t) as [av|] eqn:Ea; [|left; auto]. eapply ends_bind with (R := fun _ => True); [|intros [a n] _; exact I].
  assert (HU : forall u, add_undef alias (option_map model_vocab (tz_model t)) u -> (u = NullDeref /\ (Some av = None \/ tz_model t = None)) \/ (u = DerefEnd /\ exists m, tz_model t = Some m /\ vocab_size (model_vocab m) = 0%Z) \/ (u = IterInvalidated /\ alias = true)).
  { intros u [[-> H]|[[-> (m & H & H0)]|H]]; [left|right; left|right; right; exact H]; destruct (tz_model t) as [x|]; cbn in H; try discriminate; [auto|]. injection H as <-. eauto. }
  unfold av_add_tokens. cbv zeta. eapply ends_bind; [eapply ends_mono; [apply assign_ends | auto | exact HU | intros x Hx; exact Hx]|]. intros a2 _. eapply ends_bind; [eapply ends_mono; [apply (refresh_ends alias) | auto | exact HU | intros x Hx; exact Hx]|]. intros; exact I.
Qed.
Theorem C98_add_tokens : forall alias t l, add_tokens alias t l <> Diverge.
Proof. intros alias t l H. pose proof (add_ends alias t l) as G. rewrite H in G. exact G. Qed.
Print Assumptions C98_add_tokens.
(** [alias]: the list passed is the vocabulary's own (what the constructor does). *)
Theorem C99_add_tokens : forall alias t l,
  (forall x, add_tokens alias t l <> Throw x) /\
  (forall u, add_tokens alias t l = Undef u ->
    (u = NullDeref /\ (tz_av t = None \/ tz_model t = None)) \/ (u = DerefEnd /\ exists m, tz_model t = Some m /\ vocab_size (model_vocab m) = 0%Z) \/ (u = IterInvalidated /\ alias = true)).
Proof. intros alias t l. pose proof (add_ends alias t l) as G. split; [intros x H | intros u H]; rewrite H in G; exact G. Qed.
Print Assumptions C99_add_tokens.

(** ** Each case happens: one environment, one tokenizer per case, and the call that ends so *)
(** [test_env] with failing ICU compatibility composition and patterns that do not compile when they start with an open parenthesis *)
Definition out_env : env := {|
  e_norm := fun f w => match f with NFKC => None | _ => test_norm f w end;
  e_is_mn := e_is_mn test_env; e_iswspace := e_iswspace test_env; e_iswcntrl := e_iswcntrl test_env; e_towlower := e_towlower test_env;
  e_u_space := e_u_space test_env; e_u_punct := e_u_punct test_env;
  e_icu_matches := fun p _ => if is_prefix (str "(") p then None else Some [];
  e_wregex_ok := fun p => negb (is_prefix (str "(") p);
  e_wregex_next := fun p s from we => match p with [] => None | _ => e_wregex_next test_env p s from we end;
  e_inplace := true; e_char_signed := true; e_draw := e_draw test_env; e_pq := list_pq |}.
Lemma decompose_valid c : valid_cp c = true -> forallb valid_cp (decompose1 c) = true.
Proof.
  intros H. unfold decompose1. destruct (N.eqb_spec c 0xE9); [reflexivity|]. destruct (N.eqb_spec c 0x1EA5); [reflexivity|].
  destruct ((0xAC00 <=? c) && (c <=? 0xD7A3))%N eqn:E; [|cbn; rewrite H; reflexivity]. apply andb_true_iff in E as [E1 E2]. apply N.leb_le in E1, E2.
  assert (V : forall x, (x < 0x3000)%N -> valid_cp x = true) by (intros x Hx; unfold valid_cp, is_surrogate; lia).
  unfold hangul. cbv zeta. assert (A : (c - 0xAC00 <= 11171)%N) by lia. clear E1 E2. generalize dependent (c - 0xAC00)%N. intros k A.
  assert (B : (k / 588 <= 20)%N). { change 20%N with (12347 / 588)%N. etransitivity; [apply N.div_le_mono; [discriminate | exact A]|]. vm_compute. discriminate. }
  assert (C : (k mod 588 < 588)%N) by (apply N.mod_lt; discriminate). assert (D : (k mod 588 / 28 <= 21)%N). { etransitivity; [apply (N.div_le_mono _ 588); [discriminate | lia]|]. vm_compute. discriminate. }
  assert (F : (k mod 28 < 28)%N) by (apply N.mod_lt; discriminate).
  destruct (_ =? _)%N; cbn [forallb]; rewrite !V by lia; reflexivity.
Qed.
Lemma out_env_scalar : scalar_env out_env.
Proof.
  split.
  - intros f w r Hw H. assert (K : r = w \/ r = flat_map decompose1 w) by (destruct f; cbn in H; try discriminate; injection H as <-; auto). destruct K as [-> | ->]; [exact Hw|].
    clear H. induction w as [|c w IH]; [reflexivity|]. cbn in Hw. apply andb_true_iff in Hw as [A B]. cbn [flat_map]. rewrite forallb_app, decompose_valid, IH by assumption. reflexivity.
  - intros c H. cbn. destruct ((65 <=? c) && (c <=? 90))%N eqn:E; [|exact H]. unfold valid_cp, is_surrogate in *. lia.
Qed.
Lemma find_lit_spec p : forall s pos i, find_lit p s pos = Some i -> pos <= i /\ i - pos + length p <= length s.
Proof.
  assert (G : forall s, is_prefix p s = true -> length p <= length s).
  { induction p as [|x p IH]; intros s H; [cbn; lia|]. destruct s as [|y s]; [discriminate|]. cbn in *. apply andb_true_iff in H as [_ H]. apply IH in H. lia. }
  induction s as [|y s IH]; intros pos i H; cbn [find_lit] in H.
  - destruct (is_prefix p []) eqn:E; [|discriminate]. injection H as <-. apply G in E. lia.
  - destruct (is_prefix p (y :: s)) eqn:E; [injection H as <-; apply G in E; lia|]. apply IH in H. cbn [length]. lia.
Qed.
Lemma out_env_progress : regex_progress out_env.
Proof.
  intros p s from we pos len H. unfold out_env in H. cbn [e_wregex_next test_env] in H. destruct p as [|x p]; [discriminate|]. destruct (find_lit (x :: p) (skipn from s) from) as [i|] eqn:E; [|discriminate].
  injection H as <- <-. apply find_lit_spec in E. rewrite skipn_length in E. cbn [length] in *. split; [|split]; lia.
Qed.
Lemma out_env_pq : pq_ok out_env.
Proof. exact test_env_pq. Qed.
Definition out_vocab : smap Z := [(str "[UNK]", 0); (str "a", 1); (str "[X]", 2)]%Z.
Definition out_tz (tr : option truncation) (pd : option padding) (av : option added_vocab) (n : option normalizer) (q : option pre_tokenizer) : tokenizer :=
  mkTz tr pd av n q (Some (MWordPiece (mkWp out_vocab (str "[UNK]") 100 (str "##")))) (Some (DWordPiece (str "##") false)) None.
Definition plain_av : added_vocab := new_added_vocab [].
Definition x_av : added_vocab :=
  mkAv [] [mkAt 0 (str "[X]") false false true false true] [str "[X]"] [(str "[X]", 2%Z)] [(2%Z, mkAt 0 (str "[X]") false false true false true)] [] [(str "[X]", 2%Z)].
Lemma out_tz_built tr pd av n q : built_model out_env (reach_cache out_env) (out_tz tr pd av n q).
Proof. intros b c H. discriminate. Qed.
Definition calls (t : tokenizer) (s : wstr) : res encoding := snd (encode out_env 100 t s false).
Example C99_exceptions_case :
  calls (out_tz None None None None None) [0xD800%N] = Throw RangeError /\
  calls (out_tz None None (Some plain_av) (Some (NSequence [NPrepend [0xFF%N]])) None) (str "a") = Throw RangeError /\
  calls (out_tz None None (Some plain_av) (Some (NReplace (str "a") [0xFF%N])) None) (str "a") = Throw RangeError /\
  calls (out_tz None None (Some plain_av) (Some (NForm NFKC)) None) (str "a") = Throw RuntimeError /\
  calls (out_tz None None (Some plain_av) (Some (NReplace (str "(") (str "b"))) None) (str "a") = Throw RegexError /\
  calls (out_tz None (Some (mkPad PRight Fixed (-1) 0 0 (str "[PAD]") 0)) None None None) (str "a") = Throw LengthError /\
  calls (out_tz None None (Some x_av) None None) (repeat 0xE9%N 5 ++ repeat 32%N 10 ++ str "[X]") = Throw OutOfRange /\
  calls (out_tz None None None None (Some (TByteLevel true false))) [] = Throw OutOfRange /\
  calls (out_tz None None None None (Some (TByteLevel false false))) [0xE9%N] = Throw OutOfRange.
Proof. repeat split; vm_compute; reflexivity. Qed.
Example C99_undefined_case :
  calls (out_tz None None None None (Some (TSequence [TBert; TSplit (str "(") ISOLATED false]))) (str "a b") = Undef NullDeref /\
  calls (out_tz None None (Some plain_av) (Some (NReplace (str "a") (str "bc"))) None) (str "a") = Undef IterInvalidated /\
  calls (out_tz None None (Some plain_av) None None) [] = Undef OobIndex /\
  decode (out_tz None None None None None) [1%Z] false = Undef NullDeref /\ decode (out_tz None None (Some plain_av) None None) [9%Z] false = Throw BadOptionalAccess /\
  add_tokens true (out_tz None None (Some plain_av) None None) [mkAt 0 (str "new") false false false true false] = Undef IterInvalidated /\
  add_tokens false (out_tz None None None None None) [] = Undef NullDeref.
Proof. repeat split; vm_compute; reflexivity. Qed.
(** a text that loops, one that does not under the same tokenizer, and the hypotheses of the theorems *)
Definition left_tz : tokenizer := out_tz (Some (mkTrunc TLeft LongestFirst 2 1)) None None None (Some TBert).
Example C98_case : pq_ok out_env /\ scalar_env out_env /\ regex_progress out_env /\ built_model out_env (reach_cache out_env) left_tz /\
  int_sized out_env left_tz (str "a a a") /\ loops_on out_env left_tz (str "a a a") /\ int_sized out_env left_tz (str "a a") /\ ~ loops_on out_env left_tz (str "a a") /\
  match calls left_tz (str "a a") with Ok e => en_ids e = [1; 1]%Z | _ => False end.
Proof.
  assert (T : text_encoding out_env left_tz (str "a a") = Ok (mkEnc [1; 1]%Z [0; 0]%Z [str "a"; str "a"] [Some 0; Some 1] [(0, 1); (2, 3)] [0; 0]%Z [1; 1]%Z [])) by (vm_compute; reflexivity).
  assert (T3 : exists e, text_encoding out_env left_tz (str "a a a") = Ok e /\ length (en_ids e) = 3) by (eexists; split; [vm_compute; reflexivity | reflexivity]). destruct T3 as (e & T3 & L3).
  split; [exact out_env_pq|]. split; [exact out_env_scalar|]. split; [exact out_env_progress|]. split; [apply out_tz_built|].
  split; [|split; [|split; [|split]]].
  - intros tr H. injection H as <-. split; [split; reflexivity || discriminate|]. split; [split; reflexivity || discriminate|]. intros x Hx. rewrite T3 in Hx. injection Hx as <-. rewrite L3. reflexivity.
  - exists (mkTrunc TLeft LongestFirst 2 1), e. split; [reflexivity|]. split; [exact T3|]. rewrite L3. split; [|right; split; [reflexivity | discriminate]]. vm_compute. intuition discriminate.
  - intros tr H. injection H as <-. split; [split; reflexivity || discriminate|]. split; [split; reflexivity || discriminate|]. intros x Hx. rewrite T in Hx. injection Hx as <-. reflexivity.
  - intros (tr & x & H & Hx & HL). injection H as <-. rewrite T in Hx. injection Hx as <-. destruct HL as [HA _]. revert HA. vm_compute. intuition discriminate.
  - vm_compute. reflexivity.
Qed.
