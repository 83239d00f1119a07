(** C91: add_special_tokens only adds special tokens. Vocabulary: [text_rows], [same_text], [position_free] in FlagSpec.v; [specials_ok] in PostSpec.v. *)
From Verif Require Import Base BaseFacts Unicode Common Utils PostProcessor Decoder Normalizer PreTokenizer WordPiece Bpe AddedVocab Tokenizer
  Spec EncFacts UtilsProofs PadProofs PostSpec PostProofs TzSpec TzProofs FlagSpec PropsEncode Env.
From Coq Require Import ZifyBool ZifyNat.

(** the two views used *)
Definition plain_view (f : row -> row) : Prop := f = (fun r => r) \/ f = no_offset.
Lemma view_type f r ty : plain_view f -> f (set_type r ty) = set_type (f r) ty.
Proof. intros [-> | ->]; reflexivity. Qed.
Lemma filter_map {A} (p : A -> bool) (g : A -> A) l : (forall x, p (g x) = p x) -> filter p (map g l) = map g (filter p l).
Proof. intros H. induction l as [|x l IH]; [reflexivity|]. cbn [map filter]. rewrite H. destruct (p x); cbn [map]; rewrite IH; reflexivity. Qed.

Lemma zip7_retype ty i : forall t k w o s m, length t = length i -> zip7 i (repeat ty (length t)) k w o s m = map (fun r => set_type r ty) (zip7 i t k w o s m).
Proof. induction i as [|a i IH]; intros [|b t] [|c k] [|d w] [|e o] [|f s] [|g m]; cbn [length]; try discriminate; intros; try reflexivity. cbn [repeat zip7 map]. rewrite <- IH by lia. reflexivity. Qed.
Lemma text_rows_retype e ty : flat_parallel e -> text_rows (set_type_ids e (repeat ty (length (en_type_ids e)))) = map (fun r => set_type r ty) (text_rows e).
Proof.
  intros (H & _). unfold text_rows, rows, set_type_ids. cbn [en_ids en_type_ids en_tokens en_words en_offsets en_smask en_amask]. rewrite zip7_retype by exact H. apply filter_map. reflexivity.
Qed.
Lemma special_no_text specials p : text_rows (special_enc specials p) = [].
Proof.
  unfold text_rows. assert (H : forall r, In r (rows (special_enc specials p)) -> r_smask r = 1%Z) by (intros r Hr; apply special_enc_rows in Hr; apply Hr).
  induction (rows (special_enc specials p)) as [|r l IH]; [reflexivity|]. cbn [filter]. rewrite (H r (or_introl eq_refl)). apply IH. intros x Hx. apply H. right. exact Hx.
Qed.
Lemma filter_flat {A B} (p : B -> bool) (g : A -> list B) l : filter p (flat_map g l) = flat_map (fun x => filter p (g x)) l.
Proof. induction l as [|x l IH]; [reflexivity|]. cbn [flat_map]. rewrite filter_app, IH. reflexivity. Qed.
Lemma retype_view f ty l : plain_view f -> map f (map (fun r => set_type r ty) l) = map (fun r => set_type r ty) (map f l).
Proof. intros H. rewrite !map_map. apply map_ext. intros r. apply view_type. exact H. Qed.

Lemma parts_text f single specials : plain_view f -> forall a b, flat_parallel a -> flat_parallel b -> map f (text_rows a) = map f (text_rows b) ->
  map f (flat_map text_rows (template_parts single specials true a)) = map f (flat_map text_rows (template_parts single specials false b)).
Proof.
  intros Hv. induction single as [|p r IH]; intros a b Ha Hb H; [reflexivity|]. cbn [template_parts]. destruct (leqb (pc_kind p) (str "Sequence")).
  - cbv zeta. destruct (leqb (pc_id p) (str "A")).
    + cbn [flat_map]. rewrite !map_app. f_equal.
      * rewrite !text_rows_retype by assumption. rewrite !retype_view by exact Hv. rewrite H. reflexivity.
      * apply IH; [| |rewrite !text_rows_retype by assumption; rewrite !retype_view by exact Hv; rewrite H; reflexivity].
        -- destruct Ha as (A1 & A2). split; [|exact A2]. cbn [set_type_ids en_type_ids en_ids]. rewrite repeat_length. exact A1.
        -- destruct Hb as (A1 & A2). split; [|exact A2]. cbn [set_type_ids en_type_ids en_ids]. rewrite repeat_length. exact A1.
    + cbn [flat_map]. rewrite !map_app. f_equal; [exact H | apply IH; assumption].
  - destruct (leqb (pc_kind p) (str "SpecialToken")); [|apply IH; assumption]. cbn [flat_map]. rewrite special_no_text. apply IH; assumption.
Qed.
Lemma template_text f single specials a b : plain_view f -> Forall (fun s => length (st_tokens s) = length (st_ids s)) specials -> flat_parallel a -> flat_parallel b -> map f (text_rows a) = map f (text_rows b) ->
  map f (text_rows (template_process single specials true a)) = map f (text_rows (template_process single specials false b)).
Proof.
  intros Hv Hs Ha Hb H. unfold text_rows, template_process. rewrite !rows_fold; try apply empty_flat; try (apply template_parts_flat; assumption).
  cbn [app rows zip7 empty_enc en_ids]. rewrite !filter_flat. apply (parts_text f single specials Hv a b Ha Hb H).
Qed.

(** trimming: the rows with new offsets *)
Fixpoint trim_rows (aps : bool) (i : nat) (l : list row) : list row :=
  match l with [] => [] | r :: q => set_off r (trim_offset aps i (r_token r) (r_off r)) :: trim_rows aps (S i) q end.
Lemma trim_zip aps : forall ids toks offs offs' j t w s m, trim_all aps j ids toks offs = Ok offs' -> zip7 ids t toks w offs' s m = trim_rows aps j (zip7 ids t toks w offs s m).
Proof.
  induction ids as [|a ids IH]; intros toks offs offs' j t w s m Ht; cbn [trim_all] in Ht; [reflexivity|].
  destruct toks as [|c toks]; [discriminate|]. destruct offs as [|o offs]; [discriminate|]. apply bind_ok in Ht as (o' & Ho & Ht). injection Ht as <-.
  destruct t, w, s, m; try reflexivity. cbn [zip7 trim_rows r_token r_off]. rewrite (IH _ _ _ _ t w s m Ho). reflexivity.
Qed.
Lemma trim_view_forget aps l : forall i, map no_offset (filter (fun r => Z.eqb (r_smask r) 0) (trim_rows aps i l)) = map no_offset (filter (fun r => Z.eqb (r_smask r) 0) l).
Proof. induction l as [|r l IH]; intros i; [reflexivity|]. cbn [trim_rows filter set_off r_smask]. destruct (r_smask r =? 0)%Z; cbn [map]; rewrite IH; reflexivity. Qed.
Definition trim_row (r : row) : row := set_off r (trim_offset false 0 (r_token r) (r_off r)).
Lemma trim_offset_free i t o : trim_offset false i t o = trim_offset false 0 t o.
Proof. destruct o as [s e]. unfold trim_offset. cbv zeta. rewrite !andb_false_r. reflexivity. Qed.
Lemma trim_free l : forall i, trim_rows false i l = map trim_row l.
Proof. induction l as [|r l IH]; intros i; [reflexivity|]. cbn [trim_rows map]. rewrite IH, trim_offset_free. reflexivity. Qed.

Lemma offsets_text f aps a b a' b' : plain_view f -> f = no_offset \/ aps = false -> map f (text_rows a) = map f (text_rows b) ->
  process_offsets aps a = Ok a' -> process_offsets aps b = Ok b' -> map f (text_rows a') = map f (text_rows b').
Proof.
  intros Hv Hf H Ha Hb. unfold process_offsets in Ha, Hb. apply bind_ok in Ha as (oa & Ha & H1). apply bind_ok in Hb as (ob & Hb & H2). injection H1 as <-. injection H2 as <-.
  unfold text_rows, rows, set_offsets in *. cbn [en_ids en_type_ids en_tokens en_words en_offsets en_smask en_amask]. rewrite (trim_zip _ _ _ _ _ _ _ _ _ _ Ha), (trim_zip _ _ _ _ _ _ _ _ _ _ Hb).
  destruct Hf as [-> | ->]; [rewrite !trim_view_forget; exact H|]. rewrite !trim_free. rewrite !filter_map by reflexivity.
  destruct Hv as [-> | ->].
  - rewrite !map_id in *. rewrite H. reflexivity.
  - rewrite !map_map. change (fun x => no_offset (trim_row x)) with no_offset. exact H.
Qed.

Lemma position_free_seq q l : position_free (PSequence (q :: l)) -> position_free q /\ position_free (PSequence l).
Proof. intros H. exact H. Qed.

Lemma process_text f pp : plain_view f -> specials_ok pp -> (f = no_offset \/ position_free pp) -> forall a b ra rb, parallel a -> parallel b -> same_text f a b ->
  process pp a true = Ok ra -> process pp b false = Ok rb -> same_text f ra rb.
Proof.
  intros Hv. induction pp as [single specials|aps trim|l IH] using post_processor_induction; intros Hok Hf a b ra rb Pa Pb H Ha Hb.
  - cbn [process] in Ha, Hb. injection Ha as <-. injection Hb as <-. inversion H; subst. inversion Pa; inversion Pb; subst. constructor; [apply template_text; assumption|]. rewrite !template_no_overflow. constructor.
  - cbn [process] in Ha, Hb. unfold byte_level_process in Ha, Hb. destruct trim; [|injection Ha as <-; injection Hb as <-; exact H].
    assert (Hf' : f = no_offset \/ aps = false) by (destruct Hf as [Hf|[Hf|Hf]]; [left; exact Hf | discriminate | right; exact Hf]).
    apply bind_ok in Ha as (a1 & Ha1 & Ha). apply bind_ok in Ha as (oa & Hoa & Ha). injection Ha as <-. apply bind_ok in Hb as (b1 & Hb1 & Hb). apply bind_ok in Hb as (ob & Hob & Hb). injection Hb as <-.
    inversion H as [? ? HT HO]; subst. constructor; [exact (offsets_text f aps a b a1 b1 Hv Hf' HT Ha1 Hb1)|]. cbn [en_overflowing].
    rewrite (process_offsets_overflowing _ _ _ Ha1) in Hoa. rewrite (process_offsets_overflowing _ _ _ Hb1) in Hob. apply mapM_ok in Hoa. apply mapM_ok in Hob.
    clear Ha1 Hb1 HT H Pa Pb. revert oa ob Hoa Hob. induction HO as [|x y la lb Hxy HO IHO]; intros oa ob Hoa Hob; inversion Hoa as [|? x' ? oa' Hx Hoa']; inversion Hob as [|? y' ? ob' Hy Hob']; subst; constructor; [|apply IHO; assumption].
    inversion Hxy as [? ? HT HO']; subst. constructor; [exact (offsets_text f aps x y x' y' Hv Hf' HT Hx Hy)|]. rewrite (process_offsets_overflowing _ _ _ Hx), (process_offsets_overflowing _ _ _ Hy). exact HO'.
  - revert a b ra rb Pa Pb H Ha Hb. induction IH as [|q l Hq Hl IHl]; intros a b ra rb Pa Pb H Ha Hb; [rewrite process_seq_nil in Ha, Hb; injection Ha as <-; injection Hb as <-; exact H|].
    rewrite process_seq_cons in Ha, Hb. apply bind_ok in Ha as (a' & Ha' & Ha). apply bind_ok in Hb as (b' & Hb' & Hb). destruct Hok as [Hok1 Hok2].
    assert (F1 : f = no_offset \/ position_free q) by (destruct Hf as [Hf|[Hf _]]; [left; exact Hf | right; exact Hf]).
    assert (F2 : f = no_offset \/ position_free (PSequence l)) by (destruct Hf as [Hf|[_ Hf]]; [left; exact Hf | right; exact Hf]).
    exact (IHl Hok2 F2 a' b' ra rb (process_parallel _ _ _ _ Hok1 Pa Ha') (process_parallel _ _ _ _ Hok1 Pb Hb') (Hq Hok1 F1 a b a' b' Pa Pb H Ha' Hb') Ha Hb).
Qed.

Lemma pad_text f p ta tb : plain_view f -> forall a b ra rb, parallel a -> parallel b -> same_text f a b -> pad ta p a = Ok ra -> pad tb p b = Ok rb -> same_text f ra rb.
Proof.
  intros Hv. assert (HONE : forall tg x y, flat_parallel x -> pad_one tg p x = Ok y -> text_rows y = text_rows x /\ en_overflowing y = en_overflowing x).
  { intros tg x y (H1 & H2 & H3 & H4 & H5 & H6) H. unfold pad_one in H. destruct (size_t_of_int tg <=? _)%Z; [injection H as <-; split; reflexivity|].
    assert (HN : forall n, filter (fun r => Z.eqb (r_smask r) 0) (repeat (mkRow (p_id p) (p_type_id p) (p_token p) (Some 0) (0, 0) 1 0) n) = []) by (induction n as [|n IHn]; [reflexivity | exact IHn]).
    destruct (p_dir p); [destruct (_ <? 0)%Z; [discriminate|]..|]; injection H as <-; (split; [|reflexivity]); [| |reflexivity];
      unfold text_rows, rows, pad_left, pad_right; cbn [en_ids en_type_ids en_tokens en_words en_offsets en_smask en_amask];
      rewrite zip7_app by (rewrite ?repeat_length; lia); rewrite zip7_repeat, filter_app, HN, ?app_nil_r; reflexivity. }
  induction a as [a IH] using encoding_induction. intros b ra rb Pa Pb H Ha Hb. rewrite pad_unfold in Ha, Hb. apply bind_ok in Ha as (oa & Hoa & Ha). apply bind_ok in Hb as (ob & Hob & Hb).
  inversion H as [? ? HT HO]; subst. inversion Pa as [? Fa Oa]; inversion Pb as [? Fb Ob]; subst.
  destruct (HONE ta (set_overflowing a oa) ra Fa Ha) as [T1 T2]. destruct (HONE tb (set_overflowing b ob) rb Fb Hb) as [T3 T4]. constructor; [rewrite T1, T3; exact HT|]. rewrite T2, T4. cbn [set_overflowing en_overflowing].
  apply mapM_ok in Hoa. apply mapM_ok in Hob. clear - IH Hoa Hob HO Oa Ob. revert oa ob Hoa Hob. induction HO as [|x y la lb Hxy HO IHO]; intros oa ob Hoa Hob; inversion Hoa; inversion Hob; subst; constructor.
  - inversion IH; inversion Oa; inversion Ob; subst. eauto.
  - inversion IH; inversion Oa; inversion Ob; subst. apply IHO; assumption.
Qed.

Lemma same_text_refl f e : same_text f e e.
Proof. induction e as [e IH] using encoding_induction. constructor; [reflexivity|]. induction IH; constructor; auto. Qed.

(** The text's positions - ids, type ids, tokens, word indices, masks - are the same with and without special tokens, in the encoding and in each
    overflowing part; the offsets too unless a ByteLevel post-processor trims them with add_prefix_space. *)
Theorem C91_only_adds : forall E fuel t s a b, (forall p, tz_post t = Some p -> specials_ok p) ->
  snd (encode E fuel t s true) = Ok a -> snd (encode E fuel t s false) = Ok b ->
  same_text no_offset a b /\ ((forall p, tz_post t = Some p -> position_free p) -> same_text (fun r => r) a b).
Proof.
  intros E fuel t s a b Hs Ha Hb. rewrite encode_text in Ha, Hb. apply bind_ok in Ha as (e & He & Ha). rewrite He in Hb. cbn [bind] in Hb.
  destruct (text_encoding_parallel _ _ _ _ He) as [Hfl Hov]. unfold do_post_process in Ha, Hb.
  apply bind_ok in Ha as (e1 & H1 & Ha). rewrite H1 in Hb. cbn [bind] in Hb. apply bind_ok in Ha as (a2 & Ha2 & Ha). apply bind_ok in Hb as (b2 & Hb2 & Hb).
  assert (P1 : parallel e1).
  { destruct (tz_trunc t) as [tr|]; [eapply truncation_parallel'; [|exact H1]; constructor; [exact Hfl | rewrite Hov; constructor] | injection H1 as <-; constructor; [exact Hfl | rewrite Hov; constructor]]. }
  assert (G : forall f, plain_view f -> (f = no_offset \/ forall p, tz_post t = Some p -> position_free p) -> same_text f a b).
  { intros f Hv Hf.
    assert (G2 : same_text f a2 b2 /\ parallel a2 /\ parallel b2).
    { destruct (tz_post t) as [pp|]; [|injection Ha2 as <-; injection Hb2 as <-; split; [apply same_text_refl | split; exact P1]].
      split; [|split; [exact (process_parallel _ _ _ _ (Hs pp eq_refl) P1 Ha2) | exact (process_parallel _ _ _ _ (Hs pp eq_refl) P1 Hb2)]].
      apply (process_text f pp Hv (Hs pp eq_refl)) with (a := e1) (b := e1); try assumption; [destruct Hf as [Hf|Hf]; [left; exact Hf | right; apply Hf; reflexivity] | apply same_text_refl]. }
    destruct G2 as (G2 & Pa & Pb). destruct (tz_pad t) as [pd|]; [|injection Ha as <-; injection Hb as <-; exact G2].
    unfold pad_encoding in Ha, Hb. exact (pad_text f pd _ _ Hv a2 b2 a b Pa Pb G2 Ha Hb). }
  split; [apply G; [right; reflexivity | left; reflexivity]|]. intros HP. apply G; [left; reflexivity | right; exact HP].
Qed.
Print Assumptions C91_only_adds.

Lemma trim_all_total aps : forall ids toks offs j, length toks = length ids -> length offs = length ids -> exists o, trim_all aps j ids toks offs = Ok o /\ length o = length ids.
Proof.
  induction ids as [|a ids IH]; intros [|c toks] [|o offs] j H1 H2; cbn [length] in *; try discriminate; [exists []; split; reflexivity|].
  cbn [trim_all]. destruct (IH toks offs (S j)) as (o' & -> & Ho); [lia..|]. cbn [bind]. eexists. split; [reflexivity|]. cbn [length]. lia.
Qed.
Lemma process_total pp add : specials_ok pp -> forall e, parallel e -> exists r, process pp e add = Ok r.
Proof.
  induction pp as [single specials|aps trim|l IH] using post_processor_induction; intros Hok e Pe.
  - eexists. reflexivity.
  - cbn [process]. unfold byte_level_process. destruct trim; [|eexists; reflexivity].
    assert (HT : forall x, parallel x -> exists y, process_offsets aps x = Ok y).
    { intros x Px. inversion Px as [? (_ & K2 & _ & K4 & _) _]; subst. unfold process_offsets. destruct (trim_all_total aps (en_ids x) (en_tokens x) (en_offsets x) 0 K2 K4) as (o & -> & _). eexists. reflexivity. }
    destruct (HT e Pe) as (e' & He'). rewrite He'. cbn [bind]. rewrite (process_offsets_overflowing _ _ _ He'). inversion Pe as [? _ Ho]; subst.
    assert (HM : exists ov, mapM (process_offsets aps) (en_overflowing e) = Ok ov).
    { clear - Ho HT. induction Ho as [|x l Hx _ IH]; [eexists; reflexivity|]. cbn [mapM]. destruct (HT x Hx) as (y & ->). destruct IH as (ys & ->). eexists. reflexivity. }
    destruct HM as (ov & ->). eexists. reflexivity.
  - revert e Pe. induction IH as [|q l Hq _ IHl]; intros e Pe; [rewrite process_seq_nil; eexists; reflexivity|]. rewrite process_seq_cons. destruct Hok as [Hok1 Hok2].
    destruct (Hq Hok1 e Pe) as (e' & He'). rewrite He'. cbn [bind]. apply (IHl Hok2). exact (process_parallel _ _ _ _ Hok1 Pe He').
Qed.
Lemma pad_total p tg : (0 <= tg)%Z -> forall e, exists r, pad tg p e = Ok r.
Proof.
  intros Ht. induction e as [e IH] using encoding_induction. rewrite pad_unfold.
  assert (HM : exists ov, mapM (pad tg p) (en_overflowing e) = Ok ov) by (induction IH as [|x l (y & Hy) _ (ys & IHl)]; [eexists; reflexivity | cbn [mapM]; rewrite Hy, IHl; eexists; reflexivity]).
  destruct HM as (ov & ->). cbn [bind]. unfold pad_one. destruct (_ <=? _)%Z eqn:E; [eexists; reflexivity|].
  assert (HK : (tg - Z.of_nat (length (en_ids (set_overflowing e ov))) <? 0)%Z = false).
  { unfold size_t_of_int in E. pose proof (Z.mod_le tg (2 ^ 64) Ht). assert (tg mod 2 ^ 64 <= tg)%Z by (apply Z.mod_le; lia). destruct (tg <? 0)%Z; lia. }
  rewrite HK. destruct (p_dir p); eexists; reflexivity.
Qed.

(** The flag does not decide whether encode succeeds, and it never changes how it fails (a negative fixed padding size excluded: that always fails, C08). *)
Theorem C91_same_outcome : forall E fuel t s, (forall p, tz_post t = Some p -> specials_ok p) ->
  (forall p, tz_pad t = Some p -> p_strat p = Fixed -> (0 <= p_fixed p)%Z) ->
  match snd (encode E fuel t s true), snd (encode E fuel t s false) with
  | Ok _, Ok _ => True
  | Throw e, Throw e' => e = e'
  | Undef u, Undef u' => u = u'
  | Diverge, Diverge => True
  | _, _ => False
  end.
Proof.
  intros E fuel t s Hs Hp. rewrite !encode_text. destruct (text_encoding E t s) as [e| | |] eqn:He; cbn [bind]; try reflexivity; try exact I.
  destruct (text_encoding_parallel _ _ _ _ He) as [Hfl Hov]. unfold do_post_process.
  destruct (match tz_trunc t with Some tr => truncate_encoding fuel tr e | None => Ok e end) as [e1| | |] eqn:H1; cbn [bind]; try reflexivity; try exact I.
  assert (P1 : parallel e1).
  { destruct (tz_trunc t) as [tr|]; [eapply truncation_parallel'; [|exact H1]; constructor; [exact Hfl | rewrite Hov; constructor] | injection H1 as <-; constructor; [exact Hfl | rewrite Hov; constructor]]. }
  assert (H2 : forall add, exists e2, match tz_post t with Some pp => process pp e1 add | None => Ok e1 end = Ok e2) by (intros add; destruct (tz_post t) as [pp|]; [apply process_total; [apply Hs; reflexivity | exact P1] | eexists; reflexivity]).
  destruct (H2 true) as (a2 & ->). destruct (H2 false) as (b2 & ->). cbn [bind].
  destruct (tz_pad t) as [p|]; [|exact I].
  assert (HT : forall x, (0 <= pad_target p x)%Z).
  { intros x. unfold pad_target. assert (0 <= match p_strat p with Fixed => p_fixed p | _ => Z.of_nat (length (en_ids x)) end)%Z by (specialize (Hp p eq_refl); destruct (p_strat p); try lia; apply Hp; reflexivity).
    destruct (_ && _)%bool eqn:EB; [|assumption]. apply andb_true_iff in EB as [B1 B2]. set (l := match p_strat p with Fixed => _ | _ => _ end) in *. pose proof (Z.rem_bound_pos l (p_multiple p)). lia. }
  unfold pad_encoding. destruct (pad_total p _ (HT a2) a2) as (ra & ->). destruct (pad_total p _ (HT b2) b2) as (rb & ->). exact I.
Qed.
Print Assumptions C91_same_outcome.

(** Without the flag no position holds a special token of the template: each comes from the text or from padding. *)
Theorem C91_false_adds_none : forall E fuel t s b, (forall p, tz_post t = Some p -> specials_ok p) -> snd (encode E fuel t s false) = Ok b ->
  exists core, text_encoding E t s = Ok core /\ forall x r, part b x -> In r (rows x) -> text_row core r \/ exists p, tz_pad t = Some p /\ pad_row p r.
Proof.
  intros E fuel t s b Hs H. rewrite encode_text in H. apply bind_ok in H as (e & He & H). exists e. split; [exact He|]. destruct (text_encoding_parallel _ _ _ _ He) as [Hfl Hov].
  intros x r Hx Hr.
  assert (H0 : forall r0, In r0 (rows e) -> text_row e r0).
  { unfold text_encoding in He. apply bind_ok in He as ([av p] & _ & He). apply bind_ok in He as (p' & _ & He). intros r0 Hr0.
    assert (HM : r_smask r0 = 0%Z /\ r_amask r0 = 1%Z); [|destruct HM as [M1 M2]; split; [exact M1|]; split; [exact M2|]; exists r0; auto].
    unfold into_encoding in He. revert e He Hfl Hov H Hr0. generalize 0 as idx. generalize (pt_splits p'). induction l as [|sp l IH]; intros idx e He Hfl Hov H Hr0; cbn [into_rows] in He; [injection He as <-; destruct Hr0|].
    apply bind_ok in He as (base & _ & He). apply bind_ok in He as (rest & Hrest & He). injection He as <-. rewrite rows_append in Hr0.
    2:{ unfold flat_parallel, split_rows. cbn. rewrite !map_length. auto 10. }
    apply in_app_iff in Hr0 as [Hr0|Hr0].
    - clear - Hr0. unfold rows, split_rows in Hr0. cbn [en_ids en_type_ids en_tokens en_words en_offsets en_smask en_amask] in Hr0. induction (sp_tokens sp) as [|k q IH]; [destruct Hr0|]. cbn [map zip7] in Hr0. destruct Hr0 as [<-|Hr0]; [split; reflexivity | exact (IH Hr0)].
    - destruct (into_rows_flat _ _ _ _ _ Hrest) as [F1 F2]. clear IH H Hov Hfl. revert Hr0 Hrest. generalize (S idx). clear. revert rest. induction l as [|sp l IH]; intros rest idx Hr0 He; cbn [into_rows] in He; [injection He as <-; destruct Hr0|].
      apply bind_ok in He as (base & _ & He). apply bind_ok in He as (rest' & Hrest & He). injection He as <-. rewrite rows_append in Hr0.
      2:{ unfold flat_parallel, split_rows. cbn. rewrite !map_length. auto 10. }
      apply in_app_iff in Hr0 as [Hr0|Hr0]; [|exact (IH _ _ Hr0 Hrest)].
      unfold rows, split_rows in Hr0. cbn [en_ids en_type_ids en_tokens en_words en_offsets en_smask en_amask] in Hr0. clear - Hr0. induction (sp_tokens sp) as [|k q IH]; [destruct Hr0|]. cbn [map zip7] in Hr0. destruct Hr0 as [<-|Hr0]; [split; reflexivity | exact (IH Hr0)]. }
  destruct (post_rows fuel t e false b (text_row e) Hfl Hov Hs H0) with (x := x) (r0 := r) as [G|[[G _]|G]]; try assumption; try discriminate; try (left; exact G); try (right; exact G).
  - intros r0 ty (M1 & M2 & r1 & M3). split; [exact M1|]. split; [exact M2|]. exists r1. exact M3.
  - right. intros aps i r0 (M1 & M2 & r1 & M3). split; [exact M1|]. split; [exact M2|]. exists r1. exact M3.
Qed.
Print Assumptions C91_false_adds_none.

Example C91_case : let t := demo (Some (mkTrunc TRight LongestFirst 2 0)) (Some (mkPad PRight Fixed 6 9 0 (str "[PAD]") 0)) (Some demo_template) in
  exists a b, snd (encode test_env 10 t (str "playing chess") true) = Ok a /\ snd (encode test_env 10 t (str "playing chess") false) = Ok b /\
    en_ids a = [1; 3; 4; 2; 9; 9]%Z /\ en_ids b = [3; 4; 9; 9; 9; 9]%Z /\ map r_id (text_rows a) = [3; 4]%Z /\ text_rows a = text_rows b.
Proof. eexists. eexists. split; [vm_compute; reflexivity|]. split; [vm_compute; reflexivity|]. vm_compute. repeat split. Qed.

(** The condition on offsets is needed: with add_prefix_space the first token of an encoding keeps its leading space when it stands first, and loses it
    behind a [CLS]. *)
Theorem C91_trim_boundary : let e := mkEnc [7]%Z [0]%Z [utf8_enc 0x120 ++ str "a"] [Some 0] [(1, 3)] [0]%Z [1]%Z [] in
  let pp := PSequence [demo_template; PByteLevel true true] in
  parallel e /\ specials_ok pp /\ exists a b, process pp e true = Ok a /\ process pp e false = Ok b /\ map r_off (text_rows a) = [(2, 3)] /\ map r_off (text_rows b) = [(1, 3)].
Proof.
  cbv zeta. split; [constructor; [repeat split | constructor]|]. split; [repeat (constructor; try reflexivity)|].
  eexists. eexists. split; [vm_compute; reflexivity|]. split; [vm_compute; reflexivity|]. split; vm_compute; reflexivity.
Qed.
Print Assumptions C91_trim_boundary.
