(** Facts about whole tokenizers. *)
From Verif Require Import Base BaseFacts Unicode UnicodeProofs Common Utils PostProcessor Normalizer PreTokenizer WordPiece Bpe AddedVocab Tokenizer
  Spec EncFacts UtilsProofs PadProofs PostSpec PostProofs PreSpec PreProofs TzSpec.
From Coq Require Import ZifyBool ZifyNat ZifyN.

(** ** Rows *)
Lemma zip7_app : forall i t k w o s m i2 t2 k2 w2 o2 s2 m2, length t = length i -> length k = length i -> length w = length i -> length o = length i -> length s = length i -> length m = length i ->
  zip7 (i ++ i2) (t ++ t2) (k ++ k2) (w ++ w2) (o ++ o2) (s ++ s2) (m ++ m2) = zip7 i t k w o s m ++ zip7 i2 t2 k2 w2 o2 s2 m2.
Proof.
  induction i as [|a i IH]; intros [|b t] [|c k] [|d w] [|e o] [|f s] [|g m] *; cbn [length]; try discriminate; intros; [reflexivity|]. cbn [app zip7]. rewrite IH by lia. reflexivity.
Qed.
Lemma rows_append a b : flat_parallel a -> rows (append_enc a b) = rows a ++ rows b.
Proof. intros (H1 & H2 & H3 & H4 & H5 & H6). unfold rows, append_enc. cbn [en_ids en_type_ids en_tokens en_words en_offsets en_smask en_amask]. apply zip7_app; assumption. Qed.
Lemma zip7_firstn n : forall i t k w o s m, zip7 (firstn n i) (firstn n t) (firstn n k) (firstn n w) (firstn n o) (firstn n s) (firstn n m) = firstn n (zip7 i t k w o s m).
Proof.
  induction n as [|n IH]; intros [|a i] [|b t] [|c k] [|d w] [|e o] [|f s] [|g m]; try reflexivity. cbn [firstn zip7]. rewrite IH. reflexivity.
Qed.
Lemma zip7_skipn n : forall i t k w o s m, length t = length i -> length k = length i -> length w = length i -> length o = length i -> length s = length i -> length m = length i ->
  zip7 (skipn n i) (skipn n t) (skipn n k) (skipn n w) (skipn n o) (skipn n s) (skipn n m) = skipn n (zip7 i t k w o s m).
Proof.
  induction n as [|n IH]; intros [|a i] [|b t] [|c k] [|d w] [|e o] [|f s] [|g m]; cbn [length]; try discriminate; intros; try reflexivity. cbn [skipn zip7]. apply IH; lia.
Qed.
Lemma rows_window e a b : flat_parallel e -> rows (window e a b) = Spec.cut (rows e) a b.
Proof. intros (H1 & H2 & H3 & H4 & H5 & H6). unfold rows, window, Spec.cut. cbn [en_ids en_type_ids en_tokens en_words en_offsets en_smask en_amask]. rewrite zip7_firstn, zip7_skipn by assumption. reflexivity. Qed.
Lemma cut_in {A} (l : list A) a b x : In x (Spec.cut l a b) -> In x l.
Proof.
  unfold Spec.cut. intros H. assert (In x (skipn a l)) by (rewrite <- (firstn_skipn (b - a) (skipn a l)); apply in_app_iff; left; exact H).
  rewrite <- (firstn_skipn a l). apply in_app_iff. right. assumption.
Qed.
Lemma rows_length e : flat_parallel e -> length (rows e) = length (en_ids e).
Proof.
  intros (H1 & H2 & H3 & H4 & H5 & H6). unfold rows. revert H1 H2 H3 H4 H5 H6. generalize (en_ids e) (en_type_ids e) (en_tokens e) (en_words e) (en_offsets e) (en_smask e) (en_amask e).
  induction l as [|a l IH]; intros [|b t] [|c k] [|d w] [|f o] [|g s] [|h m]; cbn [length]; try discriminate; intros; [reflexivity|]. cbn [zip7 length]. rewrite IH by lia. reflexivity.
Qed.

(** ** The text encoding is parallel *)
Lemma split_rows_flat base word ty ts : flat_parallel (split_rows base word ty ts).
Proof. unfold flat_parallel, split_rows. cbn [en_ids en_type_ids en_tokens en_words en_offsets en_smask en_amask]. rewrite !map_length. auto 10. Qed.
Lemma into_rows_flat ns ty l : forall idx e, into_rows ns ty idx l = Ok e -> flat_parallel e /\ en_overflowing e = [].
Proof.
  induction l as [|s l IH]; intros idx e H; cbn [into_rows] in H; [injection H as <-; split; [apply empty_flat | reflexivity]|].
  apply bind_ok in H as (base & _ & H). apply bind_ok in H as (rest & Hr & H). injection H as <-. apply IH in Hr as [Hr _]. split; [|reflexivity]. apply append_flat; [apply split_rows_flat | exact Hr].
Qed.
Lemma text_encoding_parallel E t s e : text_encoding E t s = Ok e -> flat_parallel e /\ en_overflowing e = [].
Proof. intros H. unfold text_encoding in H. apply bind_ok in H as ([av p] & _ & H). apply bind_ok in H as (p' & _ & H). exact (into_rows_flat _ _ _ _ _ H). Qed.

Lemma encode_text E fuel t s add : snd (encode E fuel t s add) = (e <- text_encoding E t s ;; do_post_process fuel t e add).
Proof.
  unfold encode, text_encoding. destruct (prepare E t s) as [[av p]| | |] eqn:Ep; try reflexivity. cbn [bind]. unfold set_av. cbn [tz_model].
  destruct (tz_model t) as [m|]; [|cbn [snd bind]; destruct (into_encoding p 0); reflexivity].
  destruct (model_tokenize E m p) as [m' r]. cbn [snd]. destruct r as [p'| | |]; [|reflexivity..]. cbn [bind]. destruct (into_encoding p' 0); reflexivity.
Qed.

(** ** Truncation *)
Lemma truncation_cases fuel t e r : truncate_encoding fuel t e = Ok r -> r = e \/ r = with_overflow e [] \/
  exists a b ov, b <= length (en_ids e) /\ r = with_overflow (window e a b) ov /\ Forall (fun o => exists a b, b <= length (en_ids e) /\ o = window e a b) ov.
Proof.
  assert (HT : forall fuel maxl stride d, truncate fuel e maxl stride d = Ok r -> r = e \/ r = with_overflow e [] \/
    exists a b ov, b <= length (en_ids e) /\ r = with_overflow (window e a b) ov /\ Forall (fun o => exists a b, b <= length (en_ids e) /\ o = window e a b) ov).
  { intros f maxl stride d H. unfold truncate in H. destruct (_ <=? maxl)%Z; [injection H as <-; auto|]. destruct (maxl =? 0)%Z; [injection H as <-; auto|].
    apply bind_ok in H as [ranges [Hr H]]. destruct ranges as [|[a b] others]; [discriminate|]. apply bind_ok in H as [e0 [He0 H]]. apply bind_ok in H as [ov [Hov H]]. injection H as <-.
    apply slice_enc_window in He0 as (_ & _ & Hb & ->). right. right. exists (Z.to_nat a), (Z.to_nat b), ov. split; [exact Hb|]. split; [reflexivity|].
    apply mapM_ok in Hov. clear Hr. induction Hov as [|[a' b'] y others' ov' Hx Hov IH]; constructor; [|exact IH]. apply slice_enc_window in Hx as (_ & _ & Hb' & ->). eauto. }
  intros H. unfold truncate_encoding in H. destruct (t_max t =? 0)%Z; [exact (HT _ _ _ _ H)|]. destruct (_ <=? _)%Z; [injection H as <-; auto|].
  destruct (t_strat t); try (injection H as <-; auto); try exact (HT _ _ _ _ H). destruct (_ <? _)%Z; [exact (HT _ _ _ _ H) | injection H as <-; auto].
Qed.
Lemma truncation_parallel' fuel t e r : parallel e -> truncate_encoding fuel t e = Ok r -> parallel r.
Proof.
  intros Hp H. inversion Hp as [? Hf _]; subst. destruct (truncation_cases _ _ _ _ H) as [->|[->|(a & b & ov & Hb & -> & Ho)]]; [exact Hp | apply with_overflow_parallel; [exact Hf | constructor]|].
  apply with_overflow_parallel; [apply window_flat; assumption|]. eapply Forall_impl; [|exact Ho]. intros o (a' & b' & Hb' & ->). constructor; [apply window_flat; assumption | constructor].
Qed.

Lemma post_parallel fuel t e add r : parallel e -> (forall p, tz_post t = Some p -> specials_ok p) -> do_post_process fuel t e add = Ok r -> parallel r.
Proof.
  intros Hp Hs H. unfold do_post_process in H. apply bind_ok in H as (e1 & H1 & H). apply bind_ok in H as (e2 & H2 & H).
  assert (P1 : parallel e1) by (destruct (tz_trunc t); [exact (truncation_parallel' _ _ _ _ Hp H1) | injection H1 as <-; exact Hp]).
  assert (P2 : parallel e2) by (destruct (tz_post t) as [pp|] eqn:Ep; [exact (process_parallel _ _ _ _ (Hs pp eq_refl) P1 H2) | injection H2 as <-; exact P1]).
  destruct (tz_pad t); [exact (pad_parallel _ _ _ P2 H) | injection H as <-; exact P2].
Qed.

(** ** A property of all rows is preserved *)
Definition all_rows (P : row -> Prop) (e : encoding) : Prop := forall x r, part e x -> In r (rows x) -> P r.
Lemma all_rows_unfold (P : row -> Prop) e : (forall r, In r (rows e) -> P r) -> Forall (all_rows P) (en_overflowing e) -> all_rows P e.
Proof. intros H1 H2 x r Hx Hr. destruct Hx as [|o x Ho Hx]; [exact (H1 r Hr)|]. exact (proj1 (Forall_forall _ _) H2 o Ho x r Hx Hr). Qed.
Lemma all_rows_self (P : row -> Prop) e : all_rows P e -> forall r, In r (rows e) -> P r.
Proof. intros H r Hr. exact (H e r (part_self e) Hr). Qed.
Lemma all_rows_over (P : row -> Prop) e : all_rows P e -> Forall (all_rows P) (en_overflowing e).
Proof. intros H. apply Forall_forall. intros o Ho x r Hx Hr. exact (H x r (part_over e o x Ho Hx) Hr). Qed.
Lemma all_rows_impl (P Q : row -> Prop) e : (forall r, P r -> Q r) -> all_rows P e -> all_rows Q e.
Proof. intros H HP x r Hx Hr. apply H. exact (HP x r Hx Hr). Qed.

Lemma truncation_rows (P : row -> Prop) fuel t e r : flat_parallel e -> all_rows P e -> truncate_encoding fuel t e = Ok r -> all_rows P r.
Proof.
  intros Hf HP H. destruct (truncation_cases _ _ _ _ H) as [->|[->|(a & b & ov & Hb & -> & Ho)]]; [exact HP | apply all_rows_unfold; [exact (all_rows_self _ _ HP) | constructor]|].
  assert (HW : forall a b r, In r (rows (window e a b)) -> P r) by (intros a' b' r Hr; rewrite rows_window in Hr by exact Hf; apply cut_in in Hr; exact (all_rows_self _ _ HP r Hr)).
  apply all_rows_unfold; [exact (HW a b)|]. cbn [with_overflow en_overflowing]. eapply Forall_impl; [|exact Ho]. intros o (a' & b' & _ & ->). apply all_rows_unfold; [apply HW | constructor].
Qed.

(** ** Post-processing and padding of rows *)
Definition set_type (r : row) (ty : Z) : row := mkRow (r_id r) ty (r_token r) (r_word r) (r_off r) (r_smask r) (r_amask r).
Definition set_off (r : row) (o : nat * nat) : row := mkRow (r_id r) (r_type r) (r_token r) (r_word r) o (r_smask r) (r_amask r).

Lemma zip7_types i : forall t t' k w o s m r, length t = length i -> In r (zip7 i t' k w o s m) -> exists r0, In r0 (zip7 i t k w o s m) /\ r = set_type r0 (r_type r).
Proof.
  induction i as [|a i IH]; intros [|b t] [|b' t'] [|c k] [|d w] [|e o] [|f s] [|g m] r Hl Hr; cbn [length] in Hl; try discriminate; try destruct Hr.
  - subst r. eexists. split; [left; reflexivity | reflexivity].
  - destruct (IH t t' k w o s m r) as (r0 & H1 & H2); [lia | assumption|]. exists r0. split; [right; exact H1 | exact H2].
Qed.
Lemma rows_set_type e ty r : flat_parallel e -> In r (rows (set_type_ids e ty)) -> exists r0, In r0 (rows e) /\ r = set_type r0 (r_type r).
Proof. intros (H1 & _) H. exact (zip7_types _ _ _ _ _ _ _ _ r H1 H). Qed.

Lemma zip7_trim aps : forall ids toks offs offs' j t w s m r, trim_all aps j ids toks offs = Ok offs' -> In r (zip7 ids t toks w offs' s m) ->
  exists i r0, In r0 (zip7 ids t toks w offs s m) /\ r = set_off r0 (trim_offset aps i (r_token r0) (r_off r0)).
Proof.
  induction ids as [|a ids IH]; intros toks offs offs' j t w s m r Ht Hr; cbn [trim_all] in Ht; [destruct Hr|].
  destruct toks as [|c toks]; [discriminate|]. destruct offs as [|o offs]; [discriminate|]. apply bind_ok in Ht as (o' & Ho & Ht). injection Ht as <-.
  destruct t as [|b t]; [destruct Hr|]. destruct w as [|d w]; [destruct Hr|]. destruct s as [|f s]; [destruct Hr|]. destruct m as [|g m]; [destruct Hr|]. cbn [zip7] in *. destruct Hr as [<-|Hr].
  - exists j. eexists. split; [left; reflexivity | reflexivity].
  - destruct (IH _ _ _ _ _ _ _ _ _ Ho Hr) as (i & r0 & H1 & H2). exists i, r0. split; [right; exact H1 | exact H2].
Qed.

Lemma zip7_special tok : forall ids ty word off sm am r, In r (zip7 ids (repeat ty (length ids)) tok (repeat word (length ids)) (repeat off (length ids)) (repeat sm (length ids)) (repeat am (length ids))) ->
  exists j, nth_error ids j = Some (r_id r) /\ nth_error tok j = Some (r_token r) /\ r_word r = word /\ r_off r = off /\ r_smask r = sm /\ r_amask r = am.
Proof.
  induction tok as [|c tok IH]; intros [|a ids] ty word off sm am r Hr; cbn [length repeat zip7] in Hr; try destruct Hr.
  - subst r. exists 0. cbn. auto 10.
  - destruct (IH ids ty word off sm am r) as (j & H1); [assumption|]. exists (S j). exact H1.
Qed.
Lemma special_enc_rows specials p r : In r (rows (special_enc specials p)) -> special_row specials r.
Proof.
  intros H. unfold rows, special_enc in H. cbn [en_ids en_type_ids en_tokens en_words en_offsets en_smask en_amask] in H. apply zip7_special in H as (j & H1 & H2 & H3 & H4 & H5 & H6).
  split; [exact H5|]. split; [exact H6|]. split; [exact H3|]. split; [exact H4|]. unfold find_special in *. destruct (find _ specials) as [st|] eqn:Ef.
  - apply find_some in Ef as [Hin _]. exists st, j. auto.
  - cbn in H1. destruct j; discriminate.
Qed.
Lemma rows_fold l : forall a, flat_parallel a -> Forall flat_parallel l -> rows (fold_left append_enc l a) = rows a ++ flat_map rows l.
Proof.
  induction l as [|x l IH]; intros a Ha Hl; cbn [fold_left flat_map]; [rewrite app_nil_r; reflexivity|]. inversion Hl; subst. rewrite IH by (try apply append_flat; assumption). rewrite rows_append by exact Ha. rewrite app_assoc. reflexivity.
Qed.
Lemma template_parts_rows (P : row -> Prop) specials add single : (forall r ty, P r -> P (set_type r ty)) -> (add = true -> forall r, special_row specials r -> P r) ->
  forall e, flat_parallel e -> (forall r, In r (rows e) -> P r) -> forall x r, In x (template_parts single specials add e) -> In r (rows x) -> P r.
Proof.
  intros HT HS. induction single as [|p single IH]; intros e Hf HP x r Hx Hr; cbn [template_parts] in Hx; [destruct Hx|].
  destruct (leqb (pc_kind p) (str "Sequence")).
  - set (e' := if leqb (pc_id p) (str "A") then set_type_ids e (repeat (pc_type p) (length (en_type_ids e))) else e) in *.
    assert (Hf' : flat_parallel e'). { unfold e'. destruct (leqb _ _); [|exact Hf]. destruct Hf as (H1 & H2). split; [|exact H2]. cbn. rewrite repeat_length. exact H1. }
    assert (HP' : forall r, In r (rows e') -> P r). { unfold e'. destruct (leqb _ _); [|exact HP]. intros r0 Hr0. apply rows_set_type in Hr0 as (r1 & H1 & ->); [|exact Hf]. apply HT, HP, H1. }
    destruct Hx as [<-|Hx]; [exact (HP' r Hr) | exact (IH e' Hf' HP' x r Hx Hr)].
  - destruct (leqb (pc_kind p) (str "SpecialToken")); [|exact (IH e Hf HP x r Hx Hr)]. destruct add; [|exact (IH e Hf HP x r Hx Hr)].
    destruct Hx as [<-|Hx]; [apply (HS eq_refl); exact (special_enc_rows _ _ _ Hr) | exact (IH e Hf HP x r Hx Hr)].
Qed.

Lemma process_rows pp (P : row -> Prop) add : specials_ok pp -> (forall r ty, P r -> P (set_type r ty)) -> (add = true -> forall r, special_row (declared pp) r -> P r) ->
  (no_trim pp \/ forall aps i r, P r -> P (set_off r (trim_offset aps i (r_token r) (r_off r)))) ->
  forall e r, parallel e -> all_rows P e -> process pp e add = Ok r -> all_rows P r.
Proof.
  intros Hok HT. revert Hok. induction pp as [single specials|aps trim|l IH] using post_processor_induction; intros Hok HS HO e r Hpar HP H.
  - cbn [process] in H. injection H as <-. inversion Hpar as [? Hf _]; subst. apply all_rows_unfold; [|rewrite template_no_overflow; constructor].
    intros r0 Hr0. unfold template_process in Hr0. rewrite rows_fold in Hr0; [|apply empty_flat|].
    + cbn [app rows zip7 empty_enc en_ids] in Hr0. apply in_flat_map in Hr0 as (x & Hx & Hr0). exact (template_parts_rows P specials add single HT HS e Hf (all_rows_self _ _ HP) x r0 Hx Hr0).
    + apply template_parts_flat; [exact Hok | exact Hf].
  - cbn [process] in H. unfold byte_level_process in H. destruct trim; [|injection H as <-; exact HP]. destruct HO as [HO|HO]; [discriminate HO|].
    assert (HB : forall x y, all_rows P x -> process_offsets aps x = Ok y -> all_rows P y).
    { intros x y Hx Hy. unfold process_offsets in Hy. apply bind_ok in Hy as (o & Ho & Hy). injection Hy as <-. apply all_rows_unfold; [|exact (all_rows_over _ _ Hx)].
      intros r0 Hr0. destruct (zip7_trim _ _ _ _ _ _ _ _ _ _ _ Ho Hr0) as (i & r1 & H1 & ->). apply HO. exact (all_rows_self _ _ Hx r1 H1). }
    apply bind_ok in H as (e' & He' & H). apply bind_ok in H as (ov & Hov & H). injection H as <-. pose proof (HB _ _ HP He') as HP'. apply all_rows_unfold; [exact (all_rows_self _ _ HP')|]. cbn [en_overflowing].
    pose proof (all_rows_over _ _ HP') as HO'. apply mapM_ok in Hov. clear - HB Hov HO'. induction Hov as [|x y l l' Hx Hl IHl]; constructor; inversion HO'; subst; [exact (HB _ _ ltac:(eassumption) Hx) | apply IHl; assumption].
  - revert e r Hpar HP H. induction IH as [|q l Hq Hl IHl]; intros e r Hpar HP H; [rewrite process_seq_nil in H; injection H as <-; exact HP|].
    rewrite process_seq_cons in H. apply bind_ok in H as (e' & He' & H). cbn [specials_ok] in Hok. destruct Hok as [Hok1 Hok2].
    assert (HS1 : add = true -> forall r, special_row (declared q) r -> P r).
    { intros Ha r0 (A1 & A2 & A3 & A4 & st & j & A5 & A6). apply (HS Ha). split; [exact A1|]. split; [exact A2|]. split; [exact A3|]. split; [exact A4|]. exists st, j. split; [cbn [declared]; apply in_app_iff; left; exact A5 | exact A6]. }
    assert (HS2 : add = true -> forall r, special_row (declared (PSequence l)) r -> P r).
    { intros Ha r0 (A1 & A2 & A3 & A4 & st & j & A5 & A6). apply (HS Ha). split; [exact A1|]. split; [exact A2|]. split; [exact A3|]. split; [exact A4|]. exists st, j. split; [cbn [declared]; apply in_app_iff; right; exact A5 | exact A6]. }
    assert (HP' : all_rows P e'). { apply (Hq Hok1 HS1) with (e := e); try assumption. destruct HO as [[HO _]|HO]; [left; exact HO | right; exact HO]. }
    apply (IHl Hok2 HS2) with (e := e'); try assumption; [destruct HO as [[_ HO]|HO]; [left; exact HO | right; exact HO] | exact (process_parallel _ _ _ _ Hok1 Hpar He')].
Qed.

Lemma zip7_repeat a b c d e f g n : zip7 (repeat a n) (repeat b n) (repeat c n) (repeat d n) (repeat e n) (repeat f n) (repeat g n) = repeat (mkRow a b c d e f g) n.
Proof. induction n as [|n IH]; [reflexivity|]. cbn [repeat zip7]. rewrite IH. reflexivity. Qed.
Lemma pad_rows p (P : row -> Prop) : (forall r, pad_row p r -> P r) -> forall e r, parallel e -> all_rows P e -> pad_encoding p e = Ok r -> all_rows P r.
Proof.
  intros HPad e r. unfold pad_encoding. generalize (pad_target p e) as tg. intros tg. revert r.
  induction e as [e IH] using encoding_induction. intros r Hp HP H. rewrite pad_unfold in H.
  apply bind_ok in H as [ov [Hov H]]. inversion Hp as [? Hf Hfo]; subst.
  assert (Hpo : Forall (all_rows P) ov).
  { pose proof (all_rows_over _ _ HP) as HPo. apply mapM_ok in Hov. clear - IH Hov Hfo HPo. induction Hov as [|x y l l' Hx Hl IHl]; [constructor|].
    inversion IH; inversion Hfo; inversion HPo; subst. constructor; auto. }
  assert (Hs : all_rows P (set_overflowing e ov)) by (apply all_rows_unfold; [exact (all_rows_self _ _ HP) | exact Hpo]).
  unfold pad_one in H. destruct (size_t_of_int tg <=? _)%Z; [injection H as <-; exact Hs|].
  destruct Hf as (H1 & H2 & H3 & H4 & H5 & H6).
  assert (HR : forall n r, In r (repeat (mkRow (p_id p) (p_type_id p) (p_token p) (Some 0) (0, 0) 1 0) n) -> P r) by (intros n r0 Hr0; apply repeat_spec in Hr0; subst r0; apply HPad; reflexivity).
  destruct (p_dir p); [destruct (_ <? 0)%Z; [discriminate|]..|]; injection H as <-; try exact Hs.
  all: apply all_rows_unfold; [|exact Hpo]; intros r0 Hr0; unfold rows, pad_left, pad_right in Hr0; cbn [en_ids en_type_ids en_tokens en_words en_offsets en_smask en_amask set_overflowing] in Hr0;
    rewrite zip7_app in Hr0 by (rewrite ?repeat_length; lia); rewrite zip7_repeat in Hr0; apply in_app_iff in Hr0 as [Hr0|Hr0]; try exact (HR _ _ Hr0); exact (all_rows_self _ _ HP r0 Hr0).
Qed.

Lemma trim_zero aps i t : trim_offset aps i t (0, 0) = (0, 0).
Proof.
  unfold trim_offset. cbn [fst snd]. assert (E : (if 0 <? leading_spaces t then Nat.min (0 + (if ((i =? 0) || (0 =? 0)) && aps && (leading_spaces t =? 1) then 0 else leading_spaces t)) 0 else 0) = 0) by (destruct (0 <? leading_spaces t); lia).
  cbv zeta. rewrite E. destruct ((0 <? trailing_spaces t) && (trailing_spaces t <=? 0)); reflexivity.
Qed.

(** Every row of every part of the result is a text row, a special row or a padding row. *)
Lemma post_rows fuel t e add r (Q : row -> Prop) : flat_parallel e -> en_overflowing e = [] -> (forall p, tz_post t = Some p -> specials_ok p) ->
  (forall r0, In r0 (rows e) -> Q r0) -> (forall r0 ty, Q r0 -> Q (set_type r0 ty)) ->
  ((forall p, tz_post t = Some p -> no_trim p) \/ forall aps i r0, Q r0 -> Q (set_off r0 (trim_offset aps i (r_token r0) (r_off r0)))) ->
  do_post_process fuel t e add = Ok r ->
  forall x r0, part r x -> In r0 (rows x) -> Q r0 \/ (add = true /\ special_row (tz_specials t) r0) \/ (exists p, tz_pad t = Some p /\ pad_row p r0).
Proof.
  intros Hf Hov Hs HQ HT HO H. set (P1 := fun r0 => Q r0 \/ (add = true /\ special_row (tz_specials t) r0)). set (P2 := fun r0 => Q r0 \/ (add = true /\ special_row (tz_specials t) r0) \/ (exists p, tz_pad t = Some p /\ pad_row p r0)).
  assert (Hpar : parallel e) by (constructor; [exact Hf | rewrite Hov; constructor]).
  unfold do_post_process in H. apply bind_ok in H as (e1 & H1 & H). apply bind_ok in H as (e2 & H2 & H).
  assert (A0 : all_rows Q e) by (apply all_rows_unfold; [exact HQ | rewrite Hov; constructor]).
  assert (A1 : all_rows Q e1 /\ parallel e1).
  { destruct (tz_trunc t); [|injection H1 as <-; auto]. split; [exact (truncation_rows _ _ _ _ _ Hf A0 H1) | exact (truncation_parallel' _ _ _ _ Hpar H1)]. }
  destruct A1 as [A1 B1]. assert (A2 : all_rows P1 e2 /\ parallel e2).
  { unfold P1, tz_specials. destruct (tz_post t) as [pp|] eqn:Ep.
    - split; [|exact (process_parallel _ _ _ _ (Hs pp eq_refl) B1 H2)]. apply (process_rows pp _ add (Hs pp eq_refl)) with (e := e1); try assumption.
      + intros r0 ty [C|[C1 C2]]; [left; apply HT, C | right; split; [exact C1 | exact C2]].
      + intros Ha r0 C. right. auto.
      + destruct HO as [HO|HO]; [left; exact (HO pp eq_refl)|]. right. intros aps i r0 [C|[C1 (D1 & D2 & D3 & D4 & D5)]]; [left; apply HO, C|]. right. split; [exact C1|]. rewrite D4, trim_zero. split; [exact D1|]. split; [exact D2|]. split; [exact D3|]. split; [reflexivity | exact D5].
      + exact (all_rows_impl _ _ _ (fun r0 C => or_introl C) A1).
    - injection H2 as <-. split; [exact (all_rows_impl _ _ _ (fun r0 C => or_introl C) A1) | exact B1]. }
  destruct A2 as [A2 B2]. change (all_rows P2 r). assert (A3 : all_rows P2 e2) by (apply (all_rows_impl _ _ _ (fun r0 (C : P1 r0) => match C with or_introl C => or_introl C | or_intror C => or_intror (or_introl C) end) A2)).
  destruct (tz_pad t) as [p|] eqn:Ep; [|injection H as <-; exact A3]. apply (pad_rows p P2) with (e := e2); try assumption. intros r0 Hr0. right. right. exists p. auto.
Qed.

(** ** Rows of the text encoding *)
Lemma into_rows_masks ns ty l : forall idx e, into_rows ns ty idx l = Ok e -> forall r, In r (rows e) -> r_smask r = 0%Z /\ r_amask r = 1%Z.
Proof.
  induction l as [|s l IH]; intros idx e H r Hr; cbn [into_rows] in H; [injection H as <-; destruct Hr|].
  apply bind_ok in H as (base & _ & H). apply bind_ok in H as (rest & Hrest & H). injection H as <-. rewrite rows_append in Hr by apply split_rows_flat. apply in_app_iff in Hr as [Hr|Hr]; [|exact (IH _ _ Hrest r Hr)].
  clear - Hr. unfold rows, split_rows in Hr. cbn [en_ids en_type_ids en_tokens en_words en_offsets en_smask en_amask] in Hr. induction (sp_tokens s) as [|t ts IHt]; [destruct Hr|]. destruct Hr as [<-|Hr]; [cbn; auto | exact (IHt Hr)].
Qed.
