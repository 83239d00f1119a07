(** What encode returns, position by position, from the rows of the text alone (C109). *)
From Verif Require Import Base BaseFacts Unicode Common Utils PostProcessor Decoder Normalizer PreTokenizer WordPiece Bpe AddedVocab Tokenizer
  Spec EncFacts UtilsProofs PadProofs PostSpec PostProofs TzSpec TzProofs PreSpec AvSpec AvProofs OffSpec OffProofs RefSpec LenSpec FullSpec BpeSpec BpeProofs BpeWord HistSpec HistProofs BpeRefSpec CutSpec PropsUtils PropsPost PropsEncode PropsReference PropsLength PropsText PropsBpe PropsBpeText PropsCut PropsOutcome PropsFinish Env.
From Coq Require Import ZifyBool ZifyNat.

Lemma truncation_rows fuel tr e r : flat_parallel e -> (Z.of_nat (length (en_ids e)) < 2 ^ 31)%Z -> int32 (t_max tr) -> truncate_encoding fuel tr e = Ok r -> kept_rows (Some tr) (rows e) (rows r).
Proof.
  intros Hf Hn Hi H. unfold kept_rows. rewrite (rows_length e Hf). split; intros Ha.
  - rewrite truncation_inactive in H by assumption. injection H as <-. destruct (_ && _); reflexivity.
  - destruct Ha as [Hs Hm]. rewrite truncate_encoding_active in H by assumption. rewrite truncate_unfold in H by assumption. apply bind_ok in H as [ranges [Hr H]].
    destruct ranges as [|[a b] others]; [discriminate|]. apply bind_ok in H as [e0 [He0 H]]. apply bind_ok in H as [ov [_ H]]. injection H as <-.
    assert (Hab : (b - a = t_max tr)%Z /\ (t_dir tr = TRight -> a = 0%Z) /\ (t_dir tr = TLeft -> b = Z.of_nat (length (en_ids e))) /\ t_dir tr <> TUnknown).
    { destruct (t_dir tr); [split; [exact (right_first _ _ _ _ _ _ Hm Hn Hr)|split; [|split; discriminate]] | split; [exact (left_first _ _ _ _ _ _ Hm Hr)|split; [discriminate|split; [|discriminate]]] | discriminate]; intros _.
      - destruct fuel as [|f]; [discriminate|]. cbn [right_ranges] in Hr. destruct (size_t_of_int 0 <? _)%Z; [|discriminate]. apply bind_ok in Hr as [rest [_ Hr]]. injection Hr as <- _ _. reflexivity.
      - destruct fuel as [|f]; [discriminate|]. cbn [left_ranges] in Hr. replace (0 <=? Z.of_nat (length (en_ids e)) - 1)%Z with true in Hr by lia.
        replace (Z.of_nat (length (en_ids e)) - 1 + 1 <? t_max tr)%Z with false in Hr by lia. replace (Z.of_nat (length (en_ids e)) - 1 + 1 - t_max tr <? Z.of_nat (length (en_ids e)) - 1 + 1)%Z with true in Hr by lia. cbn [negb andb] in Hr.
        apply bind_ok in Hr as [rest [_ Hr]]. inversion Hr. lia. }
    destruct Hab as (Hab & HR & HL & HU). apply slice_enc_window in He0 as (Ha & H1 & H2 & ->).
    assert (HW : rows (set_overflowing (window e (Z.to_nat a) (Z.to_nat b)) ov) = Spec.cut (rows e) (Z.to_nat a) (Z.to_nat b)) by (rewrite <- rows_window by exact Hf; reflexivity). rewrite HW.
    split; [rewrite cut_length by (rewrite rows_length by exact Hf; exact H2); lia|]. unfold Spec.cut. destruct (t_dir tr) eqn:Ed; [| |congruence].
    + rewrite (HR eq_refl). cbn [skipn Z.to_nat]. exists (skipn (Z.to_nat b - 0) (rows e)). rewrite firstn_skipn. reflexivity.
    + exists (firstn (Z.to_nat a) (rows e)). rewrite (firstn_all2 (skipn _ _)); [rewrite firstn_skipn; reflexivity|]. rewrite skipn_length, rows_length by exact Hf. rewrite (HL eq_refl). lia.
Qed.

Lemma rows_retyped e ty : flat_parallel e -> rows (set_type_ids e (repeat ty (length (en_type_ids e)))) = map (retyped ty) (rows e).
Proof.
  intros (H1 & H2 & H3 & H4 & H5 & H6). unfold rows, set_type_ids. cbn [en_ids en_type_ids en_tokens en_words en_offsets en_smask en_amask]. revert H1 H2 H3 H4 H5 H6.
  generalize (en_ids e) (en_type_ids e) (en_tokens e) (en_words e) (en_offsets e) (en_smask e) (en_amask e).
  induction l as [|a l IH]; intros [|b t] [|c k] [|d w] [|f o] [|g s] [|h m]; cbn [length]; try discriminate; intros; [reflexivity|]. cbn [zip7 repeat map]. rewrite IH by lia. reflexivity.
Qed.
Lemma rows_special ty : forall ids toks, length toks = length ids ->
  zip7 ids (repeat ty (length ids)) toks (repeat None (length ids)) (repeat (0, 0) (length ids)) (repeat 1%Z (length ids)) (repeat 1%Z (length ids)) = map (special_position ty) (combine ids toks).
Proof. induction ids as [|i ids IH]; intros [|k toks]; cbn [length]; try discriminate; intros; [reflexivity|]. cbn [repeat zip7 combine map]. rewrite IH by lia. reflexivity. Qed.
Lemma special_flat specials p : Forall (fun s => length (st_tokens s) = length (st_ids s)) specials -> flat_parallel (special_enc specials p).
Proof.
  intros H. unfold special_enc, find_special, flat_parallel. cbn [en_ids en_type_ids en_tokens en_words en_offsets en_smask en_amask]. rewrite !repeat_length.
  destruct (find _ specials) as [s|] eqn:Ef; [|auto 10]. apply find_some in Ef as [Hin _]. rewrite Forall_forall in H. rewrite (H s Hin). auto 10.
Qed.
Lemma rows_special_enc specials p : Forall (fun s => length (st_tokens s) = length (st_ids s)) specials ->
  rows (special_enc specials p) = match find (fun s => leqb (st_id s) (pc_id p)) specials with Some s => map (special_position (pc_type p)) (combine (st_ids s) (st_tokens s)) | None => [] end.
Proof.
  intros H. unfold special_enc, find_special, rows. cbn [en_ids en_type_ids en_tokens en_words en_offsets en_smask en_amask]. destruct (find _ specials) as [s|] eqn:Ef; [|reflexivity].
  apply rows_special. apply find_some in Ef as [Hin _]. rewrite Forall_forall in H. exact (H s Hin).
Qed.
Lemma fold_rows l : forall a, flat_parallel a -> Forall flat_parallel l -> flat_parallel (fold_left append_enc l a) /\ rows (fold_left append_enc l a) = rows a ++ concat (map rows l).
Proof.
  induction l as [|x l IH]; intros a Ha Hl; cbn [fold_left map concat]; [rewrite app_nil_r; auto|]. destruct (IH (append_enc a x)) as [K1 K2].
  - apply append_flat; [exact Ha | exact (Forall_inv Hl)].
  - exact (Forall_inv_tail Hl).
  - split; [exact K1|]. rewrite K2, rows_append, app_assoc by exact Ha. reflexivity.
Qed.
Lemma parts_rows specials add : Forall (fun s => length (st_tokens s) = length (st_ids s)) specials -> forall single e, flat_parallel e ->
  Forall flat_parallel (template_parts single specials add e) /\ template_rows specials add single (rows e) (concat (map rows (template_parts single specials add e))).
Proof.
  intros Hsp. induction single as [|p r IH]; intros e He; cbn [template_parts]; [split; constructor|]. destruct (leqb (pc_kind p) (str "Sequence")) eqn:Ek.
  - apply leqb_eq in Ek. destruct (leqb (pc_id p) (str "A")) eqn:Ea; cbv zeta; cbn [map concat].
    + apply leqb_eq in Ea. destruct (IH (set_type_ids e (repeat (pc_type p) (length (en_type_ids e))))) as [K1 K2].
      { destruct He as (H1 & H2 & H3 & H4 & H5 & H6). unfold flat_parallel, set_type_ids. cbn [en_ids en_type_ids en_tokens en_words en_offsets en_smask en_amask]. rewrite repeat_length. auto 10. }
      split; [constructor; [|exact K1]; destruct He as (H1 & H2 & H3 & H4 & H5 & H6); unfold flat_parallel, set_type_ids; cbn [en_ids en_type_ids en_tokens en_words en_offsets en_smask en_amask]; rewrite repeat_length; auto 10|].
      rewrite rows_retyped in * by exact He. apply tr_text_a; assumption.
    + assert (Hn : pc_id p <> str "A") by (intros Hc; rewrite Hc, leqb_refl in Ea; discriminate). destruct (IH e He) as [K1 K2]. split; [constructor; assumption|]. apply tr_text_b; assumption.
  - assert (Hk : pc_kind p <> str "Sequence") by (intros Hc; rewrite Hc, leqb_refl in Ek; discriminate). destruct (IH e He) as [K1 K2]. destruct (leqb (pc_kind p) (str "SpecialToken")) eqn:Es.
    + apply leqb_eq in Es. destruct add; [|split; [exact K1 | apply tr_nothing; auto]]. split; [constructor; [apply special_flat; exact Hsp | exact K1]|]. cbn [map concat].
      rewrite (rows_special_enc specials p Hsp). destruct (find _ specials) as [s|] eqn:Ef; [apply tr_special; auto | apply tr_nothing; auto].
    + assert (Hs : pc_kind p <> str "SpecialToken") by (intros Hc; rewrite Hc, leqb_refl in Es; discriminate). split; [exact K1 | apply tr_nothing; auto].
Qed.

Lemma zip7_nth : forall n i t k w o s m, nth_error (zip7 i t k w o s m) n = match nth_error i n, nth_error t n, nth_error k n, nth_error w n, nth_error o n, nth_error s n, nth_error m n with
  Some a, Some b, Some c, Some d, Some e, Some f, Some g => Some (mkRow a b c d e f g) | _, _, _, _, _, _, _ => None end.
Proof.
  induction n as [|n IH]; intros [|a i] [|b t] [|c k] [|d w] [|e o] [|f s] [|g m]; cbn [zip7 nth_error]; try reflexivity; try apply IH.
  all: repeat match goal with |- context [nth_error ?l ?j] => destruct (nth_error l j) end; reflexivity.
Qed.
Lemma trimmed_rows_of aps e r : flat_parallel e -> flat_parallel r -> trimmed aps e r -> trimmed_rows aps (rows e) (rows r).
Proof.
  intros He Hr (H1 & H2 & H3 & H4 & H5 & H6 & H7 & H8). split; [rewrite !rows_length by assumption; congruence|]. intros i a b Ha Hb. unfold rows in *. rewrite zip7_nth in Ha, Hb. rewrite H1, H2, H3, H4, H5, H6 in Hb.
  destruct (nth_error (en_ids e) i), (nth_error (en_type_ids e) i), (nth_error (en_tokens e) i) as [tok|] eqn:Et, (nth_error (en_words e) i), (nth_error (en_offsets e) i) as [[s t]|] eqn:Eo, (nth_error (en_smask e) i), (nth_error (en_amask e) i); try discriminate.
  injection Ha as <-. destruct (nth_error (en_offsets r) i) as [pr|] eqn:Er; [|discriminate]. injection Hb as <-. unfold trimmed_row. cbn [r_id r_type r_token r_word r_off r_smask r_amask fst snd]. do 6 (split; [reflexivity|]).
  intros lead trail Hst Hl Ht. specialize (H8 i tok s t lead trail Et Eo Hst Hl Ht). cbv zeta in H8. rewrite H8 in Er. injection Er as <-. reflexivity.
Qed.
Lemma process_posted add : forall pp e r, specials_ok pp -> parallel e -> process pp e add = Ok r -> posted_rows add pp (rows e) (rows r).
Proof.
  intros pp. induction pp as [single specials|aps trim|l IH] using post_processor_induction; intros e r Hsp Hp H.
  - cbn [process] in H. injection H as <-. inversion Hp as [? Hf _]; subst. cbn [posted_rows]. unfold template_process. destruct (parts_rows specials add Hsp single e Hf) as [K1 K2].
    destruct (fold_rows (template_parts single specials add e) empty_enc empty_flat K1) as [_ ->]. exact K2.
  - pose proof (process_parallel (PByteLevel aps trim) e add r Hsp Hp H) as Hpr. cbn [posted_rows]. destruct trim; [|cbn [process] in H; unfold byte_level_process in H; injection H as <-; reflexivity].
    inversion Hp as [? Hf _]; inversion Hpr as [? Hfr _]; subst. apply trimmed_rows_of; [exact Hf | exact Hfr|]. exact (proj1 (C16_trimmed_everywhere aps e add r Hp H)).
  - revert e r Hsp Hp H. induction IH as [|q l Hq _ IHl]; intros e r Hsp Hp H; [rewrite process_seq_nil in H; injection H as <-; reflexivity|].
    rewrite process_seq_cons in H. apply bind_ok in H as (e' & He' & H). destruct Hsp as [Hsq Hsl]. cbn [posted_rows]. exists (rows e'). split; [exact (Hq _ _ Hsq Hp He')|].
    apply (IHl e' r Hsl); [exact (process_parallel q e add e' Hsq Hp He') | exact H].
Qed.

Lemma zip7_repeat n i t k w o s m : zip7 (repeat i n) (repeat t n) (repeat k n) (repeat w n) (repeat o n) (repeat s n) (repeat m n) = repeat (mkRow i t k w o s m) n.
Proof. induction n as [|n IH]; cbn [repeat zip7]; [reflexivity|]. rewrite IH. reflexivity. Qed.
Lemma padded_rows_of target p e r : flat_parallel e -> padded target p e r -> rows r = padded_col (p_dir p) (target - length (rows e)) (mkRow (p_id p) (p_type_id p) (p_token p) (Some 0) (0, 0) 1 0) (rows e).
Proof.
  intros He Hp. rewrite (rows_length e He). destruct He as (F1 & F2 & F3 & F4 & F5 & F6). inversion Hp as [? ? k H1 H2 H3 H4 H5 H6 H7 _]; subst. unfold rows. rewrite H1, H2, H3, H4, H5, H6, H7. fold k.
  destruct (p_dir p); cbn [padded_col]; [| |reflexivity]; rewrite zip7_app by (rewrite ?repeat_length; assumption || congruence); rewrite zip7_repeat; reflexivity.
Qed.
Lemma pad_rows p e r : int32 (p_multiple p) -> int32 (p_fixed p) -> flat_parallel e -> (Z.of_nat (length (en_ids e)) < 2 ^ 31)%Z -> pad_encoding p e = Ok r -> padded_rows (Some p) (rows e) (rows r).
Proof.
  intros I1 I2 Hf Hn H. unfold padded_rows.
  assert (HK : p_dir p <> PUnknown -> exists target, is_pad_target p (length (rows e)) target /\ rows r = padded_col (p_dir p) (target - length (rows e)) (mkRow (p_id p) (p_type_id p) (p_token p) (Some 0) (0, 0) 1 0) (rows e)).
  { intros Hd. destruct (Z.leb_spec 0 (match p_strat p with Fixed => p_fixed p | _ => Z.of_nat (length (en_ids e)) end)) as [H0|H0].
    - destruct (C06_padding_shape p e I1 I2 Hn H0) as (target & r' & T1 & T2 & T3). rewrite H in T2. injection T2 as <-. exists target. split; [rewrite (rows_length e Hf); exact T1 | apply padded_rows_of; assumption].
    - exfalso. destruct (p_strat p) eqn:Es; try lia. exact (pad_negative_not p e r Es H0 I2 Hd Hn H). }
  destruct (p_dir p) eqn:Ed; [apply HK; discriminate | apply HK; discriminate|].
  unfold pad_encoding in H. pose proof (pad_unknown p _ Ed e r H) as HP. rewrite (padded_rows_of 0 p e r Hf HP), Ed. reflexivity.
Qed.

(** Whatever the tokenizer, the rows of encode's result are those of the text alone (what encode returns without truncation, post-processor and padding), truncated, post-processed
    and padded. *)
Theorem C109_rows : forall E fuel t s add core r, snd (encode E fuel (bare t) s add) = Ok core -> snd (encode E fuel t s add) = Ok r -> int_config t ->
  (forall p, tz_post t = Some p -> specials_ok p) -> (Z.of_nat (length (en_ids core)) < 2 ^ 31)%Z -> (forall k, k <= length (en_ids core) -> (Z.of_nat (tz_post_length t add k) < 2 ^ 31)%Z) ->
  finished t add (rows core) (rows r).
Proof.
  intros E fuel t s add core r Hc H Hi Hsp Hn Hp. pose proof (bare_text _ _ _ _ _ _ Hc) as HT. destruct (text_encoding_parallel _ _ _ _ HT) as [Hfl Hov]. rewrite encode_stages, Hc in H. cbn [bind] in H. unfold do_post_process in H.
  assert (HP : parallel core) by (constructor; [exact Hfl | rewrite Hov; constructor]).
  apply bind_ok in H as (e1 & H1 & H). apply bind_ok in H as (e2 & H2 & H). exists (rows e1), (rows e2).
  assert (HP1 : parallel e1) by (destruct (tz_trunc t) as [tr|]; [exact (truncation_parallel' _ _ _ _ HP H1) | injection H1 as <-; exact HP]).
  assert (HP2 : parallel e2) by (destruct (tz_post t) as [pp|]; [exact (process_parallel pp e1 add e2 (Hsp pp eq_refl) HP1 H2) | injection H2 as <-; exact HP1]).
  assert (K1' : length (en_ids e1) <= length (en_ids core)).
  { destruct (tz_trunc t) as [tr|]; [|injection H1 as <-; lia]. destruct (truncation_cases _ _ _ _ H1) as [->|[->|(a & b & ov & Hb & -> & _)]]; [lia | cbn; lia|]. cbn [with_overflow en_ids]. rewrite window_length by exact Hb. lia. }
  assert (K2 : length (en_ids e2) = tz_post_length t add (length (en_ids e1))).
  { unfold tz_post_length. destruct (tz_post t) as [pp|]; [exact (process_length add pp _ _ H2) | injection H2 as <-; reflexivity]. }
  split; [|split].
  - destruct (tz_trunc t) as [tr|] eqn:Et; [|injection H1 as <-; reflexivity]. eapply truncation_rows; [exact Hfl | exact Hn | exact (proj1 Hi tr Et) | exact H1].
  - destruct (tz_post t) as [pp|]; [|injection H2 as <-; reflexivity]. apply process_posted; [exact (Hsp pp eq_refl) | exact HP1 | exact H2].
  - destruct (tz_pad t) as [pd|] eqn:Ep; [|injection H as <-; reflexivity]. destruct (proj2 Hi pd Ep) as [I1 I2]. inversion HP2 as [? Hf2 _]; subst. apply pad_rows; [exact I1 | exact I2 | exact Hf2 | rewrite K2; apply Hp; exact K1' | exact H].
Qed.
Print Assumptions C109_rows.

(** These rows are unique (unless offsets are trimmed, when they are unique for offsets (a, b) with a <= b). *)
Lemma template_rows_fun specials add : forall single rs a b, template_rows specials add single rs a -> template_rows specials add single rs b -> a = b.
Proof.
  induction single as [|p l IH]; intros rs a b Ha Hb.
  - inversion Ha; inversion Hb; reflexivity.
  - inversion Ha; inversion Hb; subst; try congruence; try (exfalso; intuition congruence); try solve [apply f_equal; eapply IH; eassumption]; try solve [eapply IH; eassumption].
    all: try solve [exfalso; match goal with H : pc_kind ?z = _, H1 : pc_kind ?z = _ |- _ => rewrite H in H1; discriminate end].
    match goal with H : find _ _ = Some ?x, H' : find _ _ = Some ?y |- _ => assert (Some x = Some y) as [= ->] by congruence end. apply f_equal. eapply IH; eassumption.
Qed.
Lemma posted_rows_fun add : forall pp rs a b, no_trim pp -> posted_rows add pp rs a -> posted_rows add pp rs b -> a = b.
Proof.
  intros pp. induction pp as [single specials|aps trim|l IH] using post_processor_induction; intros rs a b Hn Ha Hb; cbn [posted_rows no_trim] in *.
  - eapply template_rows_fun; eassumption.
  - subst trim. congruence.
  - revert rs Hn Ha Hb. induction IH as [|q l Hq _ IHl]; intros rs Hn Ha Hb; [congruence|]. destruct Hn as [Hnq Hnl], Ha as (m & Ha & Ha'), Hb as (m' & Hb & Hb'). rewrite (Hq _ _ _ Hnq Hb Ha) in Hb'. eapply IHl; eassumption.
Qed.
Lemma pad_target_fun p n a b : is_pad_target p n a -> is_pad_target p n b -> a = b.
Proof.
  intros (A1 & A2 & A3) (B1 & B2 & B3). destruct (Z.ltb_spec 0 (p_multiple p)) as [Hm|Hm]; [|specialize (A3 Hm); specialize (B3 Hm); lia].
  destruct (A2 Hm) as [[x Hx] A4], (B2 Hm) as [[y Hy] B4]. enough (x = y) by (subst; lia). nia.
Qed.
Lemma app_same_length {A} (a b c d : list A) : a ++ b = c ++ d -> length a = length c -> a = c /\ b = d.
Proof. revert c. induction a as [|x a IH]; intros [|y c]; cbn [app length]; intros H Hl; try discriminate; [auto|]. injection H as -> H. apply IH in H as [-> ->]; [auto | lia]. Qed.
Theorem C109_unique : forall t add rs a b, (forall p, tz_post t = Some p -> no_trim p) -> finished t add rs a -> finished t add rs b -> a = b.
Proof.
  intros t add rs a b Hn (ks & ps & A1 & A2 & A3) (ks' & ps' & B1 & B2 & B3).
  assert (ks' = ks) as ->.
  { unfold kept_rows in *. destruct (tz_trunc t) as [tr|]; [|congruence]. destruct A1 as [A1 A1'], B1 as [B1 B1']. destruct (truncation_active_dec tr (length rs)) as [Ha|Ha]; [|rewrite A1, B1 by exact Ha; reflexivity].
    destruct (A1' Ha) as [L1 D1], (B1' Ha) as [L2 D2]. destruct (t_dir tr); [| |contradiction]; destruct D1 as [x D1], D2 as [y D2]; rewrite D1 in D2; [apply app_same_length in D2 as [-> _]; [reflexivity | lia]|].
    pose proof (f_equal (@length row) D2) as HL. rewrite !app_length in HL. apply app_same_length in D2 as [_ ->]; [reflexivity | lia]. }
  assert (ps' = ps) as -> by (destruct (tz_post t) as [pp|]; [eapply posted_rows_fun; eauto | congruence]).
  unfold padded_rows in *. destruct (tz_pad t) as [p|]; [|congruence]. destruct (p_dir p); [| |congruence]; destruct A3 as (x & X1 & X2), B3 as (y & Y1 & Y2); rewrite (pad_target_fun _ _ _ _ X1 Y1) in X2; congruence.
Qed.
Print Assumptions C109_unique.

(** End to end: a BERT tokenizer with sane options returns, for every non-empty text with no added token whose normalization is in place, the reference rows of the normalized text,
    truncated, post-processed and padded. *)
Lemma sane_finishes E t s add core : snd (encode E 0 (bare t) s add) = Ok core -> int_config t -> (forall tr, tz_trunc t = Some tr -> int32 (t_stride tr)) -> sane t -> (forall p, tz_post t = Some p -> specials_ok p) ->
  (Z.of_nat (length (en_ids core)) < 2 ^ 31)%Z -> (forall k, k <= length (en_ids core) -> (Z.of_nat (tz_post_length t add k) < 2 ^ 31)%Z) ->
  exists r, (forall fuel, length (en_ids core) + 2 <= fuel -> snd (encode E fuel t s add) = Ok r) /\ parallel r /\ finished t add (rows core) (rows r).
Proof.
  intros Hc Hi Hst [Hs1 Hs2] Hsp Hn Hp. pose proof (bare_text _ _ _ _ _ _ Hc) as HT. destruct (text_encoding_parallel _ _ _ _ HT) as [Hfl Hov].
  assert (HP : parallel core) by (constructor; [exact Hfl | rewrite Hov; constructor]).
  assert (HB : forall fuel, snd (encode E fuel (bare t) s add) = Ok core) by (intros fuel; rewrite encode_text; change (text_encoding E (bare t) s) with (text_encoding E t s); rewrite HT; reflexivity).
  assert (K : forall fuel, length (en_ids core) + 2 <= fuel -> exists r, snd (encode E fuel t s add) = Ok r).
  { intros fuel Hf. rewrite encode_text, HT. cbn [bind]. rewrite process_split.
    assert (K1 : exists e1, match tz_trunc t with Some tr => truncate_encoding fuel tr core | None => Ok core end = Ok e1 /\ parallel e1).
    { destruct (tz_trunc t) as [tr|] eqn:Et; [|eauto]. pose proof (Hs1 tr eq_refl) as Hx. destruct (truncation_ok fuel tr core Hn (proj1 Hi tr Et) (Hst tr eq_refl) Hfl) as [e1 Hr];
        [intros (_ & HL); destruct HL as [[HD HL]|[HD HL]]; rewrite HD in Hx; lia | intros [_ HD]; rewrite HD in Hx; exact Hx | exact Hf|]. exists e1. split; [exact Hr|]. eapply truncation_parallel'; eassumption. }
    destruct K1 as (e1 & K1 & P1). rewrite K1. cbn [bind]. apply finish_ok; [exact Hsp | exact P1|]. intros (p & Hpd & HF & HL & _). specialize (Hs2 p Hpd HF). lia. }
  destruct (K _ (le_n _)) as [r Hr]. exists r. split; [|split].
  - intros fuel Hf. destruct (K fuel Hf) as [r' Hr']. rewrite Hr'. f_equal. clear K. rewrite encode_text, HT in Hr, Hr'. cbn [bind] in Hr, Hr'. unfold do_post_process in Hr, Hr'. destruct (tz_trunc t) as [tr|] eqn:Et; [|congruence].
    apply bind_ok in Hr as (e1 & H1 & Hr), Hr' as (e1' & H1' & Hr'). rewrite (trunc_fuel _ fuel _ _ _ Hf H1 ltac:(discriminate)) in H1'. injection H1' as <-. rewrite Hr in Hr'. injection Hr' as ->. reflexivity.
  - rewrite encode_text, HT in Hr. cbn [bind] in Hr. eapply post_parallel; eassumption.
  - eapply C109_rows; [apply HB | exact Hr | assumption..].
Qed.
Theorem C109_bert : forall E t w s n rs add, tz_model t = Some (MWordPiece w) -> tz_pre t = Some TBert -> s <> [] -> forallb valid_cp s = true -> forallb valid_cp n = true ->
  normalized_in_place E t s n -> reference w (e_u_space E) (e_u_punct E) n rs -> sane t -> int_config t -> (forall tr, tz_trunc t = Some tr -> int32 (t_stride tr)) ->
  (forall p, tz_post t = Some p -> specials_ok p) -> (Z.of_nat (length rs) < 2 ^ 31)%Z -> (forall k, k <= length rs -> (Z.of_nat (tz_post_length t add k) < 2 ^ 31)%Z) ->
  exists r, (forall fuel, length rs + 2 <= fuel -> snd (encode E fuel t s add) = Ok r) /\ parallel r /\ finished t add rs (rows r).
Proof.
  intros E t w s n rs add Hm Hp Hne Hv Hvn HN HR Hs Hi Hst Hsp Hl Hpl. destruct (C81_reference E 0 t w s n add Hm Hp Hne Hv Hvn HN) as (core & Hc & _ & Hf & HR').
  rewrite (C81_reference_unique _ _ _ _ _ _ HR HR') in *. rewrite rows_length in * by exact Hf. exact (sane_finishes E t s add core Hc Hi Hst Hs Hsp Hl Hpl).
Qed.
Print Assumptions C109_bert.

(** The same for BPE and any pre-tokenizer, when every word of the text has something in the vocabulary and was cut inside the text. *)
Theorem C109_bpe : forall E t vocab merges d unk pre suf fu bf ig b c s n l add, pq_ok E -> new_bpe vocab merges d unk pre suf fu bf ig = Ok b ->
  tz_model t = Some (MBpe b c) -> reach_cache E b c -> s <> [] -> forallb valid_cp s = true -> forallb valid_cp n = true -> normalized_in_place E t s n ->
  words_of E (tz_pre t) n l -> Forall (fun p => encodable b (snd p)) l -> Forall (fun p => fst p < units s) l -> 
  sane t -> int_config t -> (forall tr, tz_trunc t = Some tr -> int32 (t_stride tr)) ->
  (forall p, tz_post t = Some p -> specials_ok p) ->
  (forall rs, rows_of_words (bpe_tokens b) 0 l rs -> (Z.of_nat (length rs) < 2 ^ 31)%Z /\ forall k, k <= length rs -> (Z.of_nat (tz_post_length t add k) < 2 ^ 31)%Z) ->
  exists r rs, rows_of_words (bpe_tokens b) 0 l rs /\ (forall fuel, length rs + 2 <= fuel -> snd (encode E fuel t s add) = Ok r) /\ parallel r /\ finished t add rs (rows r).
Proof.
  intros E t vocab merges d unk pre suf fu bf ig b c s n l add Hq Hb Hm Hc Hne Hv Hvn HN Hw He Hin Hs Hi Hst Hsp Hl.
  destruct (C95_bpe E 0 t vocab merges d unk pre suf fu bf ig b c s n l add Hq Hb Hm Hc Hne Hv Hvn HN Hw) as [K _]. destruct (K He Hin) as (core & Hcore & _ & Hf & HR').
  destruct (Hl _ HR') as [Hl1 Hl2]. rewrite rows_length in * by exact Hf. destruct (sane_finishes E t s add core Hcore Hi Hst Hs Hsp Hl1 Hl2) as (r & R1 & R2 & R3).
  exists r, (rows core). rewrite rows_length by exact Hf. auto.
Qed.
Print Assumptions C109_bpe.

(** With the usual template, [CLS] $A [SEP]: the first special token, the kept rows, the second special token, then padding. Without special tokens: the kept rows and padding. *)
Theorem C109_cls_sep : forall t single specials c x d cs ct ds dt rs out, tz_post t = Some (PTemplate single specials) -> single = [c; x; d] ->
  pc_kind c = str "SpecialToken" -> pc_kind x = str "Sequence" -> pc_id x = str "A" -> pc_kind d = str "SpecialToken" ->
  find (fun s => leqb (st_id s) (pc_id c)) specials = Some (mkSpecial (pc_id c) [cs] [ct]) -> find (fun s => leqb (st_id s) (pc_id d)) specials = Some (mkSpecial (pc_id d) [ds] [dt]) ->
  (finished t true rs out -> exists ks, kept_rows (tz_trunc t) rs ks /\ padded_rows (tz_pad t) (mkRow cs (pc_type c) ct None (0, 0) 1 1 :: map (retyped (pc_type x)) ks ++ [mkRow ds (pc_type d) dt None (0, 0) 1 1]) out) /\
  (finished t false rs out -> exists ks, kept_rows (tz_trunc t) rs ks /\ padded_rows (tz_pad t) (map (retyped (pc_type x)) ks) out).
Proof.
  intros t single specials c x d cs ct ds dt rs out Hp -> Hc Hx Ha Hd Fc Fd.
  assert (K : forall ks, template_rows specials true [c; x; d] ks (map (special_position (pc_type c)) (combine [cs] [ct]) ++ map (retyped (pc_type x)) ks ++ map (special_position (pc_type d)) (combine [ds] [dt]) ++ [])).
  { intros ks. apply (tr_special _ _ c (mkSpecial (pc_id c) [cs] [ct])); [exact Hc | reflexivity | exact Fc|]. apply tr_text_a; [exact Hx | exact Ha|]. apply (tr_special _ _ d (mkSpecial (pc_id d) [ds] [dt])); [exact Hd | reflexivity | exact Fd|]. constructor. }
  assert (K' : forall ks, template_rows specials false [c; x; d] ks (map (retyped (pc_type x)) ks ++ [])).
  { intros ks. apply tr_nothing; [rewrite Hc; discriminate | auto|]. apply tr_text_a; [exact Hx | exact Ha|]. apply tr_nothing; [rewrite Hd; discriminate | auto|]. constructor. }
  split; intros (ks & ps & H1 & H2 & H3); rewrite Hp in H2; exists ks; (split; [exact H1|]).
  - rewrite (template_rows_fun _ _ _ _ _ _ H2 (K ks)) in H3. exact H3.
  - rewrite (template_rows_fun _ _ _ _ _ _ H2 (K' ks)), app_nil_r in H3. exact H3.
Qed.
Print Assumptions C109_cls_sep.

(** A concrete tokenizer meets all hypotheses: right truncation to 3 with stride 1, the template [CLS] $A [SEP], padding to 7 rounded up to a multiple of 4. *)
Definition full_demo : tokenizer := demo (Some (mkTrunc TRight LongestFirst 3 1)) (Some (mkPad PRight Fixed 7 9 0 (str "[PAD]") 4)) (Some demo_template).
Example C109_case : sane full_demo /\ int_config full_demo /\ (forall tr, tz_trunc full_demo = Some tr -> int32 (t_stride tr)) /\ (forall p, tz_post full_demo = Some p -> specials_ok p) /\
  normalized_in_place test_env full_demo (str "playing, chess") (str "playing, chess") /\ (forall k, k <= 4 -> (Z.of_nat (tz_post_length full_demo true k) < 2 ^ 31)%Z) /\
  let kept := [mkRow 3 0 (str "play") (Some 0) (0, 4) 0 1; mkRow 4 0 (str "##ing") (Some 0) (4, 7) 0 1; mkRow 6 0 (str ",") (Some 1) (7, 8) 0 1] in
  let text := kept ++ [mkRow 5 0 (str "chess") (Some 2) (9, 14) 0 1] in
  reference (mkWp demo_vocab (str "[UNK]") 100 (str "##")) (e_u_space test_env) (e_u_punct test_env) (str "playing, chess") text /\
  exists r, snd (encode test_env 10 full_demo (str "playing, chess") true) = Ok r /\ finished full_demo true text (rows r) /\
  rows r = mkRow 1 0 (str "[CLS]") None (0, 0) 1 1 :: kept ++ mkRow 2 0 (str "[SEP]") None (0, 0) 1 1 :: repeat (mkRow 9 0 (str "[PAD]") (Some 0) (0, 0) 1 0) 3.
Proof.
  assert (HI : int_config full_demo) by (split; intros x [= <-]; unfold int32; cbn; lia).
  assert (HS : forall p, tz_post full_demo = Some p -> specials_ok p) by (intros p [= <-]; repeat constructor).
  assert (HL : forall k, k <= 4 -> (Z.of_nat (tz_post_length full_demo true k) < 2 ^ 31)%Z).
  { intros k Hk. change (tz_post_length full_demo true k) with (1 + (k + (1 + 0))). change (2 ^ 31)%Z with 2147483648%Z. lia. }
  assert (HQ : normalized_in_place test_env full_demo (str "playing, chess") (str "playing, chess")) by (apply quiet_in_place; [discriminate|]; split; [reflexivity|]; split; apply no_added_check_ok; vm_compute; reflexivity).
  split; [split; intros x [= <-]; cbn; intros; lia|]. split; [exact HI|]. split; [intros x [= <-]; unfold int32; cbn; lia|]. split; [exact HS|]. split; [exact HQ|]. split; [exact HL|].
  destruct (C81_reference test_env 10 full_demo (mkWp demo_vocab (str "[UNK]") 100 (str "##")) (str "playing, chess") (str "playing, chess") true eq_refl eq_refl ltac:(discriminate) eq_refl eq_refl HQ) as (core & Hc & _ & _ & HR).
  assert (Hcore : rows core = [mkRow 3 0 (str "play") (Some 0) (0, 4) 0 1; mkRow 4 0 (str "##ing") (Some 0) (4, 7) 0 1; mkRow 6 0 (str ",") (Some 1) (7, 8) 0 1; mkRow 5 0 (str "chess") (Some 2) (9, 14) 0 1] /\ length (en_ids core) = 4).
  { vm_compute in Hc. injection Hc as <-. split; reflexivity. }
  destruct Hcore as [Hcore Hlen]. cbv zeta. cbn [app]. rewrite Hcore in HR. split; [exact HR|].
  assert (Hr : exists r, snd (encode test_env 10 full_demo (str "playing, chess") true) = Ok r /\
    rows r = mkRow 1 0 (str "[CLS]") None (0, 0) 1 1 :: [mkRow 3 0 (str "play") (Some 0) (0, 4) 0 1; mkRow 4 0 (str "##ing") (Some 0) (4, 7) 0 1; mkRow 6 0 (str ",") (Some 1) (7, 8) 0 1] ++ mkRow 2 0 (str "[SEP]") None (0, 0) 1 1 :: repeat (mkRow 9 0 (str "[PAD]") (Some 0) (0, 0) 1 0) 3).
  { eexists. split; [vm_compute; reflexivity | vm_compute; reflexivity]. }
  destruct Hr as (r & Hr & Hrows). exists r. split; [exact Hr|]. split; [|exact Hrows]. rewrite <- Hcore. eapply C109_rows; [exact Hc | exact Hr | exact HI | exact HS | rewrite Hlen; lia | rewrite Hlen; exact HL].
Qed.
