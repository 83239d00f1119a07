(** encode as a whole: C10-C12, C15, C64, C66, C68. *)
From Verif Require Import Base BaseFacts Unicode UnicodeProofs Common Utils PostProcessor Normalizer PreTokenizer WordPiece Bpe AddedVocab Decoder Tokenizer
  Spec EncFacts PadProofs PostSpec PostProofs PreSpec PreProofs NormSpec NormProofs AvSpec AvProofs ExtractProofs TzSpec TzProofs Jni Env.
From Coq Require Import ZifyBool ZifyNat ZifyN.

(** encode is: the encoding of the text, truncated, post-processed and padded. *)
Lemma encode_split E fuel t s add r : snd (encode E fuel t s add) = Ok r -> exists core, text_encoding E t s = Ok core /\ do_post_process fuel t core add = Ok r.
Proof. rewrite encode_text. intros H. apply bind_ok in H. exact H. Qed.

(** A small BERT-like tokenizer for the examples. *)
Definition demo_vocab : smap Z := [(str "[UNK]", 0); (str "[CLS]", 1); (str "[SEP]", 2); (str "play", 3); (str "##ing", 4); (str "chess", 5); (str ",", 6)]%Z.
Definition demo_template : post_processor :=
  PTemplate [mkPiece (str "SpecialToken") (str "[CLS]") 0; mkPiece (str "Sequence") (str "A") 0; mkPiece (str "SpecialToken") (str "[SEP]") 0]
    [mkSpecial (str "[CLS]") [1%Z] [str "[CLS]"]; mkSpecial (str "[SEP]") [2%Z] [str "[SEP]"]].
Definition demo_av : added_vocab :=
  match av_add_tokens true (new_added_vocab [mkAt 1 (str "[CLS]") false false false false true]) (Some demo_vocab) [mkAt 1 (str "[CLS]") false false false false true] with
  | Ok (av, _) => av | _ => new_added_vocab [] end.
Definition demo (tr : option truncation) (pd : option padding) (pp : option post_processor) : tokenizer :=
  mkTz tr pd (Some demo_av) None (Some TBert) (Some (MWordPiece (mkWp demo_vocab (str "[UNK]") 100 (str "##")))) (Some (DWordPiece (str "##") false)) pp.

(** ** C10 *)
Theorem C10_parallel_columns : forall E fuel t s add r, (forall p, tz_post t = Some p -> specials_ok p) ->
  snd (encode E fuel t s add) = Ok r -> parallel r.
Proof.
  intros E fuel t s add r Hs H. apply encode_split in H as (core & H1 & H2). apply text_encoding_parallel in H1 as [Hf Ho].
  apply (post_parallel fuel t core add r); [constructor; [exact Hf | rewrite Ho; constructor] | exact Hs | exact H2].
Qed.
Print Assumptions C10_parallel_columns.
(** The proviso is needed: a special token declared with more tokens than ids. *)
Theorem C10_unequal_special_refuted : let p := PTemplate [mkPiece (str "SpecialToken") (str "S") 0; mkPiece (str "Sequence") (str "A") 0] [mkSpecial (str "S") [1%Z] [str "a"; str "b"]] in
  exists r, snd (encode test_env 10 (demo None None (Some p)) (str "play") true) = Ok r /\ length (en_ids r) = 2 /\ length (en_tokens r) = 3 /\ ~ parallel r.
Proof. eexists. split; [vm_compute; reflexivity|]. split; [reflexivity|]. split; [reflexivity|]. intros H. inversion H as [? (_ & H2 & _) _]; subst. discriminate H2. Qed.
Print Assumptions C10_unequal_special_refuted.
Example C10_case : (forall p, Some demo_template = Some p -> specials_ok p) /\
  exists r, snd (encode test_env 10 (demo (Some (mkTrunc TRight LongestFirst 2 0)) (Some (mkPad PRight Fixed 6 9 0 (str "[PAD]") 0)) (Some demo_template)) (str "playing, chess") true) = Ok r /\ en_ids r = [1; 3; 4; 2; 9; 9]%Z.
Proof. split; [intros p [= <-]; repeat constructor|]. eexists. split; [vm_compute; reflexivity|]. reflexivity. Qed.

(** ** C11 *)
(** The special tokens of the template come on top of max_length: with the usual template [CLS] text [SEP], truncating to [length e1] positions
    gives [length e1] plus the number of special ids. *)
Theorem C11_specials_on_top_refuted : forall E fuel t s e tr e1 cls sep ty1 ty2 ty3 specials s1 s2 r,
  text_encoding E t s = Ok e -> tz_trunc t = Some tr -> truncate_encoding fuel tr e = Ok e1 -> tz_pad t = None ->
  tz_post t = Some (PTemplate [mkPiece (str "SpecialToken") cls ty1; mkPiece (str "Sequence") (str "A") ty2; mkPiece (str "SpecialToken") sep ty3] specials) ->
  find (fun x => leqb (st_id x) cls) specials = Some s1 -> find (fun x => leqb (st_id x) sep) specials = Some s2 ->
  snd (encode E fuel t s true) = Ok r -> length (en_ids r) = length (st_ids s1) + length (en_ids e1) + length (st_ids s2).
Proof.
  intros E fuel t s e tr e1 cls sep ty1 ty2 ty3 specials s1 s2 r He Htr H1 Hpad Hpost Hs1 Hs2 H. rewrite encode_text, He in H. cbn [bind] in H. unfold do_post_process in H.
  rewrite Htr, H1, Hpost, Hpad in H. cbn [bind process] in H. injection H as <-. unfold template_process. cbn [template_parts pc_kind pc_id pc_type]. 
  change (leqb (str "SpecialToken") (str "Sequence")) with false. change (leqb (str "SpecialToken") (str "SpecialToken")) with true. change (leqb (str "Sequence") (str "Sequence")) with true. change (leqb (str "A") (str "A")) with true.
  cbn [fold_left append_enc en_ids set_type_ids special_enc]. unfold find_special. cbn [pc_id]. rewrite Hs1, Hs2. cbn [empty_enc en_ids app]. rewrite !app_length. lia.
Qed.
Print Assumptions C11_specials_on_top_refuted.
(** ... so max_length 2 gives four ids. *)
Theorem C11_max_length_refuted : exists r, snd (encode test_env 10 (demo (Some (mkTrunc TRight LongestFirst 2 0)) None (Some demo_template)) (str "playing chess") true) = Ok r /\
  en_ids r = [1; 3; 4; 2]%Z.
Proof. eexists. split; [vm_compute; reflexivity|]. reflexivity. Qed.
Print Assumptions C11_max_length_refuted.

(** What is true: without a template (no post-processor, or the byte-level one) and without padding, a positive max_length with strategy
    LongestFirst or OnlyFirst bounds the result and every overflowing encoding. *)
Theorem C11_max_length_bound : forall E fuel t s add tr core r, text_encoding E t s = Ok core -> (Z.of_nat (length (en_ids core)) < 2 ^ 31)%Z ->
  tz_trunc t = Some tr -> (0 < t_max tr)%Z -> int32 (t_max tr) -> t_strat tr = LongestFirst \/ t_strat tr = OnlyFirst ->
  (tz_post t = None \/ exists aps trim, tz_post t = Some (PByteLevel aps trim)) -> tz_pad t = None ->
  snd (encode E fuel t s add) = Ok r ->
  (Z.of_nat (length (en_ids r)) <= t_max tr)%Z /\ Forall (fun o => (Z.of_nat (length (en_ids o)) <= t_max tr)%Z) (en_overflowing r).
Proof.
  intros E fuel t s add tr core r Hc Hn Htr Hm Hi Hs Hp Hpd H. rewrite encode_text, Hc in H. cbn [bind] in H. unfold do_post_process in H. rewrite Htr, Hpd in H.
  apply bind_ok in H as (e1 & H1 & H). apply bind_ok in H as (e2 & H2 & H). injection H as <-. destruct (text_encoding_parallel _ _ _ _ Hc) as [Hf Ho].
  assert (B1 : (Z.of_nat (length (en_ids e1)) <= t_max tr)%Z /\ Forall (fun o => (Z.of_nat (length (en_ids o)) <= t_max tr)%Z) (en_overflowing e1)).
  { destruct (truncation_active_dec tr (length (en_ids core))) as [Ha|Ha].
    - destruct (truncation_bound _ _ _ _ Hn Ha H1) as [B1 B2]. split; [exact B1|]. eapply Forall_impl; [|exact B2]. intros o [B3 _]. exact B3.
    - rewrite truncation_inactive in H1 by assumption. replace (t_max tr =? 0)%Z with false in H1 by lia. injection H1 as <-. rewrite Ho. split; [|constructor].
      destruct (Z.leb_spec (Z.of_nat (length (en_ids core))) (t_max tr)) as [Hle|Hgt]; [exact Hle|]. exfalso. apply Ha. split; [exact Hs | lia]. }
  destruct Hp as [Hp|(aps & trim & Hp)]; rewrite Hp in H2; [injection H2 as <-; exact B1|]. cbn [process] in H2. unfold byte_level_process in H2. destruct trim; [|injection H2 as <-; exact B1].
  apply bind_ok in H2 as (e' & He' & H2). apply bind_ok in H2 as (ov & Hov & H2). injection H2 as <-.
  assert (HB : forall x y, process_offsets aps x = Ok y -> en_ids y = en_ids x) by (intros x y Hx; unfold process_offsets in Hx; apply bind_ok in Hx as (o & _ & Hx); injection Hx as <-; reflexivity).
  cbn [en_ids en_overflowing]. rewrite (HB _ _ He'). destruct B1 as [B1 B2]. split; [exact B1|]. rewrite <- (process_offsets_overflowing _ _ _ He') in B2. apply mapM_ok in Hov. clear - HB Hov B2.
  induction Hov as [|x y l l' Hx Hl IHl]; constructor; inversion B2; subst; [rewrite (HB _ _ Hx); assumption | apply IHl; assumption].
Qed.
Print Assumptions C11_max_length_bound.
Example C11_case : exists r, snd (encode test_env 10 (demo (Some (mkTrunc TRight LongestFirst 2 0)) None None) (str "playing, chess") true) = Ok r /\
  en_ids r = [3; 4]%Z /\ map en_ids (en_overflowing r) = [[6; 5]]%Z.
Proof. eexists. split; [vm_compute; reflexivity|]. split; reflexivity. Qed.

(** ** C12 *)
(** Every position of the result and of its overflowing encodings is exactly one of: a token of the text (special mask 0, attention 1), a token of a
    declared special token, only with add_special_tokens (1, 1), or padding (1, 0). *)
Theorem C12_masks : forall E fuel t s add r, (forall p, tz_post t = Some p -> specials_ok p) -> snd (encode E fuel t s add) = Ok r ->
  exists core, text_encoding E t s = Ok core /\
  forall x y, part r x -> In y (rows x) ->
    text_row core y \/ (add = true /\ special_row (tz_specials t) y) \/ (exists p, tz_pad t = Some p /\ pad_row p y).
Proof.
  intros E fuel t s add r Hs H. apply encode_split in H as (core & H1 & H2). exists core. split; [exact H1|]. destruct (text_encoding_parallel _ _ _ _ H1) as [Hf Ho].
  apply (post_rows fuel t core add r (text_row core) Hf Ho Hs); [| | |exact H2].
  - intros y Hy. unfold text_encoding in H1. apply bind_ok in H1 as ([av p] & _ & H1). apply bind_ok in H1 as (p' & _ & H1). destruct (into_rows_masks _ _ _ _ _ H1 y Hy) as [M1 M2].
    split; [exact M1|]. split; [exact M2|]. exists y. auto.
  - intros y ty (M1 & M2 & y0 & M3). split; [exact M1|]. split; [exact M2|]. exists y0. exact M3.
  - right. intros aps i y (M1 & M2 & y0 & M3). split; [exact M1|]. split; [exact M2|]. exists y0. exact M3.
Qed.
Print Assumptions C12_masks.
(** Hence the masks decide the kind of a position. *)
Theorem C12_masks_decide : forall E fuel t s add r, (forall p, tz_post t = Some p -> specials_ok p) -> snd (encode E fuel t s add) = Ok r ->
  exists core, text_encoding E t s = Ok core /\
  forall x y, part r x -> In y (rows x) ->
    (r_amask y = 0%Z <-> exists p, tz_pad t = Some p /\ pad_row p y) /\ (r_amask y = 0 \/ r_amask y = 1)%Z /\
    (r_smask y = 0%Z <-> text_row core y) /\ (r_smask y = 0 \/ r_smask y = 1)%Z /\
    (r_smask y = 1%Z /\ r_amask y = 1%Z <-> add = true /\ special_row (tz_specials t) y).
Proof.
  intros E fuel t s add r Hs H. destruct (C12_masks E fuel t s add r Hs H) as (core & Hc & HR). exists core. split; [exact Hc|]. intros x y Hx Hy.
  destruct (HR x y Hx Hy) as [K|[[K0 K]|(p & K0 & K)]].
  - pose proof K as (K1 & K2 & _). rewrite K1, K2. split; [|split; [|split; [|split]]]; auto; try (split; [intros; try exact K; exfalso; lia|]).
    + intros (p & _ & Hp). rewrite Hp in K2. cbn in K2. lia.
    + intros _. reflexivity.
    + intros (_ & D1 & _). lia.
  - pose proof K as (K1 & K2 & _). rewrite K1, K2. split; [|split; [|split; [|split]]]; auto; try (split; [intros; try (split; assumption); exfalso; lia|]).
    + intros (p & _ & Hp). rewrite Hp in K2. cbn in K2. lia.
    + intros (D1 & _). lia.
    + intros _. auto.
  - rewrite K. cbn [r_smask r_amask]. split; [|split; [|split; [|split]]]; auto.
    + split; [intros _; exists p; auto; rewrite <- K; auto | reflexivity].
    + split; [intros D; exfalso; lia|]. intros (D1 & _). cbn in D1. lia.
    + split; [intros [_ D]; exfalso; lia|]. intros (_ & D1 & D2 & _). cbn in D2. lia.
Qed.
Print Assumptions C12_masks_decide.
Example C12_case : exists r, snd (encode test_env 10 (demo None (Some (mkPad PRight Fixed 6 9 0 (str "[PAD]") 0)) (Some demo_template)) (str "playing") true) = Ok r /\
  en_tokens r = [str "[CLS]"; str "play"; str "##ing"; str "[SEP]"; str "[PAD]"; str "[PAD]"] /\ en_smask r = [1; 0; 0; 1; 1; 1]%Z /\ en_amask r = [1; 1; 1; 1; 0; 0]%Z.
Proof. eexists. split; [vm_compute; reflexivity|]. split; [reflexivity | split; reflexivity]. Qed.

(** ** C15 *)
(** With a template the overflowing windows are lost: whatever truncation produced, the result has none. *)
Theorem C15_encode_template_refuted : forall E fuel t s add r single specials, tz_post t = Some (PTemplate single specials) ->
  snd (encode E fuel t s add) = Ok r -> en_overflowing r = [].
Proof.
  intros E fuel t s add r single specials Hp H. apply encode_split in H as (core & H1 & H2). unfold do_post_process in H2. rewrite Hp in H2. apply bind_ok in H2 as (e1 & _ & H2).
  cbn [bind process] in H2. set (e2 := template_process single specials add e1) in *. assert (Ho : en_overflowing e2 = []) by apply template_no_overflow. destruct (tz_pad t) as [p|]; [|injection H2 as <-; exact Ho].
  unfold pad_encoding in H2. rewrite pad_unfold, Ho in H2. cbn [mapM bind] in H2. unfold pad_one in H2. destruct (_ <=? _)%Z; [injection H2 as <-; reflexivity|].
  destruct (p_dir p); [destruct (_ <? 0)%Z; [discriminate|]..|]; injection H2 as <-; reflexivity.
Qed.
Print Assumptions C15_encode_template_refuted.
Example C15_refuted_case : (exists e, text_encoding test_env (demo None None None) (str "playing, chess") = Ok e /\ length (en_ids e) = 4) /\
  exists r, snd (encode test_env 10 (demo (Some (mkTrunc TRight LongestFirst 2 0)) None (Some demo_template)) (str "playing, chess") true) = Ok r /\ en_overflowing r = [].
Proof. split; eexists; (split; [vm_compute; reflexivity | reflexivity]). Qed.
(** Without a template every window stays (see C11_case). *)
Theorem C15_encode_kept : forall E fuel t s add r tr core e1, text_encoding E t s = Ok core -> tz_trunc t = Some tr -> truncate_encoding fuel tr core = Ok e1 ->
  (tz_post t = None \/ exists aps trim, tz_post t = Some (PByteLevel aps trim)) -> snd (encode E fuel t s add) = Ok r ->
  length (en_overflowing r) = length (en_overflowing e1).
Proof.
  intros E fuel t s add r tr core e1 Hc Htr H1 Hp H. rewrite encode_text, Hc in H. cbn [bind] in H. unfold do_post_process in H. rewrite Htr, H1 in H. cbn [bind] in H.
  apply bind_ok in H as (e2 & H2 & H).
  assert (HM : forall A B (f : A -> res B) l l', mapM f l = Ok l' -> length l' = length l) by (intros A B f l l' Hm; apply mapM_ok in Hm; clear - Hm; induction Hm; cbn; congruence).
  assert (B : length (en_overflowing e2) = length (en_overflowing e1)).
  { destruct Hp as [Hp|(aps & trim & Hp)]; rewrite Hp in H2; [injection H2 as <-; reflexivity|]. cbn [process] in H2. unfold byte_level_process in H2. destruct trim; [|injection H2 as <-; reflexivity].
    apply bind_ok in H2 as (e' & He' & H2). apply bind_ok in H2 as (ov & Hov & H2). injection H2 as <-. cbn [en_overflowing]. rewrite (HM _ _ _ _ _ Hov), (process_offsets_overflowing _ _ _ He'). reflexivity. }
  rewrite <- B. destruct (tz_pad t) as [p|]; [|injection H as <-; reflexivity]. unfold pad_encoding in H. rewrite pad_unfold in H. apply bind_ok in H as (ov & Hov & H). rewrite <- (HM _ _ _ _ _ Hov).
  unfold pad_one in H. destruct (_ <=? _)%Z; [injection H as <-; reflexivity|]. destruct (p_dir p); [destruct (_ <? 0)%Z; [discriminate|]..|]; injection H as <-; reflexivity.
Qed.
Print Assumptions C15_encode_kept.

(** ** C66 *)
Lemma into_rows_words ns ty : forall l idx e, into_rows ns ty idx l = Ok e -> length (en_words e) = token_count l /\
  forall pre x post, l = pre ++ x :: post -> forall j tk, nth_error (sp_tokens x) j = Some tk ->
    nth_error (en_words e) (token_count pre + j) = Some (Some (idx + length pre)) /\ nth_error (en_tokens e) (token_count pre + j) = Some (tk_value tk) /\ nth_error (en_ids e) (token_count pre + j) = Some (tk_id tk).
Proof.
  induction l as [|s l IH]; intros idx e H; cbn [into_rows] in H.
  { injection H as <-. split; [reflexivity|]. intros pre x post Hl. destruct pre; discriminate. }
  apply bind_ok in H as (base & _ & H). apply bind_ok in H as (rest & Hr & H). injection H as <-. destruct (IH _ _ Hr) as [H1 H2]. unfold append_enc, split_rows. cbn [en_words en_tokens en_ids].
  assert (Hc : token_count (s :: l) = length (sp_tokens s) + token_count l) by reflexivity. split; [rewrite app_length, map_length, H1, Hc; reflexivity|].
  intros pre x post Hl j tk Hj. destruct pre as [|s0 pre]; cbn [app] in Hl; injection Hl as <- ->.
  - change (token_count []) with 0. cbn [Nat.add length]. assert (j < length (sp_tokens s)) by (apply nth_error_Some; congruence). rewrite !nth_error_app1 by (rewrite map_length; assumption). rewrite !nth_error_map, Hj, Nat.add_0_r. auto.
  - assert (Hc' : token_count (s :: pre) = length (sp_tokens s) + token_count pre) by reflexivity. rewrite Hc'. rewrite !nth_error_app2 by (rewrite map_length; lia). rewrite !map_length.
    replace (length (sp_tokens s) + token_count pre + j - length (sp_tokens s)) with (token_count pre + j) by lia. destruct (H2 pre x post eq_refl j tk Hj) as (A1 & A2 & A3). rewrite A1, A2, A3. cbn [length]. replace (S idx + length pre) with (idx + S (length pre)) by lia. auto.
Qed.
Lemma pieces_of E t s core : text_encoding E t s = Ok core -> exists ns pieces, text_pieces E t s = Ok pieces /\ into_rows ns 0 0 pieces = Ok core.
Proof.
  unfold text_encoding, text_pieces. intros H. apply bind_ok in H as ([av p] & H0 & H). rewrite H0. cbn [bind]. apply bind_ok in H as (p' & H1 & H). rewrite H1. cbn [bind]. exists (pt_norm p'), (pt_splits p'). auto.
Qed.
(** The tokens of the k-th piece stand, in order, at the positions after the tokens of the earlier pieces, and have word index k; there are no
    other positions. *)
Theorem C66_word_indices : forall E t s core, text_encoding E t s = Ok core -> exists pieces, text_pieces E t s = Ok pieces /\
  length (en_words core) = token_count pieces /\
  forall pre x post, pieces = pre ++ x :: post -> forall j tk, nth_error (sp_tokens x) j = Some tk ->
    nth_error (en_words core) (token_count pre + j) = Some (Some (length pre)) /\
    nth_error (en_tokens core) (token_count pre + j) = Some (tk_value tk) /\ nth_error (en_ids core) (token_count pre + j) = Some (tk_id tk).
Proof.
  intros E t s core H. destruct (pieces_of E t s core H) as (ns & pieces & Hp & Hi). exists pieces. split; [exact Hp|]. destruct (into_rows_words _ _ _ _ _ Hi) as [H1 H2]. split; [exact H1|]. exact H2.
Qed.
Print Assumptions C66_word_indices.
Lemma position_of l : forall j, j < token_count l -> exists pre x post i, l = pre ++ x :: post /\ i < length (sp_tokens x) /\ j = token_count pre + i.
Proof.
  induction l as [|s l IH]; intros j Hj; [cbn in Hj; lia|]. change (token_count (s :: l)) with (length (sp_tokens s) + token_count l) in Hj. destruct (Nat.lt_ge_cases j (length (sp_tokens s))) as [Hlt|Hge].
  - exists [], s, l, j. auto.
  - destruct (IH (j - length (sp_tokens s))) as (pre & x & post & i & H1 & H2 & H3); [lia|]. exists (s :: pre), x, post, i. split; [rewrite H1; reflexivity|]. split; [exact H2|].
    change (token_count (s :: pre)) with (length (sp_tokens s) + token_count pre). lia.
Qed.
Lemma token_count_app a b : token_count (a ++ b) = token_count a + token_count b.
Proof. unfold token_count. rewrite map_app, list_sum_app. reflexivity. Qed.
Lemma app_compare {A} (a b c d : list A) : a ++ b = c ++ d -> length a <= length c -> exists m, c = a ++ m /\ b = m ++ d.
Proof.
  revert c. induction a as [|x a IH]; intros c H Hl; [exists c; auto|]. destruct c as [|y c]; cbn in *; [lia|]. injection H as -> H. destruct (IH c H) as (m & -> & ->); [lia|]. exists m. auto.
Qed.
(** Word indices are defined at every position and never decrease. *)
Theorem C66_word_indices_sorted : forall E t s core, text_encoding E t s = Ok core -> forall i j, i <= j -> j < length (en_words core) ->
  exists a b, nth_error (en_words core) i = Some (Some a) /\ nth_error (en_words core) j = Some (Some b) /\ a <= b.
Proof.
  intros E t s core H i j Hij Hj. destruct (C66_word_indices E t s core H) as (pieces & _ & Hl & HW). rewrite Hl in Hj.
  destruct (position_of pieces i) as (p1 & x1 & q1 & k1 & E1 & L1 & J1); [lia|]. destruct (position_of pieces j Hj) as (p2 & x2 & q2 & k2 & E2 & L2 & J2).
  destruct (nth_error (sp_tokens x1) k1) as [t1|] eqn:T1; [|apply nth_error_None in T1; lia]. destruct (nth_error (sp_tokens x2) k2) as [t2|] eqn:T2; [|apply nth_error_None in T2; lia].
  exists (length p1), (length p2). rewrite J1, J2. split; [apply (HW p1 x1 q1 E1 k1 t1 T1)|]. split; [apply (HW p2 x2 q2 E2 k2 t2 T2)|].
  destruct (Nat.le_gt_cases (length p1) (length p2)) as [Hle|Hgt]; [exact Hle|]. exfalso. rewrite E1 in E2. symmetry in E2.
  change (p2 ++ x2 :: q2) with (p2 ++ [x2] ++ q2) in E2. rewrite app_assoc in E2. destruct (app_compare _ _ _ _ E2) as (m & Hm & _); [rewrite app_length; cbn; lia|]. subst p1. rewrite !token_count_app in J1. cbn in J1. unfold token_count in *. lia.
Qed.
Print Assumptions C66_word_indices_sorted.
Example C66_case : exists e, text_encoding test_env (demo None None None) (str "playing, chess") = Ok e /\ en_words e = [Some 0; Some 0; Some 1; Some 2].
Proof. eexists. split; [vm_compute; reflexivity | reflexivity]. Qed.

(** ** C64 *)
(** Every tokenizer with an added vocabulary, even an empty one, reads outside its tables when asked to encode the empty text. *)
Theorem C64_empty_text_refuted : forall E fuel t add av, tz_av t = Some av -> (exists ns, run_norm E (tz_norm t) [] = Ok ns) ->
  snd (encode E fuel t [] add) = Undef OobIndex.
Proof.
  intros E fuel t add av Hav (ns & Hn). rewrite encode_text. unfold text_encoding, prepare. rewrite Hav. cbn [bind new_pretok convert_to_string forallb new_nstring ns_text ns_tables from_utf32 flat_map length utf8_encs].
  unfold extract_and_normalize. cbn [bind new_pretok convert_to_string forallb new_nstring ns_text ns_tables from_utf32 flat_map length utf8_encs pt_norm pt_splits].
  unfold av_find_matches. change (from_utf8 []) with (@nil N). cbn [length raw_matches resolve_matches Nat.eqb bind raw_splits normalize_splits sp_tokens sp_text sp_off fst snd].
  change (convert_from_string []) with (@Ok wstr []). cbn [bind]. fold (run_norm E (tz_norm t) []). rewrite Hn. cbn [bind]. reflexivity.
Qed.
Print Assumptions C64_empty_text_refuted.
(** In particular without normalizer. *)
Theorem C64_empty_text_no_normalizer_refuted : forall E fuel t add av, tz_av t = Some av -> tz_norm t = None -> snd (encode E fuel t [] add) = Undef OobIndex.
Proof. intros E fuel t add av H1 H2. apply (C64_empty_text_refuted E fuel t add av H1). rewrite H2. eexists. reflexivity. Qed.
Print Assumptions C64_empty_text_no_normalizer_refuted.
(** Without an added vocabulary the outcome depends on the pre-tokenizer: without one it is the same error ... *)
Theorem C64_empty_text_plain_refuted : forall E fuel t add, tz_av t = None -> tz_pre t = None -> tz_model t = None \/ (exists w, tz_model t = Some (MWordPiece w)) ->
  snd (encode E fuel t [] add) = Undef OobIndex.
Proof.
  intros E fuel t add Hav Hpre Hm. rewrite encode_text. unfold text_encoding, prepare. rewrite Hav, Hpre. cbn [bind new_pretok convert_to_string forallb new_nstring ns_text ns_tables from_utf32 flat_map length utf8_encs].
  destruct Hm as [Hm|(w & Hm)]; rewrite Hm; [reflexivity|]. cbn [model_tokenize snd]. unfold wp_tokenize. cbn [pt_splits mapM sp_text].
  destruct (WpProofs.wp_word_spec w []) as (ts & -> & _). reflexivity.
Qed.
Print Assumptions C64_empty_text_plain_refuted.
(** ... and with BertPreTokenizer the empty encoding is post-processed. *)
Theorem C64_empty_text_bert : forall E fuel t add, tz_av t = None -> tz_pre t = Some TBert -> snd (encode E fuel t [] add) = do_post_process fuel t empty_enc add.
Proof.
  intros E fuel t add Hav Hpre. rewrite encode_text. unfold text_encoding, prepare. rewrite Hav, Hpre. cbn [bind new_pretok convert_to_string forallb new_nstring ns_text ns_tables from_utf32 flat_map length utf8_encs pre_tokenize].
  rewrite bert_pre_spec. cbn [pt_splits pt_norm flat_map bind app]. unfold bert_out. cbn [sp_tokens is_nil sp_text]. change (decoded []) with (@nil N). cbn [bert_pieces words flush flat_map map app bind].
  destruct (tz_model t) as [[w|b c]|]; reflexivity.
Qed.
Print Assumptions C64_empty_text_bert.
Example C64_case : snd (encode test_env 10 (demo None None None) [] true) = Undef OobIndex /\
  (exists r, snd (encode test_env 10 (set_av (demo None None (Some demo_template)) None) [] true) = Ok r /\ en_ids r = [1; 2]%Z).
Proof. split; [vm_compute; reflexivity|]. eexists. split; [vm_compute; reflexivity | reflexivity]. Qed.

(** ** C68 *)
Theorem C68_invalid_rejected : forall E fuel t s add, Exists (fun c => (0xD800 <= c <= 0xDFFF)%N \/ (0x10FFFF < c)%N) s ->
  encode E fuel t s add = (t, Throw RangeError).
Proof.
  intros E fuel t s add H. assert (Hv : forallb valid_cp s = false).
  { apply not_true_is_false. intros Hv. rewrite forallb_forall in Hv. apply Exists_exists in H as (c & Hc & H). specialize (Hv c Hc). apply valid_cp_spec in Hv. lia. }
  unfold encode, prepare, new_pretok. rewrite fresh_numbered. cbn [ns_text numbered_ns]. unfold convert_to_string. rewrite Hv. cbn [bind]. f_equal.
  unfold set_av, prepare_av, extract_map, new_pretok. rewrite fresh_numbered. cbn [ns_text numbered_ns]. unfold convert_to_string. rewrite Hv. cbn [bind]. destruct t as [t1 t2 [a|] t4 t5 t6 t7 t8]; [destruct a|]; reflexivity.
Qed.
Print Assumptions C68_invalid_rejected.
(** A text of valid code points is never rejected for that reason: the first step succeeds. *)
Theorem C68_valid_accepted : forall s, Forall (fun c => (c < 0xD800)%N \/ (0xE000 <= c <= 0x10FFFF)%N) s -> exists p, new_pretok (new_nstring s) = Ok p /\ map sp_text (pt_splits p) = [utf8_encs s].
Proof.
  intros s H. unfold new_pretok. rewrite fresh_numbered. cbn [ns_text numbered_ns]. unfold convert_to_string. replace (forallb valid_cp s) with true; [eexists; split; [reflexivity|reflexivity]|].
  symmetry. apply forallb_forall. intros c Hc. apply valid_cp_spec. exact (proj1 (Forall_forall _ _) H c Hc).
Qed.
Print Assumptions C68_valid_accepted.
(** The Android binding hands over UTF-16 units, so every Java string with a character outside the basic plane is rejected ... *)
Theorem C68_android_refuted : forall E fuel t s add, forallb valid_cp s = true -> Exists (fun c => (0x10000 <= c)%N) s ->
  snd (jni_encode E fuel t (flat_map utf16_enc s) add) = Throw RangeError.
Proof.
  intros E fuel t s add Hv H. unfold jni_encode. rewrite C68_invalid_rejected; [reflexivity|]. apply Exists_exists in H as (c & Hc & H). apply Exists_exists.
  exists (0xD800 + (c - 0x10000) / 1024)%N. split.
  - apply in_flat_map. exists c. split; [exact Hc|]. unfold utf16_enc. replace (c <? 65536)%N with false by (symmetry; apply N.ltb_ge; exact H). left. reflexivity.
  - left. rewrite forallb_forall in Hv. specialize (Hv c Hc). apply valid_cp_spec in Hv. assert (Hd : ((c - 0x10000) / 1024 < 1024)%N) by (apply N.div_lt_upper_bound; lia). lia.
Qed.
Print Assumptions C68_android_refuted.
Example C68_android_refuted_case : snd (jni_encode test_env 10 (demo None None None) (flat_map utf16_enc [0x1F600]%N) true) = Throw RangeError.
Proof. vm_compute. reflexivity. Qed.
(** ... while on texts of the basic plane the binding returns the ids of encode. *)
Theorem C68_android_bmp : forall E fuel t s add, bmp s -> jni_encode E fuel t (flat_map utf16_enc s) add = (fst (encode E fuel t s add), e <- snd (encode E fuel t s add) ;; Ok (en_ids e)).
Proof. intros E fuel t s add H. rewrite bmp_utf16 by exact H. unfold jni_encode. destruct (encode E fuel t s add) as [t' r]. reflexivity. Qed.
Print Assumptions C68_android_bmp.
