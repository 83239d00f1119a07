(** What calls leave alone (C86) and that truncation loses nothing (C87). *)
From Verif Require Import Base BaseFacts Unicode Common Utils PostProcessor Decoder Normalizer PreTokenizer WordPiece Bpe AddedVocab Tokenizer
  Spec EncFacts UtilsProofs PadProofs PostSpec PostProofs AvSpec HistSpec TzSpec TzProofs RefSpec WpProofs PropsUtils PropsEncode PropsHistory PropsReference Env.
From Coq Require Import ZifyBool ZifyNat.

(** ** C86 *)
(** The same configuration: all settings and components are the same; the models may differ in their caches, the added vocabularies in their contents. *)
Definition same_configuration (t t' : tokenizer) : Prop :=
  tz_trunc t' = tz_trunc t /\ tz_pad t' = tz_pad t /\ tz_norm t' = tz_norm t /\ tz_pre t' = tz_pre t /\ tz_dec t' = tz_dec t /\ tz_post t' = tz_post t /\
  (tz_av t' = None <-> tz_av t = None) /\
  match tz_model t with
  | None => tz_model t' = None
  | Some (MWordPiece w) => tz_model t' = Some (MWordPiece w)
  | Some (MBpe b c) => exists c', tz_model t' = Some (MBpe b c')
  end.
Lemma same_conf_refl t : same_configuration t t.
Proof. unfold same_configuration. repeat (split; [reflexivity|]). destruct (tz_model t) as [[w|b c]|]; eauto. Qed.
Lemma same_conf_trans a b c : same_configuration a b -> same_configuration b c -> same_configuration a c.
Proof.
  intros (A1 & A2 & A3 & A4 & A5 & A6 & A7 & A8) (B1 & B2 & B3 & B4 & B5 & B6 & B7 & B8). unfold same_configuration.
  rewrite B1, B2, B3, B4, B5, B6, B7. repeat (split; [assumption|]). destruct (tz_model a) as [[w|b0 c0]|].
  - rewrite A8 in B8. exact B8.
  - destruct A8 as (c' & A8). rewrite A8 in B8. exact B8.
  - rewrite A8 in B8. exact B8.
Qed.
Lemma call_conf E fuel t c : same_configuration t (fst (do_call E fuel t c)).
Proof.
  assert (HA : forall l, same_configuration t (fst (adding t (add_tokens false t l)))).
  { intros l. destruct (add_tokens false t l) as [[t' n]| | |] eqn:H; cbn [adding fst]; try apply same_conf_refl. unfold add_tokens in H. destruct (tz_av t) as [av|] eqn:Ea; [|discriminate].
    apply bind_ok in H as ([av' n'] & _ & H). injection H as <- _. unfold same_configuration, set_av. cbn. rewrite Ea. repeat (split; [reflexivity|]). split; [split; discriminate|]. destruct (tz_model t) as [[w|b c0]|]; eauto. }
  destruct c as [s b|ids b|l|l]; cbn [do_call]; [|apply same_conf_refl | apply HA | apply HA].
  destruct (encode E fuel t s b) as [t' r] eqn:He. cbn [fst]. unfold encode in He. destruct (prepare E t s) as [[av p]| | |] eqn:Hp;
    try (injection He as <- _; unfold same_configuration, set_av, prepare_av; cbn; repeat (split; [reflexivity|]); split; [destruct (tz_av t); split; congruence || discriminate | destruct (tz_model t) as [[w|b0 c0]|]; eauto]).
  assert (Hav : av = None <-> tz_av t = None).
  { unfold prepare in Hp. apply bind_ok in Hp as (p0 & _ & Hp). apply bind_ok in Hp as ([av1 p1] & H1 & Hp). apply bind_ok in Hp as (p2 & _ & Hp). injection Hp as <- _.
    destruct (tz_av t) as [a|]; [|injection H1 as <- _; reflexivity]. apply bind_ok in H1 as ([m q] & _ & H1). injection H1 as <- _. split; discriminate. }
  cbn [set_av tz_model] in He. destruct (tz_model t) as [[w|b0 c0]|] eqn:Em.
  - cbn [model_tokenize] in He. injection He as <- _. unfold same_configuration. cbn. rewrite Em. repeat (split; [reflexivity|]). split; [exact Hav | reflexivity].
  - cbn [model_tokenize] in He. destruct (bpe_tokenize E b0 c0 p) as [c' r']. injection He as <- _. unfold same_configuration. cbn. rewrite Em. repeat (split; [reflexivity|]). split; [exact Hav | eauto].
  - injection He as <- _. unfold same_configuration. cbn. rewrite Em. repeat (split; [reflexivity|]). split; [exact Hav | reflexivity].
Qed.
(** No history of calls, successful or not, changes the configuration. *)
Theorem C86_configuration_kept : forall E fuel t h, same_configuration t (after E fuel t h).
Proof.
  intros E fuel t h. revert t. induction h as [|c h IH]; intros t; [apply same_conf_refl|]. unfold after. cbn [fold_left]. eapply same_conf_trans; [apply (call_conf E fuel t c) | apply IH].
Qed.
Print Assumptions C86_configuration_kept.
(** decode leaves the tokenizer exactly as it was. *)
Theorem C86_decode_pure : forall E fuel t ids skip, fst (do_call E fuel t (CallDecode ids skip)) = t.
Proof. reflexivity. Qed.
Print Assumptions C86_decode_pure.
(** The added tokens with their ids are changed by additions only, never by encode or decode. *)
Theorem C86_assignments_kept : forall E fuel t h a, Forall (fun c => adds c = false) h -> tz_av t = Some a ->
  exists a', tz_av (after E fuel t h) = Some a' /\ av_map a' = av_map a /\ av_added a' = av_added a /\ av_specials a' = av_specials a /\ av_special_set a' = av_special_set a.
Proof.
  intros E fuel t h. revert t. induction h as [|c h IH]; intros t a Hh Ha; [exists a; auto|]. inversion Hh as [|? ? Hc Hh']; subst. unfold after. cbn [fold_left].
  assert (Hs : exists a1, tz_av (fst (do_call E fuel t c)) = Some a1 /\ av_map a1 = av_map a /\ av_added a1 = av_added a /\ av_specials a1 = av_specials a /\ av_special_set a1 = av_special_set a).
  { destruct c as [s b|ids b|l|l]; try discriminate Hc; cbn [do_call]; [|exists a; auto].
    destruct (encode E fuel t s b) as [t' r] eqn:He. cbn [fst]. unfold encode in He. destruct (prepare E t s) as [[av p]| | |] eqn:Hp; try (injection He as <- _; unfold set_av, prepare_av; rewrite Ha; eexists; split; [reflexivity|]; cbn; auto).
    assert (Hav : exists m, av = Some (set_map_r a m)).
    { unfold prepare in Hp. apply bind_ok in Hp as (p0 & _ & Hp). apply bind_ok in Hp as ([av1 p1] & H1 & Hp). apply bind_ok in Hp as (p2 & _ & Hp). injection Hp as <- _. rewrite Ha in H1.
      apply bind_ok in H1 as ([m q] & _ & H1). injection H1 as <- _. eauto. }
    destruct Hav as (m & ->). exists (set_map_r a m). cbn [set_av tz_model] in He. destruct (tz_model t) as [mo|].
    - destruct (model_tokenize E mo p) as [m' r']. injection He as <- _. auto.
    - injection He as <- _. auto. }
  destruct Hs as (a1 & H1 & H2 & H3 & H4 & H5). destruct (IH _ a1 Hh' H1) as (a' & K1 & K2 & K3 & K4 & K5). exists a'. unfold after in K1. split; [exact K1|]. repeat split; congruence.
Qed.
Print Assumptions C86_assignments_kept.
Example C86_case : let h := [CallEncode (str "playing") true; CallAddTokens [mkAt 0 (str "new") false false false false false]; CallDecode [3; 99]%Z false] in
  same_configuration (demo None None None) (after test_env 10 (demo None None None) h) /\ after test_env 10 (demo None None None) h <> demo None None None.
Proof. split; [apply C86_configuration_kept|]. vm_compute. discriminate. Qed.

(** ** C87 *)
Lemma cut_skip {A} (l : list A) a b k : skipn k (Spec.cut l a b) = Spec.cut l (a + k) b.
Proof. unfold Spec.cut. rewrite skipn_firstn_comm, skipn_skipn'. replace (b - a - k) with (b - (a + k)) by lia. replace (k + a) with (a + k) by lia. reflexivity. Qed.
Lemma cut_first {A} (l : list A) a b k : b <= length l -> firstn (b - a - k) (Spec.cut l a b) = Spec.cut l a (b - k).
Proof. intros H. unfold Spec.cut. rewrite firstn_firstn. f_equal. lia. Qed.
Lemma cut_join {A} (l : list A) a m b : a <= m -> m <= b -> b <= length l -> Spec.cut l a m ++ Spec.cut l m b = Spec.cut l a b.
Proof.
  intros H1 H2 H3. unfold Spec.cut. replace (b - a) with ((m - a) + (b - m)) by lia.
  rewrite <- (firstn_skipn (m - a) (skipn a l)) at 2. rewrite firstn_app, firstn_firstn. replace (Nat.min (m - a + (b - m)) (m - a)) with (m - a) by lia.
  rewrite firstn_length, skipn_length. replace (m - a + (b - m) - Nat.min (m - a) (length l - a)) with (b - m) by lia. f_equal. rewrite skipn_skipn'. f_equal. f_equal. lia.
Qed.
Lemma cut_all {A} (l : list A) : Spec.cut l 0 (length l) = l.
Proof. unfold Spec.cut. rewrite Nat.sub_0_r. apply firstn_all. Qed.

(** Nothing of the text is lost by truncating to the right: the rows of the result followed by those of its windows, each without the [stride] rows it shares with
    the one before, are the rows of the untruncated encoding. *)
Theorem C87_right_lossless : forall E fuel t s add tr core (maxl stride : nat), snd (encode E fuel (bare t) s add) = Ok core -> (Z.of_nat (length (en_ids core)) < 2 ^ 31)%Z -> length (en_ids core) + 2 <= fuel ->
  tz_trunc t = Some tr -> t_dir tr = TRight -> (t_strat tr = LongestFirst \/ t_strat tr = OnlyFirst) -> t_max tr = Z.of_nat maxl -> t_stride tr = Z.of_nat stride -> stride < maxl ->
  int32 (t_max tr) -> tz_post t = None -> tz_pad t = None ->
  exists r, snd (encode E fuel t s add) = Ok r /\ rows core = rows r ++ flat_map (fun o => skipn stride (rows o)) (en_overflowing r).
Proof.
  intros E fuel t s add tr core maxl stride Hc Hn Hf Ht Hd Hs Hm Hst Hlt Hi32 Hpo Hpa. rewrite encode_stages, Hc. cbn [bind]. unfold do_post_process. rewrite Ht, Hpo, Hpa.
  rewrite encode_bare in Hc. destruct (text_encoding_parallel _ _ _ _ Hc) as [Hp Ho]. destruct (Nat.le_gt_cases (length (en_ids core)) maxl) as [Hle|Hgt].
  - exists core. rewrite truncation_inactive; [|exact Hn | exact Hi32 | intros [_ Ha]; lia]. replace (t_max tr =? 0)%Z with false by lia. cbn [andb bind]. split; [reflexivity|]. rewrite Ho. cbn [flat_map]. rewrite app_nil_r. reflexivity.
  - destruct (C01_right_truncation_windows tr core maxl stride Hd Hs Hm Hst Hlt Hgt Hn Hp) as (K & HK & K1 & K2 & K3). rewrite (HK fuel Hf). cbn [bind]. eexists. split; [reflexivity|].
    cbn [with_overflow en_overflowing]. change (rows (with_overflow ?a ?b)) with (rows a). rewrite rows_window by exact Hp. pose proof (rows_length _ Hp) as HL. cbv zeta in *. set (n := length (en_ids core)) in *. set (o := maxl - stride) in *.
    rewrite flat_map_concat_map, map_map, <- flat_map_concat_map.
    assert (HI : forall j k, 1 <= k -> k + j = S K -> flat_map (fun k => skipn stride (rows (window core (k * o) (Nat.min (k * o + maxl) n)))) (seq k j) = Spec.cut (rows core) ((k - 1) * o + maxl) n).
    { induction j as [|j IHj]; intros k Hk1 Hk2; cbn [seq flat_map].
      - replace (k - 1) with K by lia. symmetry. unfold Spec.cut. replace (n - (K * o + maxl)) with 0 by lia. reflexivity.
      - rewrite IHj by lia. rewrite rows_window by exact Hp. rewrite cut_skip. pose proof (K2 (k - 1) ltac:(lia)) as K2'. replace (k * o + stride) with ((k - 1) * o + maxl) by (unfold o in *; nia).
        replace (S k - 1) with k by lia. destruct (Nat.eq_dec k K) as [->|Hne].
        + replace (Nat.min (K * o + maxl) n) with n by lia. assert (Hz : Spec.cut (rows core) (K * o + maxl) n = []) by (unfold Spec.cut; replace (n - (K * o + maxl)) with 0 by lia; reflexivity).
          rewrite Hz. apply app_nil_r.
        + pose proof (K2 k ltac:(lia)) as K2''. replace (Nat.min (k * o + maxl) n) with (k * o + maxl) by lia. apply cut_join; nia. }
    rewrite (HI K 1) by lia. replace ((1 - 1) * o + maxl) with maxl by lia. rewrite cut_join by lia. rewrite <- HL. symmetry. apply cut_all.
Qed.
Print Assumptions C87_right_lossless.
(** The same to the left, where consecutive windows share [stride] + 1 rows: the windows, last one first, each without the rows it shares with the next, then the result. *)
Theorem C87_left_lossless : forall E fuel t s add tr core (maxl stride : nat), snd (encode E fuel (bare t) s add) = Ok core -> (Z.of_nat (length (en_ids core)) < 2 ^ 31)%Z -> length (en_ids core) + 2 <= fuel ->
  tz_trunc t = Some tr -> t_dir tr = TLeft -> (t_strat tr = LongestFirst \/ t_strat tr = OnlyFirst) -> t_max tr = Z.of_nat maxl -> t_stride tr = Z.of_nat stride -> stride + 2 <= maxl ->
  int32 (t_max tr) -> tz_post t = None -> tz_pad t = None ->
  exists r, snd (encode E fuel t s add) = Ok r /\ rows core = flat_map (fun o => firstn (length (rows o) - (stride + 1)) (rows o)) (rev (en_overflowing r)) ++ rows r.
Proof.
  intros E fuel t s add tr core maxl stride Hc Hn Hf Ht Hd Hs Hm Hst Hlt Hi32 Hpo Hpa. rewrite encode_stages, Hc. cbn [bind]. unfold do_post_process. rewrite Ht, Hpo, Hpa.
  rewrite encode_bare in Hc. destruct (text_encoding_parallel _ _ _ _ Hc) as [Hp Ho]. destruct (Nat.le_gt_cases (length (en_ids core)) maxl) as [Hle|Hgt].
  - exists core. rewrite truncation_inactive; [|exact Hn | exact Hi32 | intros [_ Ha]; lia]. replace (t_max tr =? 0)%Z with false by lia. cbn [andb bind]. split; [reflexivity|]. rewrite Ho. reflexivity.
  - destruct (C02_left_truncation_windows tr core maxl stride Hd Hs Hm Hst Hlt Hgt Hn Hp) as (K & HK & K1 & K2 & K3). rewrite (HK fuel Hf). cbn [bind]. eexists. split; [reflexivity|].
    cbn [with_overflow en_overflowing]. change (rows (with_overflow ?a ?b)) with (rows a). rewrite rows_window by exact Hp. pose proof (rows_length _ Hp) as HL. cbv zeta in *. set (n := length (en_ids core)) in *. set (o := maxl - stride - 1) in *.
    assert (HI : forall j, j <= K -> flat_map (fun o => firstn (length (rows o) - (stride + 1)) (rows o)) (rev (map (fun k => window core (n - k * o - maxl) (n - k * o)) (seq 1 j))) =
      Spec.cut (rows core) (n - j * o - maxl) (n - maxl)).
    { induction j as [|j IHj]; intros Hj.
      - cbn [seq map rev flat_map]. symmetry. unfold Spec.cut. replace (n - maxl - (n - 0 * o - maxl)) with 0 by lia. reflexivity.
      - rewrite seq_S, map_app, rev_app_distr. cbn [map rev app flat_map]. rewrite IHj by lia. rewrite rows_window by exact Hp. pose proof (K2 j ltac:(lia)) as K2'. 
        replace (length (Spec.cut (rows core) (n - (1 + j) * o - maxl) (n - (1 + j) * o))) with (n - (1 + j) * o - (n - (1 + j) * o - maxl)) by (rewrite cut_length; [reflexivity | lia]).
        rewrite cut_first by lia. replace (n - (1 + j) * o - (stride + 1)) with (n - j * o - maxl) by (unfold o in *; nia). replace (S j) with (1 + j) by lia. apply cut_join; nia. }
    rewrite (HI K) by lia. replace (n - K * o - maxl) with 0 by lia. rewrite cut_join by lia. rewrite <- HL. symmetry. apply cut_all.
Qed.
Print Assumptions C87_left_lossless.
Example C87_case : exists core, snd (encode test_env 12 (bare (demo None None None)) (str "playing, chess, playing") false) = Ok core /\ length (en_ids core) = 7 /\
  exists r, snd (encode test_env 12 (demo (Some (mkTrunc TLeft LongestFirst 3 1)) None None) (str "playing, chess, playing") false) = Ok r /\ en_ids r = [6; 3; 4]%Z /\ map en_ids (en_overflowing r) = [[5; 6; 3]; [6; 5; 6]; [4; 6; 5]; [3; 4; 6]]%Z.
Proof. eexists. split; [vm_compute; reflexivity|]. split; [reflexivity|]. eexists. split; [vm_compute; reflexivity|]. split; reflexivity. Qed.
