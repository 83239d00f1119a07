(** C38, C39, C21: from the constructor through any history of calls on the tokenizer itself. *)
From Verif Require Import Base BaseFacts Unicode Common Utils PostProcessor Decoder Normalizer PreTokenizer WordPiece Bpe AddedVocab Tokenizer AvSpec AvProofs BpeSpec HistSpec HistProofs PropsHistory PropsAdded Env.

(** the parts no call changes *)
Definition same_setup (t u : tokenizer) : Prop :=
  tz_trunc u = tz_trunc t /\ tz_pad u = tz_pad t /\ tz_norm u = tz_norm t /\ tz_pre u = tz_pre t /\ tz_dec u = tz_dec t /\ tz_post u = tz_post t.
(** the model is the one of the configuration; only a BPE cache grew, by tokenizing *)
Definition same_model (E : env) (m m' : model) : Prop :=
  match m, m' with
  | MWordPiece w, MWordPiece w' => w = w'
  | MBpe b _, MBpe b' c' => b = b' /\ reach_cache E b c'
  | _, _ => False
  end.
Lemma same_model_vocab E m m' : same_model E m m' -> model_vocab m' = model_vocab m.
Proof. destruct m, m'; cbn; try contradiction; [intros ->; reflexivity | intros [-> _]; reflexivity]. Qed.

Record living (E : env) (t0 : tokenizer) (m0 : model) (ops : list added_token) (t : tokenizer) : Prop := {
  li_setup : same_setup t0 t;
  li_model : exists m, tz_model t = Some m /\ same_model E m0 m;
  li_av : exists av, tz_av t = Some av /\ history (model_vocab m0) ops av }.

Lemma living_encode E fuel t0 m0 ops t s b : living E t0 m0 ops t -> living E t0 m0 ops (fst (encode E fuel t s b)).
Proof.
  intros [H1 (m & H2 & H3) (av & H4 & H5)].
  assert (HA : living E t0 m0 ops (set_av t (Some (set_map_r av (extract_map E av (tz_norm t) s))))).
  { constructor; [exact H1 | exists m; split; [exact H2 | exact H3] |]. eexists. split; [reflexivity|]. apply h_encode. exact H5. }
  unfold encode. destruct (prepare E t s) as [[a p]|e|u|] eqn:EP; cbn [fst]; try (unfold prepare_av; rewrite H4; exact HA).
  assert (Ha : a = Some (set_map_r av (extract_map E av (tz_norm t) s))).
  { unfold prepare in EP. rewrite H4 in EP. destruct (new_pretok (new_nstring s)); cbn [bind] in EP; try discriminate.
    destruct (extract_and_normalize E av (tz_norm t) s) as [[mm pp]| | |] eqn:EE; cbn [bind] in EP; try discriminate.
    rewrite (extract_map_ok _ _ _ _ _ _ EE). destruct (tz_pre t); [destruct (pre_tokenize _ _ _)|]; cbn [bind] in EP; try discriminate; injection EP as <- _; reflexivity. }
  subst a. cbv zeta. cbn [tz_model set_av]. rewrite H2. destruct m as [w|bb c]; cbn [model_tokenize].
  - cbn [fst]. constructor; [exact H1 | exists (MWordPiece w); split; [reflexivity | exact H3] | apply HA].
  - destruct (bpe_tokenize E bb c p) as [c' r] eqn:EB. cbn [fst]. constructor; [exact H1 | | apply HA]. exists (MBpe bb c'). split; [reflexivity|].
    destruct m0 as [|b0 c0]; cbn in H3 |- *; [contradiction|]. destruct H3 as [-> H3]. split; [reflexivity|]. eapply reach_call; eassumption.
Qed.

Lemma living_add E t0 m0 ops t l : dense (model_vocab m0) -> model_vocab m0 <> [] -> living E t0 m0 ops t ->
  exists t' n, add_tokens false t l = Ok (t', n) /\ living E t0 m0 (ops ++ l) t'.
Proof.
  intros Hd Hne [H1 (m & H2 & H3) (av & H4 & H5)]. pose proof (history_ok _ _ _ Hd Hne H5) as HO.
  destruct (add_tokens_ok _ av l false Hd Hne (ho_ids _ _ _ HO)) as (av' & HA & _); [discriminate|].
  unfold add_tokens. rewrite H4, H2. cbn [option_map]. rewrite (same_model_vocab _ _ _ H3). rewrite HA. cbn [bind].
  eexists. eexists. split; [reflexivity|]. constructor; [exact H1 | exists m; split; [exact H2 | exact H3] |]. eexists. split; [reflexivity|]. eapply h_add; [exact H5 | exact HA].
Qed.

Lemma living_call E fuel t0 m0 ops t c : dense (model_vocab m0) -> model_vocab m0 <> [] -> living E t0 m0 ops t ->
  living E t0 m0 (ops ++ given [c]) (fst (do_call E fuel t c)).
Proof.
  intros Hd Hne H. unfold given. cbn [flat_map]. rewrite app_nil_r. destruct c as [s b|ids b|l|l]; cbn [do_call].
  - rewrite app_nil_r. pose proof (living_encode E fuel t0 m0 ops t s b H) as HE. destruct (encode E fuel t s b). exact HE.
  - rewrite app_nil_r. exact H.
  - destruct (living_add E t0 m0 ops t l Hd Hne H) as (t' & n & -> & HL). exact HL.
  - unfold add_special_tokens. destruct (living_add E t0 m0 ops t l Hd Hne H) as (t' & n & -> & HL). exact HL.
Qed.

Lemma living_after E fuel t0 m0 : dense (model_vocab m0) -> model_vocab m0 <> [] -> forall h ops t, living E t0 m0 ops t -> living E t0 m0 (ops ++ given h) (after E fuel t h).
Proof.
  intros Hd Hne. induction h as [|c h IH]; intros ops t H; [cbn [given flat_map]; rewrite app_nil_r; exact H|].
  unfold after. cbn [fold_left]. change (given (c :: h)) with ((match c with CallAddTokens l | CallAddSpecialTokens l => l | _ => [] end) ++ given h).
  rewrite app_assoc. apply IH. pose proof (living_call E fuel t0 m0 ops t c Hd Hne H) as HC. unfold given in HC. cbn [flat_map] in HC. rewrite app_nil_r in HC. exact HC.
Qed.

Lemma living_start E t0 m0 l t : dense (model_vocab m0) -> tz_av t0 = Some (new_added_vocab l) -> tz_model t0 = Some m0 -> (forall b c, m0 = MBpe b c -> c = []) ->
  finish_construction t0 = Ok t -> living E t0 m0 l t.
Proof.
  intros Hd Ha Hm Hc H. unfold finish_construction, add_tokens in H. rewrite Ha, Hm in H. cbn [option_map] in H. change (av_added (new_added_vocab l)) with l in H.
  destruct (av_add_tokens true (new_added_vocab l) (Some (model_vocab m0)) l) as [[av n]| | |] eqn:EA; cbn [bind] in H; try discriminate. injection H as <-.
  constructor.
  - repeat split.
  - exists m0. split; [exact Hm|]. destruct m0 as [w|b c]; cbn; [reflexivity|]. split; [reflexivity|]. rewrite (Hc b c eq_refl). constructor.
  - exists av. split; [reflexivity|]. eapply h_new. exact EA.
Qed.

(** Whatever calls are made on a constructed tokenizer - encodings that succeed, throw or are undefined, decodings, additions - its added vocabulary is
    the one obtained from the configured tokens followed by the tokens given, in order; its model and the other components are those of the configuration. *)
Theorem C38_lifetime : forall E fuel t0 m0 l t, dense (model_vocab m0) -> model_vocab m0 <> [] ->
  tz_av t0 = Some (new_added_vocab l) -> tz_model t0 = Some m0 -> (forall b c, m0 = MBpe b c -> c = []) -> finish_construction t0 = Ok t ->
  forall h, let u := after E fuel t h in
    (exists av, tz_av u = Some av /\ history (model_vocab m0) (l ++ given h) av) /\
    (exists m, tz_model u = Some m /\ same_model E m0 m) /\ same_setup t0 u.
Proof.
  intros E fuel t0 m0 l t Hd Hne Ha Hm Hc H h. cbv zeta.
  destruct (living_after E fuel t0 m0 Hd Hne h l t (living_start E t0 m0 l t Hd Ha Hm Hc H)) as [L1 L2 L3]. split; [exact L3|]. split; [exact L2 | exact L1].
Qed.
Print Assumptions C38_lifetime.

(** Hence: every token ever given - in the configuration or by a call - has an id; the id stays the same under any further calls; different tokens have
    different ids; a token the model knows has the model's id; and decoding the id gives the token to the decoder, or nothing if special tokens are skipped
    and it was registered as special. *)
Theorem C38_lifetime_ids : forall E fuel t0 m0 l t, dense (model_vocab m0) -> model_vocab m0 <> [] ->
  tz_av t0 = Some (new_added_vocab l) -> tz_model t0 = Some m0 -> (forall b c, m0 = MBpe b c -> c = []) -> finish_construction t0 = Ok t ->
  forall h h' tok d, In tok (l ++ given h) -> at_content tok <> [] -> tz_dec t0 = Some d ->
  exists i, let u := after E fuel t (h ++ h') in
    (exists av, tz_av u = Some av /\ assigned av (at_content tok) = Some i /\ forall s, assigned av s = Some i -> s = at_content tok) /\
    (exists av, tz_av (after E fuel t h) = Some av /\ assigned av (at_content tok) = Some i) /\
    match sfind (at_content tok) (model_vocab m0) with Some j => i = j | None => (Z.of_nat (length (model_vocab m0)) <= i)%Z end /\
    decode u [i] false = (out <- decode_chain d [at_content tok] ;; Ok (concat out)) /\
    decode u [i] true = (out <- decode_chain d (if existsb (fun k => at_special k && leqb (at_content k) (at_content tok)) (l ++ given (h ++ h')) then [] else [at_content tok]) ;; Ok (concat out)).
Proof.
  intros E fuel t0 m0 l t Hd Hne Ha Hm Hc H h h' tok d Hin Hn Hdec.
  destruct (C38_lifetime E fuel t0 m0 l t Hd Hne Ha Hm Hc H h) as ((av & A1 & A2) & (m & M1 & M2) & S1).
  destruct (C38_lifetime E fuel t0 m0 l t Hd Hne Ha Hm Hc H (h ++ h')) as ((av' & B1 & B2) & (m' & N1 & N2) & S2).
  pose proof (history_ok _ _ _ Hd Hne A2) as HO. pose proof (history_ok _ _ _ Hd Hne B2) as HO'.
  destruct (proj1 (C38_ids _ _ _ Hd Hne A2) tok Hin Hn) as (i & Hi).
  assert (HK : assigned av' (at_content tok) = Some i).
  { clear B2 HO' N2 S2 N1. revert B1. generalize av'. assert (L : living E t0 m0 (l ++ given h) (after E fuel t h)) by (constructor; [exact S1 | exists m; split; assumption | exists av; split; assumption]).
    assert (HG : forall h' ops u a, living E t0 m0 ops u -> tz_av u = Some a -> assigned a (at_content tok) = Some i -> forall a', tz_av (after E fuel u h') = Some a' -> assigned a' (at_content tok) = Some i).
    { clear - Hd Hne. induction h' as [|c h' IH]; intros ops u a L E1 E2 a' E3; [cbn in E3; congruence|]. unfold after in E3. cbn [fold_left] in E3.
      pose proof (living_call E fuel t0 m0 ops u c Hd Hne L) as L'. destruct (li_av _ _ _ _ _ L') as (b & F1 & _). refine (IH _ _ b L' F1 _ a' E3).
      destruct L as [L1 (mu & L2 & L2') (a2 & L3 & L4)]. rewrite E1 in L3. injection L3 as <-. pose proof (history_ok _ _ _ Hd Hne L4) as HO.
      assert (HADD : forall q, tz_av (fst (adding u (add_tokens false u q))) = Some b -> assigned b (at_content tok) = Some i).
      { intros q. unfold add_tokens. rewrite E1, L2. cbn [option_map]. rewrite (same_model_vocab _ _ _ L2').
        destruct (add_tokens_ok _ a q false Hd Hne (ho_ids _ _ _ HO)) as (av' & HA & _ & HB & _); [discriminate|]. rewrite HA. cbn [bind adding fst tz_av set_av]. intros [= <-]. apply HB. exact E2. }
      destruct c as [s bb|ids bb|q|q]; cbn [do_call] in F1.
      - pose proof (F1) as F2. destruct (encode E fuel u s bb) as [u' r] eqn:EE. cbn [fst] in F2. unfold encode in EE.
        assert (HB : av_map b = av_map a).
        { assert (HP : forall x p, prepare E u s = Ok (x, p) -> exists mm, x = Some (set_map_r a mm)).
          { intros x p HP. unfold prepare in HP. rewrite E1 in HP. destruct (new_pretok (new_nstring s)); cbn [bind] in HP; try discriminate.
            destruct (extract_and_normalize E a (tz_norm u) s) as [[mm pp]| | |]; cbn [bind] in HP; try discriminate. exists mm. destruct (tz_pre u); [destruct (pre_tokenize _ _ _)|]; cbn [bind] in HP; try discriminate; injection HP as <- _; reflexivity. }
          destruct (prepare E u s) as [[x p]|e|uu|] eqn:EP.
          - destruct (HP _ _ eq_refl) as (mm & ->). cbv zeta in EE. cbn [tz_model set_av] in EE. rewrite L2 in EE. destruct (model_tokenize E mu p) as [m1 r1]. injection EE as <- _. cbn in F2. injection F2 as <-. reflexivity.
          - injection EE as <- _. cbn in F2. unfold prepare_av in F2. rewrite E1 in F2. injection F2 as <-. reflexivity.
          - injection EE as <- _. cbn in F2. unfold prepare_av in F2. rewrite E1 in F2. injection F2 as <-. reflexivity.
          - injection EE as <- _. cbn in F2. unfold prepare_av in F2. rewrite E1 in F2. injection F2 as <-. reflexivity. }
        unfold assigned. rewrite HB. exact E2.
      - cbn [fst] in F1. rewrite E1 in F1. injection F1 as <-. exact E2.
      - apply (HADD q). exact F1.
      - apply (HADD q). exact F1. }
    intros a0 B1. refine (HG h' _ _ av L A1 Hi a0 _). rewrite <- B1. unfold after. rewrite fold_left_app. reflexivity. }
  exists i. cbv zeta. split; [exists av'; split; [exact B1|]; split; [exact HK|]; intros s Hs; apply (io_inj _ _ (ho_ids _ _ _ HO') _ _ _ Hs HK)|].
  split; [exists av; split; assumption|].
  split; [exact (io_model _ _ (ho_ids _ _ _ HO) _ _ Hi)|].
  assert (HV : model_vocab m' = model_vocab m0) by (apply (same_model_vocab E); exact N2).
  assert (HD : tz_dec (after E fuel t (h ++ h')) = Some d) by (destruct S2 as (_ & _ & _ & _ & -> & _); exact Hdec).
  assert (HF : Forall2 (denotes (model_vocab m0) av') [i] [at_content tok]) by (constructor; [left; exact HK | constructor]).
  split.
  - eapply C21_decode; try eassumption. apply wo_keep; [|constructor]. intros [G _]. discriminate.
  - eapply C21_decode; try eassumption. destruct (existsb _ _) eqn:EX.
    + apply existsb_exists in EX as (k & K1 & K2). apply andb_true_iff in K2 as [K2 K3]. apply leqb_eq in K3. apply wo_drop; [|constructor]. split; [reflexivity|]. split; [exact Hn|]. exists k. auto.
    + apply wo_keep; [|constructor]. intros [_ [_ (k & K1 & K2 & K3)]]. assert (G : existsb (fun k => at_special k && leqb (at_content k) (at_content tok)) (l ++ given (h ++ h')) = true); [|congruence].
      apply existsb_exists. exists k. split; [exact K1|]. rewrite K2, K3. apply leqb_eq. reflexivity.
Qed.
Print Assumptions C38_lifetime_ids.

(** U+D800 alone is not encodable: this text makes encode throw *)
Definition bad_text : wstr := [55296%N].
Example C38_lifetime_case : exists t, finish_construction hist_t0 = Ok t /\
  let h := [CallEncode (str "playing [MASK]") true; CallAddTokens [special "[NEW]"]; CallEncode bad_text true; CallDecode [9]%Z false] in
  given h = [special "[NEW]"] /\ snd (encode test_env 10 t bad_text true) = Throw RangeError /\
  exists av, tz_av (after test_env 10 t h) = Some av /\ assigned av (str "[MASK]") = Some 4%Z /\ assigned av (str "[NEW]") = Some 5%Z /\
    decode (after test_env 10 t h) [1; 2; 5]%Z false = Ok (str "[CLS] play [NEW]").
Proof.
  destruct (finish_construction hist_t0) as [t| | |] eqn:E; try (vm_compute in E; discriminate). exists t. split; [reflexivity|].
  vm_compute in E. injection E as <-. cbv zeta. split; [reflexivity|]. split; [vm_compute; reflexivity|].
  eexists. split; [vm_compute; reflexivity|]. split; [vm_compute; reflexivity|]. split; vm_compute; reflexivity.
Qed.
