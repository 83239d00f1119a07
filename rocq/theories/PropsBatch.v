(** C131: the order, the grouping and the repetition of additions. *)
From Verif Require Import Base BaseFacts Unicode UnicodeProofs Common Utils PostProcessor Decoder Normalizer PreTokenizer WordPiece Bpe AddedVocab Tokenizer Spec
  NormSpec NormProofs PreSpec PreProofs AvSpec AvProofs ExtractProofs TzSpec TzProofs HistSpec HistProofs RuntimeProofs PropsAdded PropsEncode PropsHistory PropsLifetime RelevSpec PropsRelevant BatchSpec Env.
Import ListNotations.

(** *** Every entry of the reverse map was given, or is a default entry *)
Lemma assign_back alias v l : forall a a', assign_ids alias a v l = Ok a' -> forall i tok, zfind i (av_map_r a') = Some tok -> zfind i (av_map_r a) = Some tok \/ In tok l.
Proof.
  induction l as [|t l IH]; intros a a' H i tok Hi; cbn [assign_ids] in H; [injection H as <-; auto|].
  destruct (is_nil (at_content t)); [destruct (IH _ _ H i tok Hi); cbn; auto|]. apply bind_ok in H as (k & _ & H). cbv zeta in H.
  assert (G : forall q, assign_ids alias q v l = Ok a' -> av_map_r q = zset k t (av_map_r a) -> zfind i (av_map_r a) = Some tok \/ In tok (t :: l)).
  { intros q Hq Eq. destruct (IH _ _ Hq i tok Hi) as [K|K]; [|cbn; auto]. rewrite Eq, zfind_zset in K. destruct (Z.eqb_spec i k); [injection K as ->; cbn; auto | auto]. }
  destruct (smem (at_content t) (av_special_set a)); [apply (G _ H); reflexivity|]. destruct alias; [discriminate|]. apply (G _ H). reflexivity.
Qed.
Lemma add_back alias a v l a' n : av_add_tokens alias a (Some v) l = Ok (a', n) -> forall i tok, zfind i (av_map_r a') = Some tok -> zfind i (av_map_r a) = Some tok \/ In tok l.
Proof.
  intros H i tok Hi. unfold av_add_tokens in H. cbv zeta in H. apply bind_ok in H as (a2 & H2 & H). apply bind_ok in H as (a3 & H3 & H). injection H as <- _.
  cbn [refresh_added_tokens] in H3. injection H3 as <-. cbn [av_map_r] in Hi. destruct (register_ok l a) as (_ & _ & R3 & _). rewrite <- R3. eapply assign_back; eassumption.
Qed.
Lemma history_back v ops av : history v ops av -> forall i tok, zfind i (av_map_r av) = Some tok -> In tok ops \/ tok = default_added_token.
Proof.
  induction 1 as [l av n H | ops av l av' n _ IH H | ops av E norm s _ IH]; intros i tok Hi.
  - destruct (add_back _ _ _ _ _ _ H i tok Hi) as [K|K]; [discriminate | auto].
  - destruct (add_back _ _ _ _ _ _ H i tok Hi) as [K|K]; [destruct (IH i tok K)|]; rewrite ?in_app_iff; auto.
  - cbn [av_map_r] in Hi. destruct (gr_new _ _ _ (extract_map_grow E av norm s) i tok Hi) as [K|[K _]]; [apply (IH i tok K) | auto].
Qed.

(** *** The tries and the flags depend only on the requests *)
Lemma tries_requests v ops av : dense v -> v <> [] -> sfind [] v = None -> history v ops av -> settled ops -> forall b x k,
  In (x, k) (known_tokens v b (av_specials av ++ av_added av)) <-> sfind x v = Some k /\ exists s3, asks ops x (s3, b).
Proof.
  intros Hd Hne He Hh Hs b x k. pose proof (history_ok _ _ _ Hd Hne Hh) as HO. rewrite known_in. split; intros [Hk H]; (split; [exact Hk|]).
  - destruct H as (tok & Hi & Hc & Hb). exists (three tok), tok. split; [|split; [exact Hc|]].
    + apply in_app_iff in Hi as [Hi|Hi]; [apply (ho_specials _ _ _ HO tok Hi) | apply (ho_added _ _ _ HO tok Hi)].
    + unfold settings, three. rewrite Hb. reflexivity.
  - destruct H as (s3 & a & Hi & Hc & Hst). assert (Hn : at_content a <> []) by (intros E0; congruence).
    destruct (ho_all _ _ _ HO a Hi Hn) as (tok & Ht & Hct). exists tok. split; [exact Ht|]. split; [congruence|].
    assert (Ho : In tok ops) by (apply in_app_iff in Ht as [Ht|Ht]; [apply (ho_specials _ _ _ HO tok Ht) | apply (ho_added _ _ _ HO tok Ht)]).
    pose proof (Hs tok a Ho Hi Hct) as E1. rewrite Hst in E1. unfold settings in E1. congruence.
Qed.
Lemma flags_requests v ops av : dense v -> v <> [] -> sfind [] v = None -> history v ops av -> settled ops -> forall x k st,
  sfind x v = Some k -> asks ops x st -> three (look (av_map_r av) k) = fst st.
Proof.
  intros Hd Hne He Hh Hs x k st Hk (a & Ha & Hc & Hst). pose proof (history_ok _ _ _ Hd Hne Hh) as HO. pose proof (ho_ids _ _ _ HO) as I.
  assert (Hn : x <> []) by (intros E0; congruence).
  destruct (proj2 (ho_assigned _ _ _ HO x)) as (j & Hj). { split; [exact Hn|]. apply in_map_iff. eauto. }
  pose proof (io_model _ _ I x j Hj) as Hm. rewrite Hk in Hm. subst j. destruct (io_back _ _ I x k Hj) as (tok & Ht & Hct). unfold look. rewrite Ht.
  destruct (history_back _ _ _ Hh k tok Ht) as [K| ->]; [|cbn in Hct; congruence]. assert (E1 : settings tok = settings a) by (apply Hs; [exact K | exact Ha | congruence]).
  rewrite <- Hst, <- E1. reflexivity.
Qed.

Theorem C131_same_tokens : forall E fuel t v ops ops' av av' s add, dense v -> v <> [] -> sfind [] v = None ->
  tz_av t = Some av -> history v ops av -> history v ops' av' -> settled ops -> settled ops' -> same_requests v ops ops' ->
  snd (encode E fuel (set_av t (Some av')) s add) = snd (encode E fuel t s add).
Proof.
  intros E fuel t v ops ops' av av' s add Hd Hne He Hav Hh Hh' Hs Hs' HR.
  pose proof (history_ok _ _ _ Hd Hne Hh) as HO. pose proof (history_ok _ _ _ Hd Hne Hh') as HO'.
  assert (HS : forall b u, same_on u (known_tokens v b (av_specials av ++ av_added av)) (known_tokens v b (av_specials av' ++ av_added av')) (av_map_r av) (av_map_r av')).
  { intros b u i j Hi Hj. cbv zeta. set (x := to_utf8 (slice u i j)).
    assert (W : forall l t0 k, In (t0, k) (known_tokens v b l) -> sfind t0 v = Some k) by (intros l t0 k HIn; apply known_in in HIn as [HIn _]; exact HIn).
    split.
    - apply same_lookup. intros k. rewrite !(word_ids_known v) by apply W. rewrite (tries_requests v ops av Hd Hne He Hh Hs), (tries_requests v ops' av' Hd Hne He Hh' Hs').
      split; intros (Hk & s3 & Ha); (split; [exact Hk|]); exists s3; apply (HR x (s3, b)); eauto.
    - intros k Hk. apply (word_ids_known v) in Hk; [|apply W]. apply (tries_requests v ops av Hd Hne He Hh Hs) in Hk as (Hk & s3 & Ha).
      rewrite (flags_requests v ops av Hd Hne He Hh Hs x k _ Hk Ha). symmetry. apply (flags_requests v ops' av' Hd Hne He Hh' Hs' x k (s3, b) Hk). apply HR; eauto. }
  apply encode_same with (a := av); [exact Hav | |].
  - intros _. rewrite (ho_raw _ _ _ HO), (ho_raw _ _ _ HO'). apply HS.
  - intros x y _ _ _. rewrite (ho_norm _ _ _ HO), (ho_norm _ _ _ HO'). apply HS.
Qed.
Print Assumptions C131_same_tokens.

(** *** Two histories of one tokenizer *)
Lemma adds_only E fuel : forall k t, Forall (fun c => adds c = true) k -> HistSpec.after E fuel t k = set_av t (tz_av (HistSpec.after E fuel t k)).
Proof.
  assert (S0 : forall t l, exists a, fst (adding t (add_tokens false t l)) = set_av t a).
  { intros t l. unfold add_tokens. destruct (tz_av t) as [av|] eqn:Ea; [|cbn; exists None; destruct t; cbn in *; subst; reflexivity].
    destruct (av_add_tokens false av _ l) as [[a n]| | |]; cbn [bind adding fst]; [eexists; reflexivity | ..]; exists (Some av); destruct t; cbn in *; subst; reflexivity. }
  induction k as [|c k IH]; intros t H; [destruct t; reflexivity|]. inversion H as [|? ? H1 H2]; subst. unfold HistSpec.after. cbn [fold_left]. fold (HistSpec.after E fuel (fst (do_call E fuel t c)) k).
  rewrite (IH _ H2). cbn [tz_av set_av]. destruct c as [| |l|l]; try discriminate; cbn [do_call]; unfold add_special_tokens; destruct (S0 t l) as (a & ->); reflexivity.
Qed.
Lemma given_filter h : given (filter adds h) = given h.
Proof. induction h as [|c h IH]; [reflexivity|]. destruct c; cbn [filter adds]; unfold given in *; cbn [flat_map app]; rewrite ?IH; reflexivity. Qed.

(** Two histories of calls that ask for the same tokens - in whatever order, in whatever groups, as special or normal tokens, however often - leave a tokenizer that encodes every text alike. *)
Theorem C131_lifetime : forall E fuel t0 m0 l t, dense (model_vocab m0) -> model_vocab m0 <> [] -> sfind [] (model_vocab m0) = None ->
  tz_av t0 = Some (new_added_vocab l) -> tz_model t0 = Some m0 -> (forall b c, m0 = MBpe b c -> c = []) -> finish_construction t0 = Ok t ->
  forall h h', settled (l ++ given h) -> settled (l ++ given h') -> same_requests (model_vocab m0) (l ++ given h) (l ++ given h') ->
  forall s add, snd (encode E fuel (HistSpec.after E fuel t h') s add) = snd (encode E fuel (HistSpec.after E fuel t h) s add).
Proof.
  intros E fuel t0 m0 l t Hd Hne He Ha Hm Hc HF h h' Hs Hs' HR s add.
  assert (Hcon : constructed t).
  { exists t0. split; [intros a Ha'; rewrite Ha in Ha'; injection Ha' as <-; eauto|]. split; [|exact HF]. intros b c Hb. rewrite Hm in Hb. injection Hb as ->. eapply Hc. reflexivity. }
  pose proof (living_start E t0 m0 l t Hd Ha Hm Hc HF) as HL.
  assert (HN : NoDup (map snd (tz_vocab t))). { unfold tz_vocab. destruct (li_model _ _ _ _ _ HL) as (m & -> & Hsm). rewrite (same_model_vocab _ _ _ Hsm). apply Hd. }
  assert (HI : forall k, snd (encode E fuel (HistSpec.after E fuel t k) s add) = snd (encode E fuel (HistSpec.after E fuel t (filter adds k)) s add)).
  { intros k. pose proof (C67_history_independent E fuel t k (CallEncode s add) Hcon (or_introl HN)) as HI. unfold reply in HI. cbn [do_call] in HI.
    destruct (encode E fuel (HistSpec.after E fuel t k) s add) as [u1 r1]. destruct (encode E fuel (HistSpec.after E fuel t (filter adds k)) s add) as [u2 r2]. cbn [snd] in HI |- *. injection HI as ->. reflexivity. }
  rewrite (HI h), (HI h').
  assert (HA : forall k, Forall (fun c => adds c = true) (filter adds k)) by (intros k; apply Forall_forall; intros c Hi; apply filter_In in Hi; apply Hi).
  pose proof (living_after E fuel t0 m0 Hd Hne (filter adds h) l t HL) as L1. pose proof (living_after E fuel t0 m0 Hd Hne (filter adds h') l t HL) as L2. rewrite given_filter in L1, L2.
  destruct (li_av _ _ _ _ _ L1) as (av & A1 & H1). destruct (li_av _ _ _ _ _ L2) as (av' & A2 & H2).
  rewrite (adds_only E fuel (filter adds h') t (HA h')), A2, (adds_only E fuel (filter adds h) t (HA h)), A1.
  change (set_av t (Some av')) with (set_av (set_av t (Some av)) (Some av')).
  eapply C131_same_tokens; [exact Hd | exact Hne | exact He | reflexivity | exact H1 | exact H2 | exact Hs | exact Hs' | exact HR].
Qed.
Print Assumptions C131_lifetime.

(** *** One call or two *)
Definition with_specials (q a : added_vocab) : added_vocab := mkAv (av_added a) (av_specials q) (av_special_set q) (av_map a) (av_map_r a) (av_trie_norm a) (av_trie_raw a).
Definition no_tries (a : added_vocab) : added_vocab := mkAv (av_added a) (av_specials a) (av_special_set a) (av_map a) (av_map_r a) [] [].
Lemma register_app a b q : fold_left register_special (a ++ b) q = fold_left register_special b (fold_left register_special a q).
Proof. apply fold_left_app. Qed.
(** registering does not look at the rest of the object *)
Lemma register_with l : forall q a, av_specials a = av_specials q -> av_special_set a = av_special_set q -> fold_left register_special l a = with_specials (fold_left register_special l q) a.
Proof.
  induction l as [|t l IH]; intros q a H1 H2; cbn [fold_left]; [unfold with_specials; destruct a; cbn in *; subst; reflexivity|].
  unfold register_special at 2 4. rewrite H2. destruct (at_special t && _ && _).
  - rewrite (IH (mkAv (av_added q) (av_specials q ++ [t]) (av_special_set q ++ [at_content t]) (av_map q) (av_map_r q) (av_trie_norm q) (av_trie_raw q))); [|cbn; rewrite ?H1, ?H2; reflexivity..]. reflexivity.
  - apply (IH q a H1 H2).
Qed.
Lemma assign_app alias v b : forall a q, assign_ids alias q v (a ++ b) = (q' <- assign_ids alias q v a ;; assign_ids alias q' v b).
Proof.
  induction a as [|t a IH]; intros q; [reflexivity|]. cbn [app assign_ids]. destruct (is_nil (at_content t)); [apply IH|].
  destruct (choose_id q v (at_content t)) as [i| | |]; cbn [bind]; try reflexivity. cbv zeta. destruct (smem _ _); [apply IH|]. destruct alias; [reflexivity | apply IH].
Qed.
(** assigning ids only asks the special set about the given texts, and does not touch it *)
Lemma assign_with v l q : forall a, Forall (fun t => at_content t <> [] -> smem (at_content t) (av_special_set a) = smem (at_content t) (av_special_set q)) l ->
  assign_ids false (with_specials q a) v l = (a' <- assign_ids false a v l ;; Ok (with_specials q a')).
Proof.
  induction l as [|t l IH]; intros a H; [reflexivity|]. inversion H as [|? ? H1 H2]; subst. cbn [assign_ids]. destruct (is_nil (at_content t)) eqn:En; [apply IH; exact H2|]. apply is_nil_false in En.
  change (choose_id (with_specials q a) v (at_content t)) with (choose_id a v (at_content t)). destruct (choose_id a v (at_content t)) as [i| | |]; cbn [bind]; try reflexivity. cbv zeta.
  cbn [with_specials av_added av_specials av_special_set av_map av_map_r av_trie_norm av_trie_raw]. rewrite (H1 En).
  destruct (smem (at_content t) (av_special_set q)).
  - exact (IH (mkAv (av_added a) (av_specials a) (av_special_set a) (sset (at_content t) i (av_map a)) (zset i t (av_map_r a)) (av_trie_norm a) (av_trie_raw a)) H2).
  - exact (IH (mkAv (av_added a ++ [t]) (av_specials a) (av_special_set a) (sset (at_content t) i (av_map a)) (zset i t (av_map_r a)) (av_trie_norm a) (av_trie_raw a)) H2).
Qed.
Lemma assign_keeps v l : forall a a', assign_ids false a v l = Ok a' -> av_specials a' = av_specials a /\ av_special_set a' = av_special_set a.
Proof.
  induction l as [|t l IH]; intros a a' H; cbn [assign_ids] in H; [injection H as <-; auto|]. destruct (is_nil (at_content t)); [apply IH; exact H|]. apply bind_ok in H as (i & _ & H). cbv zeta in H.
  destruct (smem _ _); apply IH in H; exact H.
Qed.
(** nor does it look at the tries *)
Lemma assign_tries v l tn tr : forall a, assign_ids false (mkAv (av_added a) (av_specials a) (av_special_set a) (av_map a) (av_map_r a) tn tr) v l =
  (a' <- assign_ids false a v l ;; Ok (mkAv (av_added a') (av_specials a') (av_special_set a') (av_map a') (av_map_r a') tn tr)).
Proof.
  induction l as [|t l IH]; intros a; [reflexivity|]. cbn [assign_ids]. destruct (is_nil (at_content t)); [apply IH|].
  change (choose_id (mkAv (av_added a) (av_specials a) (av_special_set a) (av_map a) (av_map_r a) tn tr) v (at_content t)) with (choose_id a v (at_content t)).
  destruct (choose_id a v (at_content t)) as [i| | |]; cbn [bind]; try reflexivity. cbv zeta. cbn [av_added av_specials av_special_set av_map av_map_r av_trie_norm av_trie_raw]. destruct (smem _ _).
  - exact (IH (mkAv (av_added a) (av_specials a) (av_special_set a) (sset (at_content t) i (av_map a)) (zset i t (av_map_r a)) (av_trie_norm a) (av_trie_raw a))).
  - exact (IH (mkAv (av_added a ++ [t]) (av_specials a) (av_special_set a) (sset (at_content t) i (av_map a)) (zset i t (av_map_r a)) (av_trie_norm a) (av_trie_raw a))).
Qed.

(** Adding two lists in one call or in two calls gives the same tokenizer and the same count, unless a text is given as a normal token first and as a special one later. *)
Theorem C131_batch : forall t a b, tz_model t <> None -> (forall x y, In x a -> In y b -> at_content x = at_content y -> at_special y = true -> at_special x = true) ->
  add_tokens false t (a ++ b) = ('(t1, n1) <- add_tokens false t a ;; '(t2, n2) <- add_tokens false t1 b ;; Ok (t2, n1 + n2)%Z).
Proof.
  intros t a b Hm Hab. unfold add_tokens. destruct (tz_av t) as [q|]; [|reflexivity]. destruct (tz_model t) as [m|] eqn:Em; [|congruence]. cbn [option_map]. set (v := model_vocab m).
  set (cnt := fun l : list added_token => (Z.of_nat (length l) - Z.of_nat (length (filter (fun k => is_nil (at_content k)) l)))%Z).
  set (QA := fold_left register_special a q). set (QB := fold_left register_special b QA).
  assert (EB : with_specials QB QA = QB). { destruct (register_ok b QA) as (R1 & R2 & R3 & R4 & R5 & _). fold QB in R1, R2, R3, R4, R5. unfold with_specials. destruct QB; cbn in *; subst; reflexivity. }
  assert (HS : Forall (fun x => at_content x <> [] -> smem (at_content x) (av_special_set QA) = smem (at_content x) (av_special_set QB)) a).
  { apply Forall_forall. intros x Hx Hn. destruct (register_ok b QA) as (_ & _ & _ & _ & _ & R6 & _). fold QB in R6. destruct (register_ok a q) as (_ & _ & _ & _ & _ & R6' & _). fold QA in R6'.
    assert (HE : In (at_content x) (av_special_set QA) <-> In (at_content x) (av_special_set QB)).
    { rewrite R6. split; [auto|]. intros [K|(_ & y & Hy & Hsp & Hc)]; [exact K|]. apply R6'. right. split; [exact Hn|]. exists x. split; [exact Hx|]. split; [|reflexivity]. apply (Hab x y Hx Hy); [congruence | exact Hsp]. }
    destruct (smem (at_content x) (av_special_set QA)) eqn:E1, (smem (at_content x) (av_special_set QB)) eqn:E2; try reflexivity.
    - apply smem_in, HE, smem_in in E1. congruence.
    - apply smem_in, HE, smem_in in E2. congruence. }
  assert (HA : forall l q0 q1, assign_ids false (fold_left register_special l q0) (Some v) l = Ok q1 -> av_add_tokens false q0 (Some v) l = Ok (mkAv (av_added q1) (av_specials q1) (av_special_set q1) (av_map q1) (av_map_r q1) (known_tokens v true (av_specials q1 ++ av_added q1)) (known_tokens v false (av_specials q1 ++ av_added q1)), cnt l)).
  { intros l q0 q1 H. unfold av_add_tokens. cbv zeta. rewrite H. reflexivity. }
  assert (HX : assign_ids false (fold_left register_special (a ++ b) q) (Some v) (a ++ b) = (qa <- assign_ids false QA (Some v) a ;; assign_ids false (with_specials QB qa) (Some v) b)).
  { rewrite register_app. fold QA QB. rewrite assign_app. rewrite <- EB at 1. rewrite (assign_with (Some v) a QB QA HS). destruct (assign_ids false QA (Some v) a); reflexivity. }
  destruct (assign_ids false QA (Some v) a) as [qa|e|u|] eqn:Ea; cbn [bind] in HX; try (unfold av_add_tokens; cbv zeta; fold QA; rewrite HX, Ea; reflexivity).
  rewrite (HA a q qa Ea). cbn [bind set_av tz_av tz_model]. rewrite Em. cbn [option_map]. fold v.
  set (t1 := mkAv (av_added qa) (av_specials qa) (av_special_set qa) (av_map qa) (av_map_r qa) (known_tokens v true (av_specials qa ++ av_added qa)) (known_tokens v false (av_specials qa ++ av_added qa))).
  destruct (assign_keeps _ _ _ _ Ea) as [K1 K2].
  assert (HY : fold_left register_special b t1 = with_specials QB t1) by (apply register_with; assumption).
  assert (HZ : assign_ids false (fold_left register_special b t1) (Some v) b = (q2 <- assign_ids false (with_specials QB qa) (Some v) b ;;
    Ok (mkAv (av_added q2) (av_specials q2) (av_special_set q2) (av_map q2) (av_map_r q2) (av_trie_norm t1) (av_trie_raw t1)))).
  { rewrite HY. exact (assign_tries (Some v) b (av_trie_norm t1) (av_trie_raw t1) (with_specials QB qa)). }
  destruct (assign_ids false (with_specials QB qa) (Some v) b) as [qb|e|u|] eqn:Eb; cbn [bind] in HZ; try (unfold av_add_tokens; cbv zeta; rewrite HX, HZ; reflexivity).
  rewrite (HA (a ++ b) q qb HX), (HA b t1 _ HZ). cbn [bind set_av av_added av_specials av_special_set av_map av_map_r tz_trunc tz_pad tz_norm tz_pre tz_model tz_dec tz_post].
  f_equal. f_equal. unfold cnt. rewrite filter_app, !app_length. lia.
Qed.
Print Assumptions C131_batch.

(** *** Adding again *)
Lemma decode_same v av av' t : sfind [] v = None -> ids_ok v av -> ids_ok v av' -> (forall x, assigned av' x = assigned av x) -> (forall x, is_special_token av' x = is_special_token av x) ->
  tz_av t = Some av -> forall ids skip, decode (set_av t (Some av')) ids skip = decode t ids skip.
Proof.
  intros He I I' HA HS Hav ids skip. unfold decode. cbn [set_av tz_dec].
  assert (HT : forall i, av_id_to_token av' i = av_id_to_token av i).
  { intros i. unfold av_id_to_token. destruct (zfind i (av_map_r av)) as [tok|] eqn:E1.
    - destruct (io_from _ _ I i tok E1) as [H|[_ H]]; [|congruence]. fold (assigned av (at_content tok)) in H. rewrite <- HA in H. destruct (io_back _ _ I' _ _ H) as (tok' & -> & Hc). cbn. congruence.
    - destruct (zfind i (av_map_r av')) as [tok|] eqn:E2; [|reflexivity]. exfalso. destruct (io_from _ _ I' i tok E2) as [H|[_ H]]; [|congruence]. fold (assigned av' (at_content tok)) in H. rewrite HA in H. destruct (io_back _ _ I _ _ H) as (tok' & H1 & _). congruence. }
  assert (HD : decode_ids (set_av t (Some av')) skip ids = decode_ids t skip ids).
  { induction ids as [|i ids IH]; [reflexivity|]. cbn [decode_ids]. rewrite IH. cbn [set_av tz_av tz_model]. rewrite Hav, HT. destruct (match av_id_to_token av i with Some s => Ok s | None => _ end) as [tok| | |]; cbn [bind]; try reflexivity. rewrite HS. reflexivity. }
  rewrite HD. reflexivity.
Qed.

(** Adding tokens that were added before, with the same settings, changes no encoding, no decoding and no id. *)
Theorem C131_again : forall E fuel t m ops av l t' n, tz_av t = Some av -> tz_model t = Some m -> dense (model_vocab m) -> model_vocab m <> [] -> sfind [] (model_vocab m) = None ->
  history (model_vocab m) ops av -> settled ops -> incl l ops -> add_tokens false t l = Ok (t', n) ->
  (forall s add, snd (encode E fuel t' s add) = snd (encode E fuel t s add)) /\ (forall ids skip, decode t' ids skip = decode t ids skip) /\
  exists av', tz_av t' = Some av' /\ forall x, assigned av' x = assigned av x /\ is_special_token av' x = is_special_token av x.
Proof.
  intros E fuel t m ops av l t' n Hav Hm Hd Hne He Hh Hs Hl H. set (v := model_vocab m) in *. pose proof (history_ok _ _ _ Hd Hne Hh) as HO.
  unfold add_tokens in H. rewrite Hav, Hm in H. cbn [option_map] in H. apply bind_ok in H as ([av' n'] & H & E1). injection E1 as <- <-. fold v in H.
  pose proof (h_add _ _ _ _ _ _ Hh H) as Hh'. pose proof (history_ok _ _ _ Hd Hne Hh') as HO'.
  destruct (add_tokens_ok v av l false Hd Hne (ho_ids _ _ _ HO)) as (av'' & HA & _ & B1 & B2 & B3 & _); [discriminate|]. rewrite HA in H. injection H as <- _. rename av'' into av'.
  assert (HX : forall x, assigned av' x = assigned av x).
  { intros x. unfold assigned. destruct (sfind x (av_map av)) as [i|] eqn:Ei; [apply B1; exact Ei|]. destruct (sfind x (av_map av')) as [i|] eqn:Ei'; [|reflexivity]. exfalso.
    destruct (proj1 (B2 x)) as [(j & Hj)|(Hn & Hi)]; [eauto | congruence|]. destruct (proj2 (ho_assigned _ _ _ HO x)) as (j & Hj); [|congruence]. split; [exact Hn|]. apply in_map_iff in Hi as (tok & <- & Hi). apply in_map. apply Hl. exact Hi. }
  assert (HY : forall x, is_special_token av' x = is_special_token av x).
  { intros x. unfold is_special_token. assert (HE : In x (av_special_set av') <-> In x (av_special_set av)).
    { rewrite B3. split; [|auto]. intros [K|(Hn & tok & Hi & Hsp & Hc)]; [exact K|]. apply (ho_special _ _ _ HO). split; [exact Hn|]. exists tok. auto. }
    destruct (smem x (av_special_set av')) eqn:F1, (smem x (av_special_set av)) eqn:F2; try reflexivity.
    - apply smem_in, HE, smem_in in F1. congruence.
    - apply smem_in, HE, smem_in in F2. congruence. }
  split; [|split].
  - intros s add. eapply C131_same_tokens with (ops := ops) (ops' := ops ++ l); [exact Hd | exact Hne | exact He | exact Hav | exact Hh | exact Hh' | exact Hs | |].
    + intros a b Ha Hb. apply Hs; (apply in_app_iff in Ha as [Ha|Ha]); (apply in_app_iff in Hb as [Hb|Hb]); auto.
    + intros x st _. split; intros (a & Ha & Hc); exists a; (split; [|exact Hc]); [apply in_app_iff; auto | apply in_app_iff in Ha as [Ha|Ha]; auto].
  - intros ids skip. eapply decode_same; [exact He | exact (ho_ids _ _ _ HO) | exact (ho_ids _ _ _ HO') | exact HX | exact HY | exact Hav].
  - exists av'. auto.
Qed.
Print Assumptions C131_again.

(** *** Concrete *)
Definition plain_entry (s : String.string) (normalized special : bool) : added_token := mkAt 0 (str s) false false false normalized special.
Ltac all_pairs := intros a b Ha Hb; cbn in Ha, Hb; repeat (destruct Ha as [<-|Ha]; [repeat (destruct Hb as [<-|Hb]; [first [reflexivity | intros HE; exfalso; vm_compute in HE; discriminate HE]|]); destruct Hb|]); destruct Ha.
Ltac among := first [left; reflexivity | right; among].
(** Tokens given in one order or another, in two calls or three, as special or normal tokens, once or twice: the encoding is the same. The ids of tokens outside the vocabulary, which encode never uses, do depend on the order. *)
Definition order_1 : list call := [CallAddTokens [plain_entry "play" true false; plain_entry "##ing" false true]; CallAddTokens [plain_entry "new" true false]].
Definition order_2 : list call := [CallAddSpecialTokens [plain_entry "##ing" false false]; CallEncode (str "playing") true;
  CallAddTokens [plain_entry "other" true true; plain_entry "play" true true; plain_entry "new" true false]; CallAddTokens [plain_entry "play" true false]].
Example C131_case : exists t, finish_construction hist_t0 = Ok t /\
  (settled (hist_ops ++ given order_1) /\ settled (hist_ops ++ given order_2) /\ same_requests hist_vocab (hist_ops ++ given order_1) (hist_ops ++ given order_2)) /\
  (exists r, snd (encode test_env 10 t (str "playing") true) = Ok r /\ en_ids r = [2; 3]%Z) /\
  (exists r, snd (encode test_env 10 (HistSpec.after test_env 10 t order_1) (str "playing") true) = Ok r /\ en_ids r = [2; 0]%Z /\
             snd (encode test_env 10 (HistSpec.after test_env 10 t order_2) (str "playing") true) = Ok r) /\
  (exists a1 a2, tz_av (HistSpec.after test_env 10 t order_1) = Some a1 /\ tz_av (HistSpec.after test_env 10 t order_2) = Some a2 /\ assigned a1 (str "new") = Some 5%Z /\ assigned a2 (str "new") = Some 6%Z).
Proof.
  destruct C67_case as (t & Ht & _). exists t. split; [exact Ht|].
  assert (Et : Ok t = finish_construction hist_t0) by (symmetry; exact Ht). vm_compute in Et. injection Et as ->. clear Ht.
  split; [split; [|split]|split; [|split]].
  - all_pairs.
  - all_pairs.
  - intros text st (k & Hk). split; intros (a & Ha & Hc & Hst); cbn in Ha;
      repeat (destruct Ha as [<-|Ha]; [first [exfalso; rewrite <- Hc in Hk; vm_compute in Hk; discriminate Hk |
        first [exists (special "[CLS]"); split; [among|]; split; [exact Hc | exact Hst] | exists (plain_entry "play" true false); split; [among|]; split; [exact Hc | exact Hst] |
               exists (plain_entry "##ing" false false); split; [among|]; split; [exact Hc | exact Hst] | exists (plain_entry "##ing" false true); split; [among|]; split; [exact Hc | exact Hst]]]|]); destruct Ha.
  - eexists. split; [vm_compute; reflexivity | reflexivity].
  - eexists. split; [vm_compute; reflexivity|]. split; [reflexivity | vm_compute; reflexivity].
  - eexists. eexists. split; [vm_compute; reflexivity|]. split; [vm_compute; reflexivity|]. split; vm_compute; reflexivity.
Qed.

(** The exception of C131_batch is real, and so is the condition that a text always has the same settings: [play] first as a normal token that is looked for in the normalized text, then as a special
    token that is looked for in the text itself. In two calls it is looked for in both, in one call only in the text itself: the upper-case text is cut differently. *)
Definition lower_t0 : tokenizer := mkTz None None (Some (new_added_vocab [])) (Some (NBert false false false true)) (Some TBert) (Some (MWordPiece (mkWp hist_vocab (str "[UNK]") 100 (str "##")))) (Some (DWordPiece (str "##") false)) None.
Theorem C131_batch_refuted : exists t a b t1 n1 t2 n2 t3 n3 r r', finish_construction lower_t0 = Ok t /\
  add_tokens false t a = Ok (t1, n1) /\ add_tokens false t1 b = Ok (t2, n2) /\ add_tokens false t (a ++ b) = Ok (t3, n3) /\
  snd (encode test_env 10 t2 (str "PLAYing") true) = Ok r /\ snd (encode test_env 10 t3 (str "PLAYing") true) = Ok r' /\ en_ids r = [2; 0]%Z /\ en_ids r' = [2; 3]%Z.
Proof.
  destruct (finish_construction lower_t0) as [t| | |] eqn:E; try (vm_compute in E; discriminate). vm_compute in E. injection E as <-. eexists. exists [plain_entry "play" true false], [plain_entry "play" false true].
  do 8 eexists. split; [reflexivity|]. split; [vm_compute; reflexivity|]. split; [vm_compute; reflexivity|]. split; [vm_compute; reflexivity|].
  split; [vm_compute; reflexivity|]. split; [vm_compute; reflexivity|]. split; reflexivity.
Qed.
Print Assumptions C131_batch_refuted.
(** and the condition of C131_batch is met by the additions of [order_2] *)
Example C131_batch_case : let a := [plain_entry "##ing" false false; plain_entry "play" true true] in let b := [plain_entry "other" true true; plain_entry "play" true true; plain_entry "##ing" false false] in
  (forall x y, In x a -> In y b -> at_content x = at_content y -> at_special y = true -> at_special x = true) /\
  exists t t', finish_construction hist_t0 = Ok t /\ add_tokens false t (a ++ b) = Ok (t', 5%Z).
Proof.
  cbv zeta. split.
  - intros x y Hx Hy. cbn in Hx, Hy. repeat (destruct Hx as [<-|Hx]; [repeat (destruct Hy as [<-|Hy]; [first [reflexivity | discriminate | intros HE; exfalso; vm_compute in HE; discriminate HE | intros _ HE; exact HE]|]); destruct Hy|]); destruct Hx.
  - destruct (finish_construction hist_t0) as [t| | |] eqn:E; try (vm_compute in E; discriminate). vm_compute in E. injection E as <-. eexists. eexists. split; [reflexivity|]. vm_compute. reflexivity.
Qed.
