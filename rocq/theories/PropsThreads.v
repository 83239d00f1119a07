(** C144: several threads, encode and decode at once, additions exclusively. *)
From Verif Require Import Base BaseFacts Unicode Common Utils PostProcessor Decoder Normalizer PreTokenizer WordPiece Bpe AddedVocab Tokenizer Spec BpeSpec BpeProofs BpeWord AvSpec AvProofs HistSpec HistProofs TzSpec TzProofs Concurrent ConcProofs Threads PropsBpe.
From Coq Require Import ZifyBool.

(** ** Programs: which ids they look up *)
Fixpoint asks {A} (ids : list Z) (p : prog A) : Prop :=
  match p with
  | Done _ => True
  | Lookup i k => In i ids /\ forall a, asks ids (k a)
  | Find _ k => forall o, asks ids (k o)
  | Insert _ _ k => asks ids k
  end.
Lemma asks_bind {A B} ids (p : prog A) (f : A -> prog B) : asks ids p -> (forall a, asks ids (f a)) -> asks ids (pbind p f).
Proof. intros Hp Hf. induction p as [x|i k IH|s k IH|s w k IH]; cbn [asks pbind] in *; [destruct x; cbn; auto | destruct Hp; split; auto | auto ..]. Qed.
Lemma looks_asks {A} ids (p : prog A) : looks_in ids p -> asks ids p.
Proof. induction p as [x|i k IH|s k IH|s w k IH]; cbn [looks_in asks]; intros H; [exact I | destruct H; auto | contradiction ..]. Qed.
Lemma encode_asks E fuel t s add : asks (trie_ids (tz_av t)) (encode_prog E fuel t s add).
Proof.
  apply asks_bind; [apply looks_asks, prepare_looks|]. intros p. apply asks_bind; [|intros; exact I]. unfold model_prog. destruct (tz_model t) as [[w|b c]|]; [exact I | | exact I].
  apply asks_bind; [|intros; exact I]. induction (pt_splits p) as [|x l IH]; [exact I|]. cbn [splits_prog]. apply asks_bind; [|intros ts; apply asks_bind; [exact IH | intros; exact I]].
  unfold word_prog. destruct (QArith_base.Qeq_bool _ _); [|exact I]. destruct (if b_ignore_merges b then sfind (sp_text x) (b_vocab b) else None); [exact I|]. cbn [asks]. intros [w|]; [exact I|].
  apply asks_bind; [exact I|]. intros w. apply asks_bind; [exact I|]. intros ts. exact I.
Qed.
Lemma good_ext E m m' ob {A} (p : prog A) r : (forall i, AvProofs.look m i = AvProofs.look m' i) -> good E m ob p r -> good E m' ob p r.
Proof. intros H. induction p as [x|i k IH|s k IH|s w k IH]; cbn [good]; intros G; [exact G | rewrite <- H; apply IH, G | destruct G; split; auto | destruct G; split; auto]. Qed.

(** ** Alike tokenizers *)
Lemma alike_look E t u : alike E t u -> forall i, AvProofs.look (sh_map_r (shared_of t)) i = AvProofs.look (sh_map_r (shared_of u)) i.
Proof.
  intros [_ _ _ _ _ _ _ _ A] i. unfold shared_of. cbn [sh_map_r]. destruct (tz_av t) as [a|], (tz_av u) as [a'|]; try contradiction; [|reflexivity]. destruct A as (S & _). eapply same_look. exact (sa_map_r _ _ _ S).
Qed.
Lemma alike_bpe E t u : alike E t u -> model_bpe (tz_model t) = model_bpe (tz_model u).
Proof. intros [_ _ _ _ _ _ _ A _]. destruct (tz_model t) as [[w|b c]|], (tz_model u) as [[w'|b' c']|]; try contradiction; try reflexivity. destruct A as (-> & _). reflexivity. Qed.
Lemma alike_cache E t u : alike E t u -> forall b c, tz_model t = Some (MBpe b c) -> cache_ok E b c.
Proof. intros [_ _ _ _ _ _ _ A _] b c H. rewrite H in A. destruct (tz_model u) as [[w'|b' c']|]; try contradiction. apply A. Qed.
Lemma alike_sh E t u : alike E t u -> sh_ok E (sh_map_r (shared_of u)) (model_bpe (tz_model u)) (shared_of t).
Proof.
  intros H. split; [exact (alike_look E t u H)|]. rewrite <- (alike_bpe E t u H). pose proof (alike_cache E t u H) as C. unfold shared_of, model_bpe, cache_fact. cbn [sh_cache].
  destruct (tz_model t) as [[w|b c]|]; [discriminate | | discriminate]. exact (C b c eq_refl).
Qed.
Lemma alike_tries E t u : alike E t u -> trie_ids (tz_av t) = trie_ids (tz_av u).
Proof. intros [_ _ _ _ _ _ _ _ A]. destruct (tz_av t) as [a|], (tz_av u) as [a'|]; try contradiction; [|reflexivity]. destruct A as (S & _). unfold trie_ids. rewrite (sa_norm _ _ _ S), (sa_raw _ _ _ S). reflexivity. Qed.
Lemma touch_grow ids m i : In i ids -> grow ids m (touch m i).
Proof.
  intros H. constructor.
  - intros j x Hj. rewrite touch_find, Hj. reflexivity.
  - intros j x Hj. rewrite touch_find in Hj. destruct (zfind j m) as [y|]; [left; exact Hj|]. destruct (Z.eqb_spec j i) as [->|]; [right; split; [congruence | exact H] | discriminate].
  - intros j. apply touch_look.
  - intros K. apply touch_known, K, H.
Qed.
(** an access of a call leaves the tokenizer alike *)
Lemma access_alike E t u {A} (p : prog A) r sh' p' : nodup_ids t -> alike E t u -> asks (trie_ids (tz_av t)) p -> good E (sh_map_r (shared_of u)) (model_bpe (tz_model u)) p r -> pstep (shared_of t) p sh' p' -> alike E (with_shared t sh') u.
Proof.
  intros Hn H Ha Hg Hp. assert (G : alike E (with_shared t sh') t); [|eapply alike_trans; [exact G | exact H]].
  destruct (good_step E _ _ _ _ _ _ _ (alike_sh E t u H) Hp Hg) as [[_ S2] _]. pose proof (alike_left E t u H) as [A1 A2 A3 A4 A5 A6 A7 A8 A9]. pose proof (alike_bpe E t u H) as HB.
  assert (M : forall a, tz_av t = Some a -> grow (map snd (av_trie_norm a ++ av_trie_raw a)) (av_map_r a) (sh_map_r sh')).
  { intros a Hav. assert (HM : sh_map_r (shared_of t) = av_map_r a) by (unfold shared_of; rewrite Hav; reflexivity). unfold trie_ids in Ha. rewrite Hav in Ha.
    inversion Hp as [? i k|? s k|? s w k]; subst; cbn [sh_map_r]; rewrite HM; [|apply grow_refl ..]. rewrite map_ref_eq. cbn [snd]. apply touch_grow. exact (proj1 Ha). }
  constructor; cbn [with_shared set_av set_model tz_trunc tz_pad tz_norm tz_pre tz_dec tz_post tz_model tz_av]; try reflexivity.
  - destruct (tz_model t) as [[w|b c]|]; reflexivity.
  - destruct (tz_model t) as [[w|b c]|]; try reflexivity. split; [reflexivity|]. split; [|apply A8]. intros s w Hs. specialize (S2 s w Hs). rewrite <- HB in S2. exact S2.
  - destruct (tz_av t) as [a|]; [|exact I]. specialize (M a eq_refl). destruct A9 as (_ & I1 & _).
    assert (V : option_map model_vocab match tz_model t with Some (MBpe b _) => Some (MBpe b (sh_cache sh')) | m => m end = option_map model_vocab (tz_model t)) by (destruct (tz_model t) as [[w|b c]|]; reflexivity).
    rewrite V. split; [|split; [exact (inv_map_r _ _ _ M I1) | exact I1]]. constructor; try reflexivity. cbn [set_map_r av_map_r]. intros i.
    destruct (grow_same _ _ _ _ _ (inv_covered _ a Hn I1) eq_refl M i) as [K|(K1 & K2 & K3)]; [left; symmetry; exact K | right; auto].
Qed.
Lemma decode_ids_alike E t t' b ids : alike E t t' -> decode_ids t b ids = decode_ids t' b ids.
Proof.
  intros [A1 A2 A3 A4 A5 A6 A7 A8 A9].
  induction ids as [|i ids IH]; [reflexivity|]. cbn [decode_ids]. rewrite IH. destruct (tz_av t) as [a|], (tz_av t') as [a'|]; try contradiction; auto.
  destruct A9 as ([S1 S2 S3 S4 S5 S6 S7] & I & I'). unfold is_special_token. rewrite <- S3.
  assert (HV : forall i, match tz_model t with None => Undef NullDeref | Some m => match model_id_to_token (model_vocab m) i with Some s => Ok s | None => Throw BadOptionalAccess end end =
                         match tz_model t' with None => Undef NullDeref | Some m => match model_id_to_token (model_vocab m) i with Some s => Ok s | None => Throw BadOptionalAccess end end).
  { intros j. destruct (tz_model t) as [m|], (tz_model t') as [m'|]; cbn in A7; try discriminate; auto. injection A7 as ->. reflexivity. }
  unfold av_id_to_token. rewrite <- (HV i). destruct (S7 i) as [H|(H1 & H2 & (w & H3 & H4))]; [rewrite H; reflexivity|].
  unfold AvProofs.look in *. destruct (tz_model t) as [m|]; [|discriminate]. injection H3 as <-. rewrite H4.
  destruct (zfind i (av_map_r a)), (zfind i (av_map_r a')); subst; reflexivity.
Qed.
Lemma decode_ids_app t b l1 l2 : decode_ids t b (l1 ++ l2) = (x <- decode_ids t b l1 ;; y <- decode_ids t b l2 ;; Ok (x ++ y)).
Proof.
  induction l1 as [|i l1 IH]; cbn [app decode_ids bind]; [destruct (decode_ids t b l2); reflexivity|]. destruct (tz_av t) as [a|]; [|reflexivity].
  destruct (match av_id_to_token a i with Some s => Ok s | None => _ end) as [tok| | |]; cbn [bind]; try reflexivity. rewrite IH. destruct (decode_ids t b l1) as [x| | |]; cbn [bind]; try reflexivity.
  destruct (decode_ids t b l2) as [y| | |]; cbn [bind]; try reflexivity. destruct (_ || _); reflexivity.
Qed.

(** ** The invariant *)
Definition will_text (u : tokenizer) (ids : list Z) (skip : bool) (kept : list bytes) : answer :=
  AnsText (l <- decode_ids u skip ids ;; match tz_dec u with None => Undef NullDeref | Some d => out <- decode_chain d (kept ++ l) ;; Ok (concat out) end).
Definition cacheless_bpe (t : tokenizer) : Prop := cacheless (tz_model t).
(** what is left of a call on a tokenizer alike to [u] leads to the answer [a] *)
Definition heads (E : env) (u : tokenizer) (l : left_over) (a : answer) : Prop :=
  match l with
  | LeftEncode p => asks (trie_ids (tz_av u)) p /\ (cacheless_bpe u -> looks_in (trie_ids (tz_av u)) p) /\ exists r, a = AnsEncoding r /\ good E (sh_map_r (shared_of u)) (model_bpe (tz_model u)) p r
  | LeftDecode ids skip kept => will_text u ids skip kept = a
  | Finished x => x = a
  end.
Definition job_ok (E : env) (fuel : nat) (t0 : tokenizer) (A : list HistSpec.call) (j : job) : Prop :=
  let a := reply E fuel (HistSpec.after E fuel t0 (j_adds j)) (j_call j) in
  (j_adds j = A /\ heads E (HistSpec.after E fuel t0 A) (j_left j) a) \/ j_left j = Finished a.
Definition pool_ok (E : env) (fuel : nat) (t0 : tokenizer) (x : pool) : Prop :=
  alike E (pl_tz x) (HistSpec.after E fuel t0 (pl_adds x)) /\ Forall (job_ok E fuel t0 (pl_adds x)) (pl_jobs x).

Lemma after_nodup E fuel h : forall u, nodup_ids u -> alike E u u -> nodup_ids (HistSpec.after E fuel u h) /\ alike E (HistSpec.after E fuel u h) (HistSpec.after E fuel u h).
Proof.
  induction h as [|x l IH]; intros u H1 H2; [split; assumption|]. unfold HistSpec.after. cbn [fold_left]. apply IH; [apply do_call_nodup; assumption|]. apply (proj2 (do_call_alike E fuel u u x H1 H2)).
Qed.
Lemma after_snoc E fuel u h k : HistSpec.after E fuel u (h ++ [k]) = fst (do_call E fuel (HistSpec.after E fuel u h) k).
Proof. unfold HistSpec.after. rewrite fold_left_app. reflexivity. Qed.

Lemma step_ok E t u l t' l' a : nodup_ids t -> alike E t u -> heads E u l a -> job_step t l t' l' -> alike E t' u /\ heads E u l' a.
Proof.
  intros Hn H Hh Hs. destruct Hs as [p sh' p' Hp|r|ids skip kept].
  - destruct Hh as (H1 & H2 & r & -> & H3). split.
    + eapply access_alike; [exact Hn | exact H | rewrite (alike_tries E t u H); exact H1 | exact H3 | exact Hp].
    + destruct (good_step E _ _ _ _ _ _ _ (alike_sh E t u H) Hp H3) as [_ H4]. split; [|split].
      * destruct Hp; cbn [asks] in H1; [apply H1 | apply H1 | exact H1].
      * intros C. specialize (H2 C). destruct Hp; cbn [looks_in] in H2; [apply H2 | contradiction ..].
      * exists r. split; [reflexivity | exact H4].
  - split; [exact H|]. destruct Hh as (_ & _ & r' & -> & H3). cbn [good] in H3. subst. reflexivity.
  - split; [exact H|]. cbn [heads] in Hh. subst a. unfold decode_step, will_text. destruct ids as [|i r].
    + cbn [decode_ids bind heads]. rewrite app_nil_r, (al_dec _ _ _ H). reflexivity.
    + rewrite (decode_ids_alike E t u skip [i] H). change (i :: r) with ([i] ++ r). rewrite decode_ids_app. destruct (decode_ids u skip [i]) as [x| | |]; cbn [bind heads]; try reflexivity. unfold will_text.
      destruct (decode_ids u skip r) as [y| | |]; cbn [bind]; try reflexivity. rewrite app_assoc. reflexivity.
Qed.
Lemma begin_ok E fuel t u k l : nodup_ids t -> alike E t u -> begin E fuel t k = Some l -> heads E u l (reply E fuel u k).
Proof.
  intros Hn H Hb. rewrite <- (proj1 (do_call_alike E fuel t u k Hn H)). destruct k as [s add|ids skip| |]; try discriminate; injection Hb as <-; unfold reply; cbn [do_call heads].
  - rewrite <- (alike_tries E t u H). split; [apply encode_asks|]. split.
    + intros C. apply encode_looks. unfold cacheless_bpe, cacheless in *. destruct H as [_ _ _ _ _ _ _ A8 _]. destruct (tz_model t) as [[w|b c]|], (tz_model u) as [[w'|b' c']|]; try exact I; try contradiction. destruct A8 as (-> & _). exact C.
    + exists (snd (encode E fuel t s add)). split; [destruct (encode E fuel t s add); reflexivity|]. rewrite <- (alike_bpe E t u H). eapply good_ext; [exact (alike_look E t u H)|]. apply good_encode. exact (alike_cache E t u H).
  - unfold will_text, decode. cbn [snd app]. rewrite (decode_ids_alike E t u skip ids H), (al_dec _ _ _ H). reflexivity.
Qed.
Lemma pool_keeps E fuel t0 x y : nodup_ids t0 -> alike E t0 t0 -> pool_ok E fuel t0 x -> move E fuel x y -> pool_ok E fuel t0 y.
Proof.
  intros Hn0 H0 [H HJ] Hm. destruct (after_nodup E fuel (pl_adds x) t0 Hn0 H0) as [Hnu Hu].
  assert (Hn : nodup_ids (pl_tz x)) by (eapply alike_nodup; [apply alike_sym; exact H | exact Hnu]).
  destruct Hm as [t A js k l Hb|t A js1 j js2 t' l Hs|t A js k Hk HF]; cbn [pl_tz pl_adds pl_jobs] in *.
  - split; [exact H|]. apply Forall_app. split; [exact HJ|]. constructor; [|constructor]. left. cbn [j_adds j_call j_left]. split; [reflexivity|]. apply (begin_ok E fuel t); assumption.
  - apply Forall_app in HJ as [F1 F2]. inversion F2 as [|? ? F3 F4]; subst. destruct F3 as [[F5 F6]|F5]; [|rewrite F5 in Hs; inversion Hs].
    destruct (step_ok E t _ _ t' l _ Hn H F6 Hs) as [G1 G2]. split; [exact G1|]. apply Forall_app. split; [exact F1|]. constructor; [|exact F4]. left. cbn [j_adds j_call j_left]. split; [exact F5 | exact G2].
  - destruct (do_call_alike E fuel t _ k Hn H) as [G1 G2]. split; [cbn [pl_tz pl_adds]; rewrite after_snoc; exact G2|]. cbn [pl_jobs pl_adds]. apply Forall_app. split.
    + rewrite Forall_forall in *. intros j Hj. destruct (HF j Hj) as (a & Ha). right. destruct (HJ j Hj) as [[_ F6]|F6]; [rewrite Ha in F6; cbn [heads] in F6; subst a; exact Ha | exact F6].
    + constructor; [|constructor]. right. cbn [j_left j_adds j_call]. unfold reply in G1. rewrite G1. reflexivity.
Qed.
Lemma pool_always E fuel t0 x : constructed t0 -> NoDup (map snd (tz_vocab t0)) \/ sfind [] (tz_vocab t0) = None -> leads_to E fuel (mkPool t0 [] []) x -> pool_ok E fuel t0 x.
Proof.
  intros Hc Hv H. assert (Hn : nodup_ids t0).
  { intros w Hw. unfold tz_vocab in Hv. destruct (tz_model t0) as [m|]; [|discriminate]. injection Hw as <-. exact Hv. }
  pose proof (constructed_alike E t0 Hc) as HA. remember (mkPool t0 [] []) as x0 eqn:E0. revert E0. induction H as [x|x y z _ IH Hm]; intros ->; [split; [exact HA | constructor] | eapply pool_keeps; eauto].
Qed.

(** ** The theorems *)
(** With additions made only while no call is in progress, and encode and decode at any time in any number of threads: every finished call has the answer the
    same call gets, alone, on a tokenizer to which just the additions made before it began were made. (One access to a shared member is one step.) *)
Theorem C144_sequential_results : forall E fuel t x, constructed t -> NoDup (map snd (tz_vocab t)) \/ sfind [] (tz_vocab t) = None -> leads_to E fuel (mkPool t [] []) x ->
  (forall j a, In j (pl_jobs x) -> j_left j = Finished a -> a = reply E fuel (HistSpec.after E fuel t (j_adds j)) (j_call j)) /\
  (forall k, reply E fuel (pl_tz x) k = reply E fuel (HistSpec.after E fuel t (pl_adds x)) k).
Proof.
  intros E fuel t x Hc Hv H. destruct (pool_always E fuel t x Hc Hv H) as [H1 H2]. split.
  - intros j a Hj Ha. rewrite Forall_forall in H2. destruct (H2 j Hj) as [[F5 F6]|F6]; rewrite ?Ha in F6; [cbn [heads] in F6; exact F6 | injection F6 as ->; reflexivity].
  - intros k. assert (Hn : nodup_ids t).
    { intros w Hw. unfold tz_vocab in Hv. destruct (tz_model t) as [m|]; [|discriminate]. injection Hw as <-. exact Hv. }
    destruct (after_nodup E fuel (pl_adds x) t Hn (constructed_alike E t Hc)) as [Hnu _]. apply do_call_alike; [|exact H1]. eapply alike_nodup; [apply alike_sym; exact H1 | exact Hnu].
Qed.
Print Assumptions C144_sequential_results.

Lemma call_bpe E fuel u k : model_bpe (tz_model (fst (do_call E fuel u k))) = model_bpe (tz_model u).
Proof.
  assert (A : forall l, model_bpe (tz_model (fst (adding u (add_tokens false u l)))) = model_bpe (tz_model u)).
  { intros l. unfold add_tokens. destruct (tz_av u); [|reflexivity]. destruct (av_add_tokens _ _ _ _) as [[? ?]| | |]; reflexivity. }
  destruct k as [s add|ids skip|l|l]; cbn [do_call]; [|reflexivity | apply A ..]. unfold encode. destruct (prepare E u s) as [[av p]| | |]; cbn [fst]; try reflexivity. cbn [set_av tz_model]. cbv zeta.
  destruct (tz_model u) as [[w|b c]|] eqn:M; cbn [model_tokenize fst]; try (cbn; rewrite ?M; reflexivity). unfold bpe_tokenize. destruct (bpe_splits E b c (pt_splits p)) as [c' r]. reflexivity.
Qed.
Lemma after_bpe E fuel h : forall u, model_bpe (tz_model (HistSpec.after E fuel u h)) = model_bpe (tz_model u).
Proof. induction h as [|k h IH]; intros u; [reflexivity|]. unfold HistSpec.after in *. cbn [fold_left]. rewrite IH. apply call_bpe. Qed.

(** If the model keeps no cache (WordPiece, or BPE with dropout) and the empty text is not in the vocabulary, no two calls in progress ever have conflicting accesses: the discipline is enough. *)
Theorem C144_no_race : forall E fuel t x, constructed t -> sfind [] (tz_vocab t) = None -> (forall b c, tz_model t = Some (MBpe b c) -> ~ no_dropout b) ->
  leads_to E fuel (mkPool t [] []) x -> ~ racing x.
Proof.
  intros E fuel t x Hc Hv Hm H. destruct (pool_always E fuel t x Hc (or_intror Hv) H) as [H1 H2].
  assert (C : cacheless_bpe (HistSpec.after E fuel t (pl_adds x))).
  { pose proof (after_bpe E fuel (pl_adds x) t) as B. unfold cacheless_bpe, cacheless. destruct (tz_model (HistSpec.after E fuel t (pl_adds x))) as [[w|b c]|]; try exact I. cbn [model_bpe] in B.
    destruct (tz_model t) as [[w'|b' c']|]; try discriminate. injection B as ->. specialize (Hm b' c' eq_refl). rewrite no_dropout_bool in Hm. destruct (QArith_base.Qeq_bool _ _); congruence. }
  assert (K : forall i, In i (trie_ids (tz_av (pl_tz x))) -> zfind i (sh_map_r (shared_of (pl_tz x))) <> None).
  { intros i Hi. destruct H1 as [_ _ _ _ _ _ A7 _ A9]. unfold trie_ids, shared_of in *. cbn [sh_map_r]. destruct (tz_av (pl_tz x)) as [a|]; [|destruct Hi]. destruct (tz_av (HistSpec.after E fuel t (pl_adds x))) as [a'|]; [|contradiction].
    destruct A9 as (_ & I1 & _). apply in_map_iff in Hi as ([s i'] & <- & Hi). cbn [snd]. destruct (iv_trie _ _ I1 s i' Hi) as (w & tok & W1 & W2 & W3 & W4).
    assert (Hw : w = tz_vocab t).
    { rewrite A7 in W1. assert (V : forall h u, option_map model_vocab (tz_model (HistSpec.after E fuel u h)) = option_map model_vocab (tz_model u)).
      { clear. induction h as [|k h IH]; intros u; [reflexivity|]. unfold HistSpec.after in *. cbn [fold_left]. rewrite IH. clear IH.
        assert (A : forall l, option_map model_vocab (tz_model (fst (adding u (add_tokens false u l)))) = option_map model_vocab (tz_model u)).
        { intros l. unfold add_tokens. destruct (tz_av u); [|reflexivity]. destruct (av_add_tokens _ _ _ _) as [[? ?]| | |]; reflexivity. }
        destruct k as [s add|ids skip|l|l]; cbn [do_call]; [|reflexivity | apply A ..]. unfold encode. destruct (prepare E u s) as [[av p]| | |]; cbn [fst]; try reflexivity. cbn [set_av tz_model]. cbv zeta.
        destruct (tz_model u) as [[w|b c]|] eqn:M; cbn [model_tokenize fst]; try (cbn; rewrite ?M; reflexivity). unfold bpe_tokenize. destruct (bpe_splits E b c (pt_splits p)) as [c' r]. reflexivity. }
      rewrite V in W1. unfold tz_vocab. destruct (tz_model t); [injection W1 as <-; reflexivity | discriminate]. }
    assert (Hne : at_content tok <> []) by (intros Hx; rewrite W4 in Hx; subst s; rewrite Hw in W2; congruence).
    destruct (iv_map _ _ I1 tok W3 Hne) as (j & Hj). rewrite W4 in Hj. rewrite <- (iv_model _ _ I1 s j w i' Hj W1 W2). exact (iv_back _ _ I1 s j Hj). }
  assert (W : forall j m b, In j (pl_jobs x) -> touches (pl_tz x) (j_left j) = Some (m, b) -> b = false).
  { intros j m b Hj Ht. rewrite Forall_forall in H2. destruct (H2 j Hj) as [[_ F]|F]; [|rewrite F in Ht; discriminate]. destruct (j_left j) as [p|ids skip kept|a]; cbn [touches] in Ht; [|destruct ids; congruence | discriminate].
    destruct F as (_ & F & _). specialize (F C). rewrite <- (alike_tries _ _ _ H1) in F. eapply stays_no_write; [|exact Ht]. eapply looks_stays; [exact K | exact F]. }
  intros (i & j & ji & jj & m & wi & wj & _ & Hi & Hj & Ai & Aj & Hw). apply nth_error_In in Hi, Hj. rewrite (W _ _ _ Hi Ai), (W _ _ _ Hj Aj) in Hw. discriminate.
Qed.
Print Assumptions C144_no_race.

(** No call waits for another: whatever the state, the calls in progress can be brought to their end, without a new call; so an addition gets its turn. *)
Lemma leads_trans E fuel x y z : leads_to E fuel x y -> leads_to E fuel y z -> leads_to E fuel x z.
Proof. intros H1 H2. induction H2 as [|x' y' z' _ IH Hm]; [exact H1 | eapply lt_move; [apply IH, H1 | exact Hm]]. Qed.
Lemma job_ends E fuel A js1 js2 : forall l t ad k, exists t' a, leads_to E fuel (mkPool t A (js1 ++ mkJob ad k l :: js2)) (mkPool t' A (js1 ++ mkJob ad k (Finished a) :: js2)).
Proof.
  assert (D : forall ids skip kept t ad k, exists t' a, leads_to E fuel (mkPool t A (js1 ++ mkJob ad k (LeftDecode ids skip kept) :: js2)) (mkPool t' A (js1 ++ mkJob ad k (Finished a) :: js2))).
  { induction ids as [|i r IH]; intros skip kept t ad k.
    - eexists t, _. eapply lt_move; [apply lt_here|]. apply (mv_step E fuel t A js1 (mkJob ad k (LeftDecode [] skip kept)) js2). apply (js_decode t []).
    - assert (M : move E fuel (mkPool t A (js1 ++ mkJob ad k (LeftDecode (i :: r) skip kept) :: js2)) (mkPool t A (js1 ++ mkJob ad k (decode_step t (i :: r) skip kept) :: js2))) by (apply (mv_step E fuel t A js1 (mkJob ad k (LeftDecode (i :: r) skip kept)) js2); apply js_decode).
      cbn [decode_step] in M. destruct (decode_ids t skip [i]) as [l| | |]; [|eexists t, _; eapply lt_move; [apply lt_here | exact M] ..].
      destruct (IH skip (kept ++ l) t ad k) as (t' & a & H). exists t', a. eapply leads_trans; [eapply lt_move; [apply lt_here | exact M] | exact H]. }
  intros [p|ids skip kept|a] t ad k; [|apply D | exists t, a; apply lt_here].
  revert t. induction p as [r|i q IH|s q IH|s w q IH]; intros t.
  - eexists t, _. eapply lt_move; [apply lt_here|]. apply (mv_step E fuel t A js1 (mkJob ad k (LeftEncode (Done r))) js2). apply js_return.
  - destruct (IH (fst (map_ref (sh_map_r (shared_of t)) i)) (with_shared t (mkSh (snd (map_ref (sh_map_r (shared_of t)) i)) (sh_cache (shared_of t))))) as (t' & a & H). exists t', a. eapply leads_trans; [|exact H].
    eapply lt_move; [apply lt_here|]. apply (mv_step E fuel t A js1 (mkJob ad k (LeftEncode (Lookup i q))) js2). apply js_access. apply ps_lookup.
  - destruct (IH (sfind s (sh_cache (shared_of t))) (with_shared t (shared_of t))) as (t' & a & H). exists t', a. eapply leads_trans; [|exact H].
    eapply lt_move; [apply lt_here|]. apply (mv_step E fuel t A js1 (mkJob ad k (LeftEncode (Find s q))) js2). apply js_access. apply ps_find.
  - destruct (IH (with_shared t (mkSh (sh_map_r (shared_of t)) (sinsert s w (sh_cache (shared_of t)))))) as (t' & a & H). exists t', a. eapply leads_trans; [|exact H].
    eapply lt_move; [apply lt_here|]. apply (mv_step E fuel t A js1 (mkJob ad k (LeftEncode (Insert s w q))) js2). apply js_access. apply ps_insert.
Qed.
Theorem C144_no_waiting : forall E fuel x, exists y, leads_to E fuel x y /\ Forall finished (pl_jobs y) /\ pl_adds y = pl_adds x /\
  map (fun j => (j_adds j, j_call j)) (pl_jobs y) = map (fun j => (j_adds j, j_call j)) (pl_jobs x).
Proof.
  intros E fuel [t A js]. assert (G : forall js1 js2 t, Forall finished js1 -> exists y, leads_to E fuel (mkPool t A (js1 ++ js2)) y /\ Forall finished (pl_jobs y) /\ pl_adds y = A /\
    map (fun j => (j_adds j, j_call j)) (pl_jobs y) = map (fun j => (j_adds j, j_call j)) (js1 ++ js2)).
  { clear. intros js1 js2. revert js1. induction js2 as [|[ad k l] js2 IH]; intros js1 t F.
    - eexists. split; [apply lt_here|]. cbn [pl_jobs pl_adds]. rewrite app_nil_r. auto.
    - destruct (job_ends E fuel A js1 js2 l t ad k) as (t' & a & H). destruct (IH (js1 ++ [mkJob ad k (Finished a)]) t') as (y & Y1 & Y2 & Y3 & Y4).
      { apply Forall_app. split; [exact F|]. constructor; [eexists; reflexivity | constructor]. }
      rewrite <- app_assoc in Y1, Y4. cbn [app] in Y1, Y4. exists y. split; [eapply leads_trans; [exact H | exact Y1]|]. split; [exact Y2|]. split; [exact Y3|]. rewrite Y4, !map_app. reflexivity. }
  destruct (G [] js t) as (y & Y); [constructor|]. exists y. exact Y.
Qed.
Print Assumptions C144_no_waiting.

(** Without the discipline the answers can be wrong even if every single access is atomic: an encode call during which tokens are added
    may recognise one of the added tokens and not the other, so it answers neither as before the addition nor as after it. *)
From Verif Require Import Env PropsHistory.
Definition dash_vocab : smap Z := [(str "[UNK]", 0%Z); (str "a-b", 1%Z); (str "c-d", 2%Z)].
Definition dash_tz : tokenizer :=
  mkTz None None (Some (new_added_vocab [])) None (Some TBert) (Some (MWordPiece (mkWp dash_vocab (str "[UNK]") 100 (str "##")))) (Some (DWordPiece (str "##") false)) None.
Definition dash_tokens : list added_token := [mkAt 0 (str "a-b") false false false false false; mkAt 0 (str "c-d") false false false true false].
Lemma across_same E fuel t s add : encode_across E fuel t t s add = snd (encode E fuel t s add).
Proof. unfold encode_across. destruct t as [tr pd [[a1 a2 a3 a4 a5 a6 a7]|] nm pr md dc po]; reflexivity. Qed.
Theorem C144_overlap_refuted : exists t t' s, constructed t /\ t' = fst (do_call test_env 5 t (CallAddTokens dash_tokens)) /\
  exists before during after_, snd (encode test_env 5 t s true) = Ok before /\ encode_across test_env 5 t t' s true = Ok during /\ snd (encode test_env 5 t' s true) = Ok after_ /\
  en_ids before = [0; 0; 0; 0; 0; 0]%Z /\ en_ids during = [0; 0; 0; 2]%Z /\ en_ids after_ = [1; 2]%Z.
Proof.
  destruct (finish_construction dash_tz) as [t| | |] eqn:F; try (vm_compute in F; discriminate). exists t, (fst (do_call test_env 5 t (CallAddTokens dash_tokens))), (str "a-b c-d"). split; [|split; [reflexivity|]].
  - exists dash_tz. split; [|split]; [intros a [= <-]; eexists; reflexivity | discriminate | exact F].
  - vm_compute in F. injection F as <-. eexists. eexists. eexists. split; [vm_compute; reflexivity|]. split; [vm_compute; reflexivity|]. split; [vm_compute; reflexivity|]. repeat split.
Qed.
Print Assumptions C144_overlap_refuted.

(** A case: an encode and a decode begin together, tokens are added when both are done, then the same decode again: "play" is special now and left out. *)
Example C144_case : exists t x, finish_construction hist_t0 = Ok t /\ constructed t /\ sfind [] (tz_vocab t) = None /\ leads_to test_env 10 (mkPool t [] []) x /\ Forall finished (pl_jobs x) /\
  map j_call (pl_jobs x) = [CallEncode (str "playing [CLS]") true; CallDecode [2; 3]%Z true; CallAddTokens [special "play"]; CallDecode [2; 3]%Z true] /\
  (forall j a, In j (pl_jobs x) -> j_left j = Finished a -> a = reply test_env 10 (HistSpec.after test_env 10 t (j_adds j)) (j_call j)) /\
  map j_adds (pl_jobs x) = [[]; []; []; [CallAddTokens [special "play"]]] /\
  reply test_env 10 t (CallDecode [2; 3]%Z true) = AnsText (Ok (str "playing")) /\
  reply test_env 10 (HistSpec.after test_env 10 t [CallAddTokens [special "play"]]) (CallDecode [2; 3]%Z true) = AnsText (Ok (str "##ing")).
Proof.
  destruct (finish_construction hist_t0) as [t| | |] eqn:F; try (vm_compute in F; discriminate).
  assert (Hc : constructed t) by (exists hist_t0; split; [|split]; [intros a [= <-]; eexists; reflexivity | discriminate | exact F]).
  assert (Hv : sfind [] (tz_vocab t) = None) by (vm_compute in F; injection F as <-; reflexivity).
  assert (M1 : leads_to test_env 10 (mkPool t [] []) (mkPool t [] [mkJob [] (CallEncode (str "playing [CLS]") true) (LeftEncode (encode_prog test_env 10 t (str "playing [CLS]") true)); mkJob [] (CallDecode [2; 3]%Z true) (LeftDecode [2; 3]%Z true [])])).
  { eapply lt_move; [eapply lt_move; [apply lt_here|]|]; [apply (mv_begin test_env 10 t [] [] (CallEncode (str "playing [CLS]") true)); reflexivity|]. apply (mv_begin test_env 10 t [] [mkJob [] (CallEncode (str "playing [CLS]") true) (LeftEncode (encode_prog test_env 10 t (str "playing [CLS]") true))] (CallDecode [2; 3]%Z true)). reflexivity. }
  destruct (C144_no_waiting test_env 10 (mkPool t [] [mkJob [] (CallEncode (str "playing [CLS]") true) (LeftEncode (encode_prog test_env 10 t (str "playing [CLS]") true)); mkJob [] (CallDecode [2; 3]%Z true) (LeftDecode [2; 3]%Z true [])])) as ([t1 A1 js1] & N1 & N2 & N3 & N4).
  cbn [pl_jobs pl_adds map j_adds j_call] in *. subst A1.
  assert (M2 : leads_to test_env 10 (mkPool t [] []) (mkPool t1 [] js1)) by (eapply leads_trans; eassumption).
  pose proof (lt_move _ _ _ _ _ M2 (mv_add test_env 10 t1 [] js1 (CallAddTokens [special "play"]) eq_refl N2)) as M3. cbn [app] in M3.
  pose proof (lt_move _ _ _ _ _ M3 (mv_begin test_env 10 _ _ _ (CallDecode [2; 3]%Z true) _ eq_refl)) as M4.
  destruct (C144_no_waiting test_env 10 (mkPool (fst (do_call test_env 10 t1 (CallAddTokens [special "play"]))) [CallAddTokens [special "play"]]
    ((js1 ++ [mkJob [] (CallAddTokens [special "play"]) (Finished (snd (do_call test_env 10 t1 (CallAddTokens [special "play"]))))]) ++ [mkJob [CallAddTokens [special "play"]] (CallDecode [2; 3]%Z true) (LeftDecode [2; 3]%Z true [])]))) as (y & Y1 & Y2 & Y3 & Y4).
  cbn [pl_jobs pl_adds] in *. exists t, y. pose proof (leads_trans _ _ _ _ _ M4 Y1) as M5. rewrite !map_app, N4 in Y4. cbn [map app j_adds j_call] in Y4.
  split; [reflexivity|]. split; [exact Hc|]. split; [exact Hv|]. split; [exact M5|]. split; [exact Y2|]. split; [|split; [|split; [|split]]].
  - pose proof (f_equal (map snd) Y4) as Y5. rewrite map_map in Y5. exact Y5.
  - exact (proj1 (C144_sequential_results test_env 10 t y Hc (or_intror Hv) M5)).
  - pose proof (f_equal (map fst) Y4) as Y5. rewrite map_map in Y5. exact Y5.
  - vm_compute in F. injection F as <-. vm_compute. reflexivity.
  - vm_compute in F. injection F as <-. vm_compute. reflexivity.
Qed.
