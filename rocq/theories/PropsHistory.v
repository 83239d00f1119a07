(** decode and histories of calls: C21, C67. Vocabulary: [denotes], [registered_special], [without], [constructed], [after], [reply], [adds] in HistSpec.v;
    [history], [assigned], [dense] in AvSpec.v. *)
From Verif Require Import Base BaseFacts Unicode Common Utils PostProcessor Decoder Normalizer PreTokenizer WordPiece Bpe AddedVocab Tokenizer
  AvSpec AvProofs HistSpec HistProofs Env.
From Coq Require Import ZifyBool.

(** ** C21 *)
Lemma denotes_resolve v ops av t m : dense v -> v <> [] -> history v ops av -> tz_model t = Some m -> model_vocab m = v ->
  forall i s, denotes v av i s <-> resolve t av i = Some s.
Proof.
  intros Hd Hne H Hm Hv i s. apply (history_ok v ops av Hd Hne) in H. pose proof (ho_ids _ _ _ H) as I. unfold resolve, av_id_to_token, denotes, assigned. rewrite Hm, Hv.
  destruct (zfind i (av_map_r av)) as [tok|] eqn:Ez; cbn [option_map].
  - split.
    + intros [Hs|[Hn Hs]].
      * destruct (io_back _ _ I s i Hs) as (tok' & H1 & H2). congruence.
      * destruct (io_from _ _ I i tok Ez) as [G|[G1 G2]]; [destruct (Hn _ G)|]. rewrite G1. f_equal. destruct Hd as (_ & Hd & _). apply sfind_in in G2. eapply nodup_snd_inj; eassumption.
    + intros [= <-]. destruct (io_from _ _ I i tok Ez) as [G|[G1 G2]]; [left; exact G|]. right. rewrite G1. split; [|apply sfind_in; exact G2].
      intros t' Ht'. destruct (io_back _ _ I t' i Ht') as (tok' & K1 & K2). assert (t' = []) by congruence. rewrite H0 in Ht'.
      destruct (proj1 (ho_assigned _ _ _ H []) (ex_intro _ i Ht')) as [K _]. apply K. reflexivity.
  - split.
    + intros [Hs|[_ Hs]]; [destruct (io_back _ _ I s i Hs) as (tok' & H1 & _); congruence|]. apply vocab_r_unique; [apply Hd | exact Hs].
    + intros Hs. right. split; [|apply vocab_r_in; exact Hs]. intros t' Ht'. destruct (io_back _ _ I t' i Ht') as (tok' & K1 & _). congruence.
Qed.

(** The text behind an id is unique; every id either has one or has none. *)
Theorem C21_denotes_unique : forall v ops av, dense v -> v <> [] -> history v ops av -> forall i,
  (forall s s', denotes v av i s -> denotes v av i s' -> s = s') /\ ((exists s, denotes v av i s) \/ (forall s, ~ denotes v av i s)).
Proof.
  intros v ops av Hd Hne H i. set (t := mkTz None None (Some av) None None (Some (MWordPiece (mkWp v [] 0 []))) None None).
  pose proof (denotes_resolve v ops av t _ Hd Hne H eq_refl eq_refl i) as D. split.
  - intros s s' H1 H2. apply D in H1, H2. congruence.
  - destruct (resolve t av i) as [s|] eqn:E; [left; exists s; apply D; reflexivity | right; intros s Hs; apply D in Hs; congruence].
Qed.
Print Assumptions C21_denotes_unique.

(** decode passes to the decoder exactly the texts behind the ids, in order, without the registered special tokens if asked to skip them. *)
Theorem C21_decode : forall v ops av t m d, dense v -> v <> [] -> history v ops av ->
  tz_av t = Some av -> tz_model t = Some m -> model_vocab m = v -> tz_dec t = Some d ->
  forall ids texts skip kept, Forall2 (denotes v av) ids texts -> without (fun s => skip = true /\ registered_special ops s) texts kept ->
  decode t ids skip = (out <- decode_chain d kept ;; Ok (concat out)).
Proof.
  intros v ops av t m d Hd Hne H Ha Hm Hv Hdec ids texts skip kept HF HW. unfold decode.
  pose proof (history_ok v ops av Hd Hne H) as HO.
  rewrite (decode_ids_some t av m skip Ha Hm ids texts).
  - cbn [bind]. rewrite Hdec. assert (HK : kept = filter (fun s => negb skip || negb (is_special_token av s)) texts); [|rewrite HK; reflexivity].
    apply (without_filter (fun s => skip = true /\ registered_special ops s)); [| |exact HW]; intros s;
      (assert (HS : is_special_token av s = true <-> registered_special ops s) by (unfold is_special_token; rewrite smem_in; apply (ho_special _ _ _ HO)));
      destruct skip, (is_special_token av s); cbn; split || idtac; try discriminate; try tauto; intuition congruence.
  - clear HW. induction HF as [|i s ids texts Hi _ IH]; constructor; [|exact IH]. apply (denotes_resolve v ops av t m Hd Hne H Hm Hv). exact Hi.
Qed.
Print Assumptions C21_decode.
(** An id known to neither fails the whole call with an exception. *)
Theorem C21_unknown_id : forall v ops av t m d, dense v -> v <> [] -> history v ops av ->
  tz_av t = Some av -> tz_model t = Some m -> model_vocab m = v -> tz_dec t = Some d ->
  forall ids skip, (exists i, In i ids /\ forall s, ~ denotes v av i s) -> decode t ids skip = Throw BadOptionalAccess.
Proof.
  intros v ops av t m d Hd Hne H Ha Hm Hv Hdec ids skip (i & Hi & Hno). unfold decode. rewrite (decode_ids_none t av m skip Ha Hm ids); [reflexivity|].
  apply Exists_exists. exists i. split; [exact Hi|]. destruct (resolve t av i) as [s|] eqn:E; [|reflexivity]. exfalso. apply (Hno s). apply (denotes_resolve v ops av t m Hd Hne H Hm Hv). exact E.
Qed.
Print Assumptions C21_unknown_id.
(** All the ids resolve, or the call throws: nothing in between. *)
Corollary C21_all_or_nothing : forall v ops av t m d, dense v -> v <> [] -> history v ops av ->
  tz_av t = Some av -> tz_model t = Some m -> model_vocab m = v -> tz_dec t = Some d ->
  forall ids skip, (exists texts kept, Forall2 (denotes v av) ids texts /\ without (fun s => skip = true /\ registered_special ops s) texts kept /\ decode t ids skip = (out <- decode_chain d kept ;; Ok (concat out))) \/
                   decode t ids skip = Throw BadOptionalAccess.
Proof.
  intros v ops av t m d Hd Hne H Ha Hm Hv Hdec ids skip.
  assert (HX : (exists texts, Forall2 (denotes v av) ids texts) \/ exists i, In i ids /\ forall s, ~ denotes v av i s).
  { induction ids as [|i ids IH]; [left; exists []; constructor|]. destruct (proj2 (C21_denotes_unique v ops av Hd Hne H i)) as [(s & Hs)|Hs].
    - destruct IH as [(texts & IH)|(j & J1 & J2)]; [left; exists (s :: texts); constructor; assumption | right; exists j; split; [right; exact J1 | exact J2]].
    - right. exists i. split; [left; reflexivity | exact Hs]. }
  destruct HX as [(texts & HX)|HX]; [|right; eapply C21_unknown_id; eassumption]. left.
  assert (HW : exists kept, without (fun s => skip = true /\ registered_special ops s) texts kept).
  { pose proof (history_ok v ops av Hd Hne H) as HO. clear HX. induction texts as [|s texts (k & IH)]; [exists []; constructor|].
    assert (HS : is_special_token av s = true <-> registered_special ops s) by (unfold is_special_token; rewrite smem_in; apply (ho_special _ _ _ HO)).
    destruct skip; [destruct (is_special_token av s) eqn:E|].
    - exists k. apply wo_drop; [split; [reflexivity | apply HS; reflexivity] | exact IH].
    - exists (s :: k). apply wo_keep; [|exact IH]. intros [_ G]. apply HS in G. discriminate.
    - exists (s :: k). apply wo_keep; [|exact IH]. intros [G _]. discriminate. }
  destruct HW as (kept & HW). exists texts, kept. split; [exact HX|]. split; [exact HW|]. eapply C21_decode; eassumption.
Qed.
Print Assumptions C21_all_or_nothing.

(** A tokenizer with two special tokens, one of them outside the model. *)
Definition hist_vocab : smap Z := [(str "[UNK]", 0); (str "[CLS]", 1); (str "play", 2); (str "##ing", 3)]%Z.
Definition special (s : String.string) : added_token := mkAt 0 (str s) false false false false true.
Definition hist_ops : list added_token := [special "[CLS]"; special "[MASK]"].
Definition hist_t0 : tokenizer :=
  mkTz None None (Some (new_added_vocab hist_ops)) None (Some TBert) (Some (MWordPiece (mkWp hist_vocab (str "[UNK]") 100 (str "##")))) (Some (DWordPiece (str "##") false)) None.
Lemma hist_dense : dense hist_vocab.
Proof.
  split; [|split].
  - repeat constructor; cbn; intuition discriminate.
  - repeat constructor; cbn; intuition lia.
  - repeat constructor; cbn; lia.
Qed.
Example C21_case : exists t av, finish_construction hist_t0 = Ok t /\ tz_av t = Some av /\ history hist_vocab hist_ops av /\
  denotes hist_vocab av 1 (str "[CLS]") /\ denotes hist_vocab av 4 (str "[MASK]") /\ denotes hist_vocab av 3 (str "##ing") /\
  decode t [1; 2; 3; 4]%Z true = Ok (str "playing") /\ decode t [1; 2; 3; 4]%Z false = Ok (str "[CLS] playing [MASK]") /\ decode t [2; 9]%Z false = Throw BadOptionalAccess.
Proof.
  destruct (av_add_tokens true (new_added_vocab hist_ops) (Some hist_vocab) hist_ops) as [[av n]| | |] eqn:E; try (vm_compute in E; discriminate).
  assert (HH : history hist_vocab hist_ops av) by (eapply h_new; exact E).
  exists (set_av hist_t0 (Some av)), av. split.
  { unfold finish_construction, add_tokens. change (tz_av hist_t0) with (Some (new_added_vocab hist_ops)). cbv beta iota. change (option_map model_vocab (tz_model hist_t0)) with (Some hist_vocab).
    change (av_added (new_added_vocab hist_ops)) with hist_ops. rewrite E. reflexivity. }
  split; [reflexivity|]. split; [exact HH|]. vm_compute in E. injection E as <- <-.
  split; [left; reflexivity|]. split; [left; reflexivity|]. split.
  - right. split; [|vm_compute; tauto]. intros t. cbn [assigned sfind av_map]. unfold assigned. cbn [av_map sfind]. destruct (leqb _ _); [discriminate|]. destruct (leqb _ _); discriminate.
  - split; [vm_compute; reflexivity|]. split; vm_compute; reflexivity.
Qed.

(** ** C67 *)
(** Whatever was encoded and decoded before, the answer to a call is the one given after only the additions. (This includes BPE
    with dropout: model.cpp:239 constructs a fresh default-seeded engine for every word, so the draws are the same in every call. The
    condition on the vocabulary is harmless: no duplicate ids, or no empty token.) *)
Theorem C67_history_independent : forall E fuel t h c, constructed t ->
  NoDup (map snd (tz_vocab t)) \/ sfind [] (tz_vocab t) = None ->
  reply E fuel (after E fuel t h) c = reply E fuel (after E fuel t (filter adds h)) c.
Proof.
  intros E fuel t h c Hc Hv. assert (Hn : nodup_ids t).
  { intros w Hw. unfold tz_vocab in Hv. destruct (tz_model t) as [m|]; [|discriminate]. injection Hw as <-. exact Hv. }
  pose proof (constructed_alike E t Hc) as HA.
  apply do_call_alike; [|apply after_alike; assumption]. apply (alike_nodup E (after E fuel t (filter adds h))); [apply alike_sym, after_alike; assumption|].
  assert (HN : forall l u, nodup_ids u -> alike E u u -> nodup_ids (after E fuel u l)).
  { induction l as [|x l IH]; intros u H1 H2; [exact H1|]. unfold after. cbn [fold_left]. apply IH; [apply do_call_nodup; assumption|]. apply (proj2 (do_call_alike E fuel u u x H1 H2)). }
  apply HN; assumption.
Qed.
Print Assumptions C67_history_independent.
(** In particular, encoding the same text twice gives the same result, as does encoding after any encodings and decodings. *)
Corollary C67_encode_repeatable : forall E fuel t h s add, constructed t ->
  NoDup (map snd (tz_vocab t)) \/ sfind [] (tz_vocab t) = None -> Forall (fun c => adds c = false) h ->
  snd (encode E fuel (after E fuel t h) s add) = snd (encode E fuel t s add).
Proof.
  intros E fuel t h s add Hc Hv Hh. pose proof (C67_history_independent E fuel t h (CallEncode s add) Hc Hv) as H.
  assert (HF : filter adds h = []) by (clear H; induction Hh as [|x l Hx _ IH]; [reflexivity | cbn [filter]; rewrite Hx; exact IH]). rewrite HF in H. unfold reply in H. cbn [after fold_left do_call] in H.
  destruct (encode E fuel (after E fuel t h) s add), (encode E fuel t s add). cbn [snd] in *. congruence.
Qed.
Print Assumptions C67_encode_repeatable.
Example C67_case : exists t, finish_construction hist_t0 = Ok t /\ constructed t /\ NoDup (map snd (tz_vocab t)) /\
  let h := [CallEncode (str "playing [CLS]") true; CallAddTokens [special "play"]; CallDecode [3; 3]%Z true; CallEncode (str "played") true] in
  filter adds h = [CallAddTokens [special "play"]] /\
  exists e, reply test_env 10 (after test_env 10 t h) (CallEncode (str "play [CLS] playing") true) = AnsEncoding (Ok e) /\ en_ids e = [2; 1; 2; 0]%Z.
Proof.
  destruct (finish_construction hist_t0) as [t| | |] eqn:E; try (vm_compute in E; discriminate). exists t. split; [reflexivity|]. split; [|split].
  - exists hist_t0. split; [|split]; [intros a [= <-]; eexists; reflexivity | discriminate | exact E].
  - vm_compute in E. injection E as <-. exact (proj1 (proj2 hist_dense)).
  - vm_compute in E. injection E as <-. split; [reflexivity|]. eexists. split; vm_compute; reflexivity.
Qed.
