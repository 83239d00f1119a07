(** C92: nothing depends on the iteration order of the hash tables. Vocabulary: [one_to_one], [reordered] in OrderSpec.v; [after], [reply] in HistSpec.v. *)
From Verif Require Import Base BaseFacts Unicode Common Utils PostProcessor Decoder Normalizer PreTokenizer WordPiece Bpe AddedVocab Tokenizer
  AvSpec AvProofs HistSpec HistProofs OrderSpec PropsHistory Env.
From Coq Require Import Permutation ZifyBool.

(** ** Lookups in permuted tables *)
Record same_dict (v v' : smap Z) : Prop := { sd_find : forall k, sfind k v = sfind k v'; sd_back : forall i, model_id_to_token v i = model_id_to_token v' i; sd_size : length v = length v' }.
Lemma sfind_complete {V} (m : smap V) k x : NoDup (map fst m) -> In (k, x) m -> sfind k m = Some x.
Proof.
  induction m as [|[k' x'] m IH]; intros Hn Hi; [destruct Hi|]. cbn in Hn. inversion Hn as [|? ? Hk Hn']; subst. cbn [sfind]. destruct (leqb_spec k k') as [->|Hne].
  - destruct Hi as [[= ->]|Hi]; [reflexivity|]. exfalso. apply Hk. apply in_map_iff. exists (k', x). auto.
  - destruct Hi as [[= -> ->]|Hi]; [congruence | apply IH; assumption].
Qed.
Lemma sfind_perm {V} (m m' : smap V) k : NoDup (map fst m) -> Permutation m m' -> sfind k m = sfind k m'.
Proof.
  intros Hn Hp. assert (Hn' : NoDup (map fst m')) by (eapply Permutation_NoDup; [apply Permutation_map; exact Hp | exact Hn]).
  destruct (sfind k m) as [x|] eqn:E.
  - symmetry. apply sfind_complete; [exact Hn'|]. eapply Permutation_in; [exact Hp|]. apply sfind_in. exact E.
  - destruct (sfind k m') as [x|] eqn:E'; [|reflexivity]. apply sfind_in in E'. apply (Permutation_in _ (Permutation_sym Hp)) in E'. rewrite (sfind_complete _ _ _ Hn E') in E. discriminate.
Qed.
Lemma permuted_dict v v' : one_to_one v -> Permutation v v' -> same_dict v v'.
Proof.
  intros [H1 H2] Hp. constructor; [intros k; apply sfind_perm; assumption | | apply Permutation_length; exact Hp].
  assert (H2' : NoDup (map snd v')) by (eapply Permutation_NoDup; [apply Permutation_map; exact Hp | exact H2]).
  intros i. destruct (model_id_to_token v i) as [t|] eqn:E.
  - symmetry. apply vocab_r_unique; [exact H2'|]. eapply Permutation_in; [exact Hp|]. apply vocab_r_in. exact E.
  - destruct (model_id_to_token v' i) as [t|] eqn:E'; [|reflexivity]. apply vocab_r_in in E'. apply (Permutation_in _ (Permutation_sym Hp)) in E'. rewrite (vocab_r_unique _ _ _ H2 E') in E. discriminate.
Qed.
Lemma one_to_one_perm v v' : Permutation v v' -> one_to_one v -> one_to_one v'.
Proof. intros Hp [H1 H2]. split; (eapply Permutation_NoDup; [apply Permutation_map; exact Hp|]); assumption. Qed.

(** ** The models *)
Lemma wp_longest_dict w w' : (forall k, sfind k (wp_vocab w) = sfind k (wp_vocab w')) -> wp_prefix w = wp_prefix w' -> forall u start k, wp_longest w u start k = wp_longest w' u start k.
Proof.
  intros Hd Hp u start. assert (HC : forall k, wp_candidate w u start k = wp_candidate w' u start k) by (intros k; unfold wp_candidate; rewrite Hp; reflexivity).
  induction k as [|k IH]; [reflexivity|]. cbn [wp_longest]. rewrite HC, Hd, IH. reflexivity.
Qed.
Lemma wp_loop_dict w w' : (forall k, sfind k (wp_vocab w) = sfind k (wp_vocab w')) -> wp_prefix w = wp_prefix w' -> forall u fuel start, wp_loop fuel w u start = wp_loop fuel w' u start.
Proof.
  intros Hd Hp u. induction fuel as [|f IH]; intros start; [reflexivity|]. cbn [wp_loop]. rewrite (wp_longest_dict w w' Hd Hp). destruct (start <? length u); [|reflexivity].
  destruct (wp_longest w' u start (length u - start)) as [[i k]|]; [|reflexivity]. rewrite IH. unfold wp_candidate. rewrite Hp. reflexivity.
Qed.
Lemma mapM_ext {A B} (f g : A -> res B) l : (forall x, f x = g x) -> mapM f l = mapM g l.
Proof. intros H. induction l as [|x l IH]; [reflexivity|]. cbn [mapM]. rewrite H, IH. reflexivity. Qed.
Lemma wp_dict w w' p : same_dict (wp_vocab w) (wp_vocab w') -> wp_unk w = wp_unk w' -> wp_max w = wp_max w' -> wp_prefix w = wp_prefix w' -> wp_tokenize w p = wp_tokenize w' p.
Proof.
  intros [Hd _ _] Hu Hm Hp. unfold wp_tokenize. rewrite (mapM_ext _ (fun s => ts <- wp_word w' (sp_text s) ;; Ok (mkSplit (sp_text s) (sp_off s) ts))); [reflexivity|]. intros s.
  assert (HU : forall n, wp_unk_token w n = wp_unk_token w' n) by (intros n; unfold wp_unk_token; rewrite Hu, Hd; reflexivity).
  unfold wp_word. cbv zeta. rewrite Hm, (wp_loop_dict w w' Hd Hp), HU. reflexivity.
Qed.

Definition with_vocab (b : bpe) (v : smap Z) : bpe := mkBpe v (b_merges b) (b_dropout b) (b_unk b) (b_prefix b) (b_suffix b) (b_fuse_unk b) (b_byte_fallback b) (b_ignore_merges b).
Lemma symbols_dict b v : (forall k, sfind k (b_vocab b) = sfind k v) -> forall l first w unk, bpe_symbols b first l w unk = bpe_symbols (with_vocab b v) first l w unk.
Proof.
  intros Hd. induction l as [|x l IH]; intros first w unk; [reflexivity|]. cbn [bpe_symbols with_vocab b_vocab b_merges b_dropout b_unk b_prefix b_suffix b_fuse_unk b_byte_fallback b_ignore_merges].
  cbv zeta. change (bpe_piece (with_vocab b v) x first (is_nil l)) with (bpe_piece b x first (is_nil l)). rewrite <- !Hd.
  destruct (sfind (bpe_piece b x first (is_nil l)) (b_vocab b)); [apply IH|].
  assert (HF : flat_map (fun y => match sfind (fallback_key y) (b_vocab b) with Some i => [i] | None => [] end) (bpe_piece b x first (is_nil l)) = flat_map (fun y => match sfind (fallback_key y) v with Some i => [i] | None => [] end) (bpe_piece b x first (is_nil l))).
  { apply flat_map_ext. intros y. rewrite Hd. reflexivity. }
  rewrite HF. destruct (if b_byte_fallback b then _ else []); [|apply IH]. destruct (is_nil (b_unk b)); [apply IH|]. destruct unk as [[u n]|]; [destruct (b_fuse_unk b); apply IH | apply IH].
Qed.
Lemma to_tokens_dict v v' : (forall i, model_id_to_token v i = model_id_to_token v' i) -> forall w pos, word_to_tokens v pos w = word_to_tokens v' pos w.
Proof. intros H. induction w as [|s w IH]; intros pos; [reflexivity|]. cbn [word_to_tokens]. rewrite H, IH. reflexivity. Qed.
Lemma bpe_word_dict E b v c s : same_dict (b_vocab b) v -> bpe_word E b c s = bpe_word E (with_vocab b v) c s.
Proof.
  intros [H1 H2 _]. unfold bpe_word, tokenize_with_cache, merge_word, initial_symbols.
  cbn [with_vocab b_vocab b_merges b_dropout b_unk b_prefix b_suffix b_fuse_unk b_byte_fallback b_ignore_merges]. rewrite (symbols_dict b v H1).
  change (mkBpe v (b_merges b) (b_dropout b) (b_unk b) (b_prefix b) (b_suffix b) (b_fuse_unk b) (b_byte_fallback b) (b_ignore_merges b)) with (with_vocab b v).
  rewrite <- !H1. destruct (QArith_base.Qeq_bool _ _).
  - destruct (if b_ignore_merges b then _ else None); [reflexivity|]. destruct (sfind s c) as [w|]; [rewrite (to_tokens_dict _ _ H2); reflexivity|].
    destruct (merge_all E _ _ _) as [w| | |]; try reflexivity. rewrite (to_tokens_dict _ _ H2). reflexivity.
  - destruct (merge_all E _ _ _) as [w| | |]; cbn [bind]; try reflexivity. rewrite (to_tokens_dict _ _ H2). reflexivity.
Qed.
Lemma bpe_dict E b v c p : same_dict (b_vocab b) v -> bpe_tokenize E b c p = bpe_tokenize E (with_vocab b v) c p.
Proof.
  intros H. assert (HS : forall l c, bpe_splits E b c l = bpe_splits E (with_vocab b v) c l).
  { induction l as [|s l IH]; intros c0; [reflexivity|]. cbn [bpe_splits]. rewrite (bpe_word_dict E b v c0 (sp_text s) H). destruct (bpe_word E (with_vocab b v) c0 (sp_text s)) as [c1 [ts| | |]]; try reflexivity. rewrite IH. reflexivity. }
  unfold bpe_tokenize. rewrite HS. reflexivity.
Qed.

(** ** Added tokens *)
Lemma known_dict v v' n l : (forall k, sfind k v = sfind k v') -> known_tokens v n l = known_tokens v' n l.
Proof. intros H. induction l as [|t l IH]; [reflexivity|]. cbn [known_tokens]. unfold token_to_id. rewrite H, IH. reflexivity. Qed.
Lemma add_dict alias a v v' l : same_dict v v' -> av_add_tokens alias a (Some v) l = av_add_tokens alias a (Some v') l.
Proof.
  intros [H1 _ H3]. unfold av_add_tokens. cbv zeta.
  assert (HC : forall a t, choose_id a (Some v) t = choose_id a (Some v') t) by (intros a0 t; unfold choose_id, token_to_id, vocab_size; rewrite H1, H3; reflexivity).
  assert (HA : forall l a, assign_ids alias a (Some v) l = assign_ids alias a (Some v') l).
  { induction l0 as [|t l0 IH]; intros a0; [reflexivity|]. cbn [assign_ids]. destruct (is_nil (at_content t)); [apply IH|]. rewrite HC. destruct (choose_id a0 (Some v') (at_content t)); cbn [bind]; try reflexivity. cbv zeta. rewrite !IH. reflexivity. }
  rewrite HA. destruct (assign_ids alias _ (Some v') l); cbn [bind]; try reflexivity. unfold refresh_added_tokens. rewrite !(known_dict v v') by exact H1. reflexivity.
Qed.

(** ** Tokenizers *)
Lemma reordered_dict m m' : reordered_model m m' -> one_to_one (model_vocab m) -> same_dict (model_vocab m) (model_vocab m').
Proof. destruct m as [w|b c], m' as [w'|b' c']; cbn [reordered_model model_vocab]; try contradiction; intros [H _] Ho; apply permuted_dict; assumption. Qed.
Lemma tokenize_reordered E m m' p : reordered_model m m' -> one_to_one (model_vocab m) ->
  snd (model_tokenize E m p) = snd (model_tokenize E m' p) /\ reordered_model (fst (model_tokenize E m p)) (fst (model_tokenize E m' p)) /\ model_vocab (fst (model_tokenize E m p)) = model_vocab m.
Proof.
  intros H Ho. pose proof (reordered_dict _ _ H Ho) as HD. destruct m as [w|b c], m' as [w'|b' c']; cbn [reordered_model model_vocab] in *; try contradiction.
  - destruct H as (H1 & H2 & H3 & H4). cbn [model_tokenize fst snd]. split; [apply wp_dict; assumption|]. split; [repeat split; assumption | reflexivity].
  - destruct H as (H1 & H2 & <-). cbn [model_tokenize]. assert (Hb : b' = with_vocab b (b_vocab b')) by exact H2. pose proof (bpe_dict E b (b_vocab b') c p HD) as HB. rewrite <- Hb in HB. rewrite <- HB.
    destruct (bpe_tokenize E b c p) as [c1 r1]. cbn [fst snd]. split; [reflexivity|]. split; [|reflexivity]. split; [exact H1|]. split; [exact H2 | reflexivity].
Qed.

Lemma prepare_model E t m s : prepare E (set_model t m) s = prepare E t s.
Proof. reflexivity. Qed.
Lemma encode_reordered E fuel t t' s b : reordered t t' -> snd (encode E fuel t s b) = snd (encode E fuel t' s b) /\ reordered (fst (encode E fuel t s b)) (fst (encode E fuel t' s b)).
Proof.
  intros [H1 H2]. rewrite H1. assert (HR : forall a, reordered (set_av t a) (set_av (set_model t (tz_model t')) a)) by (intros a; split; [reflexivity | exact H2]).
  unfold encode. rewrite prepare_model. destruct (prepare E t s) as [[a p]| | |]; try (split; [reflexivity | apply HR]). cbv zeta. cbn [tz_model set_av set_model].
  destruct (tz_model t) as [m|] eqn:Em, (tz_model t') as [m'|] eqn:Em'; try contradiction.
  - destruct H2 as [H2 H3]. destruct (tokenize_reordered E m m' p H2 H3) as (T1 & T2 & T3). destruct (model_tokenize E m p) as [n r]. destruct (model_tokenize E m' p) as [n' r']. cbn [fst snd] in *. subst r'.
    split; [reflexivity|]. split; [reflexivity|]. cbn. split; [exact T2 | rewrite T3; exact H3].
  - split; [reflexivity|]. split; [reflexivity|]. cbn. rewrite Em. exact I.
Qed.
Lemma decode_reordered t t' ids b : reordered t t' -> decode t ids b = decode t' ids b.
Proof.
  intros [H1 H2]. rewrite H1. unfold decode. cbn [tz_dec set_model]. assert (HD : decode_ids t b ids = decode_ids (set_model t (tz_model t')) b ids); [|rewrite HD; reflexivity].
  induction ids as [|i ids IH]; [reflexivity|]. cbn [decode_ids]. cbn [set_model tz_av tz_model]. rewrite IH. destruct (tz_av t); [|reflexivity]. destruct (av_id_to_token _ i); [reflexivity|].
  destruct (tz_model t) as [m|], (tz_model t') as [m'|]; try contradiction; [|reflexivity]. destruct H2 as [H2 H3]. rewrite (sd_back _ _ (reordered_dict _ _ H2 H3)). reflexivity.
Qed.
Lemma add_reordered t t' l : reordered t t' -> snd (adding t (add_tokens false t l)) = snd (adding t' (add_tokens false t' l)) /\ reordered (fst (adding t (add_tokens false t l))) (fst (adding t' (add_tokens false t' l))).
Proof.
  intros H. pose proof H as [H1 H2]. unfold add_tokens. assert (Ea : tz_av t' = tz_av t) by (rewrite H1; reflexivity). rewrite !Ea.
  assert (HV : forall a, av_add_tokens false a (option_map model_vocab (tz_model t)) l = av_add_tokens false a (option_map model_vocab (tz_model t')) l).
  { intros a. destruct (tz_model t) as [m|], (tz_model t') as [m'|]; try contradiction; [|reflexivity]. destruct H2 as [H2 H3]. apply add_dict. apply reordered_dict; assumption. }
  destruct (tz_av t) as [a|]; [|split; [reflexivity | exact H]]. rewrite <- HV. destruct (av_add_tokens false a _ l) as [[a' n]| | |]; cbn [bind adding fst snd]; (split; [reflexivity|]); try exact H.
  split; [rewrite H1; reflexivity | exact H2].
Qed.
Lemma call_reordered E fuel t t' c : reordered t t' -> reply E fuel t c = reply E fuel t' c /\ reordered (fst (do_call E fuel t c)) (fst (do_call E fuel t' c)).
Proof.
  intros H. unfold reply. destruct c as [s b|ids b|l|l]; cbn [do_call].
  - destruct (encode_reordered E fuel t t' s b H) as [H1 H2]. destruct (encode E fuel t s b), (encode E fuel t' s b). cbn [fst snd] in *. split; [congruence | exact H2].
  - cbn [fst snd]. split; [f_equal; apply decode_reordered; exact H | exact H].
  - apply add_reordered. exact H.
  - apply add_reordered. exact H.
Qed.
Lemma after_reordered E fuel h : forall t t', reordered t t' -> reordered (after E fuel t h) (after E fuel t' h).
Proof. induction h as [|c h IH]; intros t t' H; [exact H|]. unfold after. cbn [fold_left]. apply IH. apply call_reordered. exact H. Qed.

(** Whatever calls were made before, the next call has the same answer. *)
Theorem C92_order : forall E fuel t t' h c, reordered t t' -> reply E fuel (after E fuel t h) c = reply E fuel (after E fuel t' h) c.
Proof. intros E fuel t t' h c H. apply call_reordered. apply after_reordered. exact H. Qed.
Print Assumptions C92_order.

(** The constructors: the same configuration with the vocabulary in another order gives such a pair - the BPE merge table comes out the same, an
    exception is the same exception - and the added tokens get the same ids. *)
Theorem C92_new_bpe : forall v v' merges d u p s f bf ig, one_to_one v -> Permutation v v' ->
  match new_bpe v merges d u p s f bf ig, new_bpe v' merges d u p s f bf ig with
  | Ok b, Ok b' => reordered_model (MBpe b []) (MBpe b' []) /\ b_vocab b = v /\ b_vocab b' = v'
  | Throw e, Throw e' => e = e'
  | _, _ => False
  end.
Proof.
  intros v v' merges d u p s f bf ig Ho Hp. pose proof (permuted_dict _ _ Ho Hp) as [Hd _ _].
  assert (HB : forall l i m, build_merges v (length p) i l m = build_merges v' (length p) i l m).
  { induction l as [|r l IH]; intros i m; [reflexivity|]. cbn [build_merges]. destruct (two_fields r) as [[p1 p2]|]; [|cbn [bind]; apply IH]. rewrite !Hd. destruct (sfind p1 v'), (sfind p2 v'); try (cbn [bind]; apply IH).
    destruct (_ <? _); [reflexivity|]. destruct (sfind _ v'); cbn [bind]; apply IH. }
  assert (HT : forall l i m, match build_merges v' (length p) i l m with Ok _ | Throw _ => True | _ => False end).
  { induction l as [|r l IH]; intros i m; [exact I|]. cbn [build_merges]. destruct (two_fields r) as [[p1 p2]|]; [|cbn [bind]; apply IH]. destruct (sfind p1 v'), (sfind p2 v'); try (cbn [bind]; apply IH).
    destruct (_ <? _); [exact I|]. destruct (sfind _ v'); cbn [bind]; apply IH. }
  unfold new_bpe. rewrite HB. specialize (HT merges 0%Z []). destruct (build_merges v' (length p) 0 merges []); cbn [bind]; try contradiction; [|reflexivity].
  split; [|split; reflexivity]. split; [exact Hp|]. split; reflexivity.
Qed.
Print Assumptions C92_new_bpe.
Theorem C92_construct : forall t t', reordered t t' ->
  match finish_construction t, finish_construction t' with
  | Ok u, Ok u' => reordered u u'
  | Throw e, Throw e' => e = e'
  | Undef x, Undef x' => x = x'
  | Diverge, Diverge => True
  | _, _ => False
  end.
Proof.
  intros t t' H. pose proof H as [H1 H2]. unfold finish_construction, add_tokens. assert (Ea : tz_av t' = tz_av t) by (rewrite H1; reflexivity). rewrite !Ea. destruct (tz_av t) as [a|]; [|exact H].
  assert (HV : av_add_tokens true a (option_map model_vocab (tz_model t)) (av_added a) = av_add_tokens true a (option_map model_vocab (tz_model t')) (av_added a)).
  { destruct (tz_model t) as [m|], (tz_model t') as [m'|]; try contradiction; [|reflexivity]. destruct H2 as [H2 H3]. apply add_dict. apply reordered_dict; assumption. }
  rewrite <- HV. destruct (av_add_tokens true a _ (av_added a)) as [[a' n]| | |]; cbn [bind]; try reflexivity; try exact I.
  split; [rewrite H1; reflexivity | exact H2].
Qed.
Print Assumptions C92_construct.

(** The same for the table of added tokens: the id given to the next token does not depend on the order in which the table is scanned. *)
Theorem C92_added_order : forall a m vocab tok, NoDup (map fst (av_map a)) -> Permutation (av_map a) m ->
  choose_id (mkAv (av_added a) (av_specials a) (av_special_set a) m (av_map_r a) (av_trie_norm a) (av_trie_raw a)) vocab tok = choose_id a vocab tok.
Proof.
  intros a m vocab tok Hn Hp. unfold choose_id. cbn [av_map]. rewrite <- (sfind_perm _ _ tok Hn Hp).
  assert (HM : max_value m = max_value (av_map a)); [|rewrite HM; reflexivity].
  clear Hn. induction Hp as [|[k x] l l' Hp IH|[k x] [k' x'] l|l l' l'' Hp1 IH1 Hp2 IH2]; [reflexivity | cbn [max_value]; rewrite IH; reflexivity | | rewrite IH2; exact IH1].
  cbn [max_value]. destruct (max_value l); f_equal; lia.
Qed.
Print Assumptions C92_added_order.

Example C92_case : exists t t', finish_construction hist_t0 = Ok t /\
  finish_construction (set_model hist_t0 (Some (MWordPiece (mkWp (rev hist_vocab) (str "[UNK]") 100 (str "##"))))) = Ok t' /\ t <> t' /\ reordered t t' /\
  reply test_env 10 (after test_env 10 t' [CallAddTokens [special "play"]]) (CallEncode (str "playing [CLS]") true) = reply test_env 10 (after test_env 10 t [CallAddTokens [special "play"]]) (CallEncode (str "playing [CLS]") true).
Proof.
  assert (HR : reordered hist_t0 (set_model hist_t0 (Some (MWordPiece (mkWp (rev hist_vocab) (str "[UNK]") 100 (str "##")))))).
  { split; [reflexivity|]. cbn. split; [|split; apply hist_dense]. split; [|repeat split]. apply (Permutation_rev hist_vocab). }
  pose proof (C92_construct _ _ HR) as HC. destruct (finish_construction hist_t0) as [t| | |] eqn:E; try (vm_compute in E; discriminate).
  destruct (finish_construction (set_model _ _)) as [t'| | |] eqn:E'; try (vm_compute in E'; discriminate). exists t, t'. split; [reflexivity|]. split; [reflexivity|].
  split; [|split; [exact HC | symmetry; apply C92_order; exact HC]]. intros G. vm_compute in E, E'. rewrite <- G in E'. injection E as <-. discriminate.
Qed.

(** Unique ids are needed: with two tokens of one id, which of them decode returns depends on the iteration order. *)
Theorem C92_duplicate_ids_boundary : exists v v' t t' a b, Permutation v v' /\ NoDup (map fst v) /\
  tz_model t = Some (MWordPiece (mkWp v [] 10 [])) /\ t' = set_model t (Some (MWordPiece (mkWp v' [] 10 []))) /\
  decode t [0]%Z false = Ok a /\ decode t' [0]%Z false = Ok b /\ a <> b.
Proof.
  exists [(str "a", 0%Z); (str "b", 0%Z)], [(str "b", 0%Z); (str "a", 0%Z)].
  exists (mkTz None None (Some (new_added_vocab [])) None None (Some (MWordPiece (mkWp [(str "a", 0%Z); (str "b", 0%Z)] [] 10 []))) (Some (DWordPiece [] false)) None).
  eexists. exists (str "b"), (str "a"). split; [apply perm_swap|]. split; [repeat constructor; cbn; intuition discriminate|]. split; [reflexivity|]. split; [reflexivity|]. split; [vm_compute; reflexivity|]. split; [vm_compute; reflexivity | discriminate].
Qed.
Print Assumptions C92_duplicate_ids_boundary.
