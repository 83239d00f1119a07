(** Added tokens: C38-C46. *)
From Verif Require Import Base BaseFacts Unicode UnicodeProofs Common Normalizer PreTokenizer WordPiece Bpe AddedVocab Decoder Tokenizer NormSpec NormProofs PreSpec PreProofs
  WpSpec WpProofs BpeSpec PropsBpe AvSpec AvProofs Env.
From Coq Require Import ZifyBool.

(** ** C38 *)
(** After any history, on a model whose ids are 0..size-1 with size > 0: every token given (with a non-empty content) has an id; a token
    of the model has the model's id, any other one an id outside the model; different tokens have different ids. *)
Theorem C38_ids : forall v ops av, dense v -> v <> [] -> history v ops av ->
  (forall tok, In tok ops -> at_content tok <> [] -> exists i, assigned av (at_content tok) = Some i) /\
  (forall t i, assigned av t = Some i -> match sfind t v with Some j => i = j | None => forall t' j, sfind t' v = Some j -> i <> j end) /\
  (forall t1 t2 i, assigned av t1 = Some i -> assigned av t2 = Some i -> t1 = t2).
Proof.
  intros v ops av Hd Hne H. apply (history_ok v ops av Hd Hne) in H. pose proof (ho_ids _ _ _ H) as I. split; [|split].
  - intros tok Ht Hn. apply (ho_assigned _ _ _ H). split; [exact Hn | apply in_map; exact Ht].
  - intros t i Ht. pose proof (io_model _ _ I t i Ht) as Hm. destruct (sfind t v); [exact Hm|]. intros t' j Hj ->. pose proof (dense_range _ _ _ Hd Hj). lia.
  - exact (io_inj _ _ I).
Qed.
Print Assumptions C38_ids.

(** Further additions always succeed and never change an id; neither does encoding. *)
Theorem C38_stable : forall v ops av, dense v -> v <> [] -> history v ops av ->
  (forall l, exists av' n, av_add_tokens false av (Some v) l = Ok (av', n) /\ forall t i, assigned av t = Some i -> assigned av' t = Some i) /\
  (forall E norm s m p, extract_and_normalize E av norm s = Ok (m, p) ->
     forall t i, assigned av t = Some i -> zfind i m = zfind i (av_map_r av)).
Proof.
  intros v ops av Hd Hne H. pose proof (history_ok v ops av Hd Hne H) as HO. split.
  - intros l. destruct (add_tokens_ok v av l false Hd Hne (ho_ids _ _ _ HO)) as (av' & H1 & _ & H2 & _); [discriminate|]. exists av'. eexists. split; [exact H1 | exact H2].
  - intros E norm s m p He t i Ht. destruct (io_back _ _ (ho_ids _ _ _ HO) t i Ht) as (tok & H1 & _). rewrite H1. apply (gr_keep _ _ _ (extract_grow _ _ _ _ _ _ He)). exact H1.
Qed.
Print Assumptions C38_stable.

(** The case size = 0 is excluded for a reason: the first token added to an empty model dereferences end(). *)
Theorem C38_empty_model_refuted : forall tok l, at_content tok <> [] -> av_add_tokens false (new_added_vocab []) (Some []) (tok :: l) = Undef DerefEnd.
Proof.
  intros tok l Hn. unfold av_add_tokens. cbv zeta. pose proof (register_ok (tok :: l) (new_added_vocab [])) as HR. cbv zeta in HR. destruct HR as (_ & A2 & _).
  cbn [assign_ids]. apply is_nil_false in Hn. rewrite Hn. unfold choose_id. rewrite A2. reflexivity.
Qed.
Print Assumptions C38_empty_model_refuted.

Definition tok (s : String.string) (special : bool) : added_token := mkAt 0 (str s) false false false false special.
Definition small_vocab : smap Z := [(str "[UNK]", 0); (str "hello", 1); (str "[CLS]", 2)]%Z.
Lemma small_dense : dense small_vocab.
Proof.
  split; [|split].
  - repeat constructor; cbn; intuition discriminate.
  - repeat constructor; cbn; intuition lia.
  - repeat constructor; cbn; lia.
Qed.
Definition small_result := av_add_tokens true (new_added_vocab [tok "[CLS]" true]) (Some small_vocab) [tok "[CLS]" true].
Example C38_case : exists av n, small_result = Ok (av, n) /\ history small_vocab [tok "[CLS]" true] av /\
  exists av', av_add_tokens false av (Some small_vocab) [tok "new" false; tok "[MASK]" true; tok "new" false] = Ok (av', 3%Z) /\
  assigned av' (str "[CLS]") = Some 2%Z /\ assigned av' (str "new") = Some 3%Z /\ assigned av' (str "[MASK]") = Some 4%Z.
Proof.
  destruct small_result as [[av n]| | |] eqn:E; try (vm_compute in E; discriminate). exists av, n. split; [reflexivity|].
  split; [eapply h_new; exact E|]. vm_compute in E. injection E as <- <-. eexists. split; [vm_compute; reflexivity|]. vm_compute. auto.
Qed.

(** ** C39 *)
(** Decoding the id assigned to an added token looks up exactly its content: the decoder is run on that one text. *)
Theorem C39_added_ids_decode : forall v ops av, dense v -> v <> [] -> history v ops av -> forall content i, assigned av content = Some i ->
  forall t d, tz_av t = Some av -> tz_dec t = Some d -> decode t [i] false = (out <- decode_chain d [content] ;; Ok (concat out)).
Proof.
  intros v ops av Hd Hne H content i Hi t d Ht Hdec. apply (history_ok v ops av Hd Hne) in H. destruct (io_back _ _ (ho_ids _ _ _ H) content i Hi) as (tk & H1 & H2).
  unfold decode. cbn [decode_ids]. rewrite Ht. unfold av_id_to_token. rewrite H1. cbn [option_map bind negb orb]. rewrite Hdec, H2. reflexivity.
Qed.
Print Assumptions C39_added_ids_decode.
(** With the WordPiece decoder without clean-up the text comes back unchanged. *)
Theorem C39_added_ids_decode_text : forall v ops av, dense v -> v <> [] -> history v ops av -> forall content i, assigned av content = Some i ->
  forall t prefix, tz_av t = Some av -> tz_dec t = Some (DWordPiece prefix false) -> decode t [i] false = Ok content.
Proof.
  intros v ops av Hd Hne H content i Hi t prefix Ht Hdec. rewrite (C39_added_ids_decode v ops av Hd Hne H content i Hi t _ Ht Hdec). cbn. rewrite app_nil_r. reflexivity.
Qed.
Print Assumptions C39_added_ids_decode_text.

(** ** C40 *)
Theorem C40_count : forall v ops av l, dense v -> v <> [] -> history v ops av -> exists av',
  av_add_tokens false av (Some v) l = Ok (av', Z.of_nat (length (filter (fun t => negb (is_nil (at_content t))) l))).
Proof.
  intros v ops av l Hd Hne H. pose proof (history_ok v ops av Hd Hne H) as HO. destruct (add_tokens_ok v av l false Hd Hne (ho_ids _ _ _ HO)) as (av' & H1 & _); [discriminate|].
  exists av'. rewrite H1. do 2 f_equal. clear. induction l as [|t l IH]; [reflexivity|]. cbn [length filter]. destruct (is_nil (at_content t)); cbn [negb length]; lia.
Qed.
Print Assumptions C40_count.
Theorem C40_special : forall v ops av, dense v -> v <> [] -> history v ops av -> forall t,
  is_special_token av t = true <-> (t <> [] /\ exists tok, In tok ops /\ at_special tok = true /\ at_content tok = t).
Proof. intros v ops av Hd Hne H t. apply (history_ok v ops av Hd Hne) in H. unfold is_special_token. rewrite smem_in. apply (ho_special _ _ _ H). Qed.
Print Assumptions C40_special.

(** ** C41 *)
(** Without strip and whole-word flags the matches and the gaps between them partition the text. *)
Theorem C41_matches_partition : forall map_r sentence trie, plain_ids map_r trie -> exists seg,
  av_find_matches map_r sentence trie = Ok (map_r, seg) /\ partitions trie (from_utf8 sentence) seg.
Proof. intros map_r sentence trie H. destruct (find_plain map_r sentence trie H) as [H1 H2]. eexists. split; [exact H1 | exact H2]. Qed.
Print Assumptions C41_matches_partition.
Example C41_case : av_find_matches [(7%Z, tok "[X]" true)] (str "[X] a [X]b") [(str "[X]", 7%Z)] =
  Ok ([(7%Z, tok "[X]" true)], [(Some 7%Z, (0, 3)); (None, (3, 6)); (Some 7%Z, (6, 9)); (None, (9, 10))]).
Proof. vm_compute. reflexivity. Qed.

(** ** C42 *)
Lemma scan_token ids u pre c post id : u = pre ++ c ++ post -> c <> [] -> ~ In 32%N c -> sfind (to_utf8 c) ids = Some id ->
  (forall k, k < length c -> sfind (to_utf8 (firstn k c)) ids = None) ->
  forall d k, k + d = length c -> In (length pre, length pre + length c, id) (raw_matches ids u (d + length post) (length pre + k) (length pre)).
Proof.
  intros Hu Hne Hsp Hhit Hmiss. assert (HS : forall k, k <= length c -> usub u (length pre) (length pre + k - length pre) = firstn k c).
  { intros k Hk. unfold usub. replace (length pre + k - length pre) with k by lia. rewrite Hu, skipn_app, skipn_all, Nat.sub_diag. cbn [app skipn]. rewrite firstn_app. replace (k - length c) with 0 by lia. cbn [firstn]. apply app_nil_r. }
  induction d as [|d IH]; intros k Hk.
  - assert (k = length c) as -> by lia. cbn [Nat.add]. destruct post as [|x post]; cbn [length raw_matches].
    + destruct (Nat.eqb_spec (length pre + length c) (length pre)); [destruct c; [congruence | cbn in *; lia]|]. rewrite HS, firstn_all, Hhit by lia. left. reflexivity.
    + rewrite HS, firstn_all, Hhit by lia. left. reflexivity.
  - cbn [Nat.add raw_matches]. rewrite HS by lia. rewrite Hmiss by lia.
    replace (nth (length pre + k) u 0 =? 32)%N with false.
    + replace (S (length pre + k)) with (length pre + S k) by lia. apply IH. lia.
    + symmetry. apply N.eqb_neq. rewrite Hu, app_nth2 by lia. replace (length pre + k - length pre) with k by lia. rewrite app_nth1 by lia. intros E. apply Hsp. rewrite <- E. apply nth_In. lia.
Qed.
Lemma scan_to ids u pre rest : u = pre ++ rest -> (pre = [] \/ exists p, pre = p ++ [32%N]) ->
  forall m, In m (raw_matches ids u (length rest) (length pre) (length pre)) -> In m (raw_matches ids u (length u) 0 0).
Proof.
  intros Hu [->|(p & ->)] m Hm; [cbn [app] in Hu; subst u; exact Hm|]. rewrite app_length in Hm. cbn [length] in Hm.
  assert (G : forall d i cur, i + d = length p -> In m (raw_matches ids u (d + S (length rest)) i cur)).
  { induction d as [|d IH]; intros i cur Hi; cbn [Nat.add raw_matches].
    - assert (Hi0 : i = length p) by lia. subst i. replace (nth (length p) u 0 =? 32)%N with true.
      + replace (length p + 1) with (S (length p)) in Hm by lia. destruct (sfind _ ids); [right|]; exact Hm.
      + symmetry. apply N.eqb_eq. rewrite Hu, <- app_assoc, app_nth2, Nat.sub_diag by lia. reflexivity.
    - destruct (sfind _ ids); [right|]; apply IH; lia. }
  replace (length u) with (length p + S (length rest)) by (rewrite Hu, !app_length; cbn; lia). apply G. lia.
Qed.
Lemma plain_segs_in l : forall start len a b k, In (a, b, k) l -> In (Some k, (a, b)) (plain_segs start len l).
Proof.
  induction l as [|[[a0 b0] k0] l IH]; intros start len a b k H; [destruct H|]. cbn [plain_segs]. apply in_app_iff. right.
  destruct H as [H|H]; [injection H as -> -> ->; left; reflexivity | right; apply IH; exact H].
Qed.

(** In particular an added token that contains no space is recognised when it stands at the beginning of the text or after a space and
    no other added token is a proper prefix of it. *)
Theorem C42_recognised : forall map_r sentence trie pre c post id, plain_ids map_r trie -> from_utf8 sentence = pre ++ c ++ post ->
  (pre = [] \/ exists p, pre = p ++ [32%N]) -> c <> [] -> ~ In 32%N c ->
  In (to_utf8 c, id) trie -> (forall id', In (to_utf8 c, id') trie -> id' = id) ->
  (forall k id', k < length c -> ~ In (to_utf8 (firstn k c), id') trie) ->
  exists seg, av_find_matches map_r sentence trie = Ok (map_r, seg) /\ In (Some id, (length pre, length pre + length c)) seg.
Proof.
  intros map_r sentence trie pre c post id HP Hu Hpre Hne Hsp Hin Huniq Hmiss. destruct (find_plain map_r sentence trie HP) as [H1 _]. eexists. split; [exact H1|].
  unfold segs_of. apply plain_segs_in. apply (scan_to _ _ pre (c ++ post) Hu Hpre). rewrite app_length.
  assert (Hhit : sfind (to_utf8 c) (word_ids trie) = Some id).
  { destruct (word_ids_some trie _ _ Hin) as (k' & Hk'). rewrite Hk'. f_equal. apply Huniq. apply word_ids_in. exact Hk'. }
  pose proof (scan_token (word_ids trie) _ pre c post id Hu Hne Hsp Hhit) as HS. specialize (HS).
  rewrite <- (Nat.add_0_r (length pre)) at 3. apply HS; [|lia]. intros k Hk. destruct (sfind (to_utf8 (firstn k c)) (word_ids trie)) as [k'|] eqn:E; [|reflexivity]. apply word_ids_in in E. destruct (Hmiss k k' Hk E).
Qed.
Print Assumptions C42_recognised.

(** The exact behaviour: the recognised spans are those of [found], which determines them. *)
Lemma sfind_app {V} t (m1 m2 : smap V) : sfind t (m1 ++ m2) = match sfind t m1 with Some v => Some v | None => sfind t m2 end.
Proof. induction m1 as [|[k v] m1 IH]; [reflexivity|]. cbn [app sfind]. destruct (leqb t k); [reflexivity | exact IH]. Qed.
Lemma word_ids_rev trie t : sfind t (word_ids trie) = sfind t (rev trie).
Proof.
  unfold word_ids. assert (G : forall m, sfind t (fold_left (fun m p => sset (fst p) (snd p) m) trie m) = match sfind t (rev trie) with Some k => Some k | None => sfind t m end).
  { induction trie as [|[t0 k0] trie IH]; intros m; [reflexivity|]. cbn [fold_left rev fst snd]. rewrite IH, sfind_app, sfind_sset. cbn [sfind].
    destruct (sfind t (rev trie)); [reflexivity|]. destruct (leqb t t0); reflexivity. }
  rewrite G. destruct (sfind t (rev trie)); reflexivity.
Qed.
Lemma found_eq known pos u u' l : u = u' -> found known pos u l -> found known pos u' l.
Proof. intros ->. auto. Qed.
Lemma slice_firstn u a b j : j <= b - a -> firstn j (slice u a b) = slice u a (a + j).
Proof. intros H. unfold slice. rewrite firstn_firstn. f_equal. lia. Qed.
Lemma slice_len u a b : a <= b -> b <= length u -> length (slice u a b) = b - a.
Proof. intros H1 H2. unfold slice. rewrite firstn_length, skipn_length. lia. Qed.
Lemma nth_nil' n : nth n (@nil N) 0%N = 0%N.
Proof. destruct n; reflexivity. Qed.
Lemma nth_at_skip (u : ustr) a i : a <= i -> nth (i - a) (skipn a u) 0%N = nth i u 0%N.
Proof. revert a i. induction u as [|x u IH]; intros [|a] i H; rewrite ?Nat.sub_0_r; try reflexivity; [cbn [skipn]; rewrite !nth_nil'; reflexivity|].
  destruct i as [|i]; [lia|]. cbn [skipn nth Nat.sub]. apply IH. lia. Qed.
Lemma slice_snoc (u : ustr) a i : a <= i -> i < length u -> slice u a (S i) = slice u a i ++ [nth i u 0%N].
Proof.
  intros H1 H2. unfold slice. replace (S i - a) with (S (i - a)) by lia. assert (G : i - a < length (skipn a u)) by (rewrite skipn_length; lia).
  replace (nth i u 0%N) with (nth (i - a) (skipn a u) 0%N) by (apply nth_at_skip; lia).
  clear -G. generalize dependent (skipn a u). generalize (i - a). clear. intros n. induction n as [|n IH]; intros [|x l] G; cbn in G; try lia; [reflexivity|].
  change (firstn (S (S n)) (x :: l)) with (x :: firstn (S n) l). rewrite IH by lia. reflexivity.
Qed.
Lemma slice_rest (u : ustr) a i : a <= i -> i <= length u -> skipn a u = slice u a i ++ skipn i u.
Proof. intros H1 H2. unfold slice. rewrite <- (firstn_skipn (i - a) (skipn a u)) at 1. f_equal. rewrite skipn_skipn'. f_equal. lia. Qed.
Lemma nth_rest (u : ustr) i : i < length u -> skipn i u = nth i u 0%N :: skipn (S i) u.
Proof. revert i. induction u as [|x u IH]; intros [|i] H; cbn in H; try lia; [reflexivity|]. cbn [skipn nth]. apply IH. lia. Qed.

Lemma scan_found trie u : (forall k, ~ In ([], k) trie) -> forall todo i cur, i + todo = length u -> cur <= i -> ~ In 32%N (slice u cur i) ->
  (forall j, 0 < j < i - cur -> id_of trie (slice u cur (cur + j)) = None) ->
  found trie cur (skipn cur u) (raw_matches (word_ids trie) u todo i cur).
Proof.
  intros Hne.
  assert (H0 : forall w, id_of trie w <> None -> w <> []).
  { intros w Hw ->. unfold id_of in Hw. change (to_utf8 []) with (@nil N) in Hw. rewrite <- word_ids_rev in Hw. destruct (sfind [] (word_ids trie)) as [k|] eqn:E; [|congruence]. apply word_ids_in in E. eapply Hne, E. }
  induction todo as [|n IH]; intros i cur Hi Hc Hsp Hmiss; cbn [raw_matches]; rewrite usub_slice, word_ids_rev; fold (id_of trie (slice u cur i)).
  - assert (i = length u) as -> by lia. destruct (Nat.eqb_spec (length u) cur) as [<-|Hn]; [rewrite skipn_all; constructor|].
    assert (Hl : length (slice u cur (length u)) = length u - cur) by (apply slice_len; lia).
    assert (Hnn : slice u cur (length u) <> []) by (intros E; rewrite E in Hl; cbn in Hl; lia).
    rewrite (slice_rest u cur (length u)), skipn_all by lia.
    destruct (id_of trie (slice u cur (length u))) as [k|] eqn:Ek.
    + replace (cur, length u, k) with (cur, cur + length (slice u cur (length u)), k) by (rewrite Hl; do 2 f_equal; lia). constructor; try assumption; [|constructor].
      intros j Hj. rewrite slice_firstn by lia. apply Hmiss. lia.
    + constructor; try assumption; [left; reflexivity | | constructor]. intros j Hj. rewrite slice_firstn by lia. destruct (Nat.eq_dec j (length u - cur)) as [->|]; [|apply Hmiss; lia].
      replace (cur + (length u - cur)) with (length u) by lia. exact Ek.
  - assert (Hl : length (slice u cur i) = i - cur) by (apply slice_len; lia).
    assert (Hrest : forall c, c = i \/ c = cur -> found trie c (skipn c u) (raw_matches (word_ids trie) u n (S i) (if (nth i u 0 =? 32)%N then S i else c)) \/ c = cur /\ id_of trie (slice u cur i) <> None \/ (nth i u 0 =? 32)%N = true /\ c = cur).
    { intros c Hcc. destruct (N.eqb_spec (nth i u 0%N) 32) as [E32|E32].
      - destruct (Nat.eq_dec c i) as [->|]; [|right; right; split; [reflexivity | lia]]. left. rewrite (nth_rest u i) by lia. rewrite E32. constructor. apply IH; try lia.
        + unfold slice. rewrite Nat.sub_diag. exact (fun H => H).
      - destruct Hcc as [-> | ->].
        + left. apply IH; try lia. rewrite slice_snoc by lia. unfold slice at 1. rewrite Nat.sub_diag. cbn [firstn app]. intros [E|[]]. congruence.
        + destruct (id_of trie (slice u cur i)) as [k|] eqn:Ek; [right; left; split; congruence|]. left. apply IH; try lia.
          * rewrite slice_snoc by lia. rewrite in_app_iff. intros [H|[H|[]]]; [exact (Hsp H) | congruence].
          * intros j Hj. destruct (Nat.eq_dec j (i - cur)) as [->|]; [|apply Hmiss; lia]. replace (cur + (i - cur)) with i by lia. exact Ek. }
    destruct (id_of trie (slice u cur i)) as [k|] eqn:Ek.
    + assert (Hnn : slice u cur i <> []) by (apply H0; congruence). assert (Hlt : cur < i) by (destruct (slice u cur i); [congruence | cbn in Hl; lia]).
      rewrite (slice_rest u cur i) by lia. replace (cur, i, k) with (cur, cur + length (slice u cur i), k) by (rewrite Hl; do 2 f_equal; lia). constructor; try assumption.
      * intros j Hj. rewrite slice_firstn by lia. apply Hmiss. lia.
      * replace (cur + length (slice u cur i)) with i by lia. destruct (Hrest i (or_introl eq_refl)) as [H | [ [H _] | [_ H] ] ]; [exact H | lia | lia].
    + destruct (Hrest cur (or_intror eq_refl)) as [H | [ [_ H] | [H _] ] ]; [exact H | congruence|]. apply N.eqb_eq in H. rewrite H. cbn [N.eqb Pos.eqb].
      assert (Hi' : found trie i (skipn i u) (raw_matches (word_ids trie) u n (S i) (S i))).
      { rewrite (nth_rest u i) by lia. rewrite H. constructor. apply IH; try lia. unfold slice. rewrite Nat.sub_diag. exact (fun H => H). }
      destruct (Nat.eq_dec cur i) as [->|]; [exact Hi'|].
      rewrite (slice_rest u cur i) by lia. constructor; try assumption.
      * intros E. rewrite E in Hl. cbn in Hl. lia.
      * right. rewrite (nth_rest u i) by lia. rewrite H. eexists. reflexivity.
      * intros j Hj. rewrite slice_firstn by lia. destruct (Nat.eq_dec j (i - cur)) as [->|]; [|apply Hmiss; lia]. replace (cur + (i - cur)) with i by lia. exact Ek.
      * rewrite Hl. replace (cur + (i - cur)) with i by lia. exact Hi'.
Qed.
Lemma recognised_plain l : forall start len, recognised (plain_segs start len l) = l.
Proof.
  induction l as [|[[a b] k] l IH]; intros start len; cbn [plain_segs].
  - destruct (start =? len); reflexivity.
  - unfold recognised in *. rewrite flat_map_app. destruct (start <? a); cbn [flat_map fst snd app]; rewrite IH; reflexivity.
Qed.

Theorem C42_matches_exactly : forall map_r sentence trie, plain_ids map_r trie -> (forall k, ~ In ([], k) trie) ->
  exists seg, av_find_matches map_r sentence trie = Ok (map_r, seg) /\ found trie 0 (from_utf8 sentence) (recognised seg).
Proof.
  intros map_r sentence trie HP Hne. destruct (find_plain map_r sentence trie HP) as [H1 _]. eexists. split; [exact H1|]. unfold segs_of. rewrite recognised_plain.
  apply (scan_found trie (from_utf8 sentence) Hne (length (from_utf8 sentence)) 0 0); try lia. cbn. intros [].
Qed.
Print Assumptions C42_matches_exactly.

Lemma split_space (c c' r r' : ustr) : c ++ r = c' ++ r' -> ~ In 32%N c -> ~ In 32%N c' -> (r = [] \/ exists x, r = 32%N :: x) -> (r' = [] \/ exists x, r' = 32%N :: x) -> c = c' /\ r = r'.
Proof.
  revert c'. induction c as [|x c IH]; intros [|x' c'] E H1 H2 H3 H4.
  - split; [reflexivity | exact E].
  - exfalso. cbn in E. destruct H3 as [->|(y & ->)]; [discriminate|]. injection E as E _. apply H2. left. congruence.
  - exfalso. cbn in E. destruct H4 as [->|(y & ->)]; [discriminate|]. injection E as E _. apply H1. left. congruence.
  - injection E as -> E. destruct (IH c' E) as [-> ->]; auto. intros H. apply H1. right. exact H. intros H. apply H2. right. exact H.
Qed.
Lemma prefix_cases (c c' r r' : ustr) : c ++ r = c' ++ r' -> length c <= length c' -> c = firstn (length c) c'.
Proof. intros E H. apply (f_equal (firstn (length c))) in E. rewrite firstn_app, firstn_all, Nat.sub_diag, firstn_app in E. cbn [firstn] in E. rewrite app_nil_r in E. replace (length c - length c') with 0 in E by lia. cbn [firstn] in E. rewrite app_nil_r in E. exact E. Qed.
Theorem C42_found_once : forall known pos u l l', found known pos u l -> found known pos u l' -> l = l'.
Proof.
  intros known pos u l l' H. revert l'. induction H as [pos|pos r l H IH|pos c r k l Hn Hs Hk Hm H IH|pos c r l Hn Hs Hr Hm H IH]; intros l' H'.
  - remember (@nil N) as u eqn:Eu. destruct H' as [pos|pos r' l' H'|pos c' r' k' l' Hn' Hs' Hk' Hm' H'|pos c' r' l' Hn' Hs' Hr' Hm' H']; [reflexivity | discriminate | |]; apply app_eq_nil in Eu as [Eu _]; congruence.
  - remember (32%N :: r) as u eqn:Eu. destruct H' as [pos|pos r' l' H'|pos c' r' k' l' Hn' Hs' Hk' Hm' H'|pos c' r' l' Hn' Hs' Hr' Hm' H']; [discriminate | injection Eu as ->; apply IH; exact H' | |];
      (destruct c' as [|x c']; [congruence|]); injection Eu as -> _; exfalso; apply Hs'; left; reflexivity.
  - remember (c ++ r) as u eqn:Eu. destruct H' as [pos|pos r' l' H'|pos c' r' k' l' Hn' Hs' Hk' Hm' H'|pos c' r' l' Hn' Hs' Hr' Hm' H'].
    + symmetry in Eu. apply app_eq_nil in Eu as [Eu _]. congruence.
    + destruct c as [|x c]; [congruence|]. injection Eu as <- _. exfalso. apply Hs. left. reflexivity.
    + assert (Hl : length c = length c').
      { destruct (Nat.lt_trichotomy (length c) (length c')) as [L|[L|L]]; [|exact L|].
        - assert (Ec : c = firstn (length c) c') by (eapply prefix_cases; [symmetry; exact Eu | lia]). exfalso. specialize (Hm' (length c)). rewrite <- Ec in Hm'. rewrite Hm' in Hk; [discriminate|]. destruct c; [congruence | cbn in *; lia].
        - assert (Ec : c' = firstn (length c') c) by (eapply prefix_cases; [exact Eu | lia]). exfalso. specialize (Hm (length c')). rewrite <- Ec in Hm. rewrite Hm in Hk'; [discriminate|]. destruct c'; [congruence | cbn in *; lia]. }
      assert (c' = c) as ->.
      { pose proof (prefix_cases c' c r' r Eu ltac:(lia)) as E. rewrite <- Hl, firstn_all in E. exact E. }
      apply app_inv_head in Eu. subst r'. rewrite Hk in Hk'. injection Hk' as <-. f_equal. apply IH. exact H'.
    + exfalso. assert (L : length c <= length c').
      { destruct (Nat.le_gt_cases (length c) (length c')) as [L|L]; [exact L|]. exfalso. destruct Hr' as [->|(r'' & ->)].
        - rewrite app_nil_r in Eu. subst c'. rewrite app_length in L. lia.
        - apply Hs. assert (E : nth (length c') (c' ++ 32%N :: r'') 0%N = 32%N) by (rewrite app_nth2, Nat.sub_diag by lia; reflexivity). rewrite Eu, app_nth1 in E by lia. rewrite <- E. apply nth_In. exact L. }
      assert (Ec : c = firstn (length c) c') by (eapply prefix_cases; [symmetry; exact Eu | lia]). specialize (Hm' (length c)). rewrite <- Ec in Hm'. rewrite Hm' in Hk; [discriminate|]. destruct c; [congruence | cbn in *; lia].
  - remember (c ++ r) as u eqn:Eu. destruct H' as [pos|pos r' l' H'|pos c' r' k' l' Hn' Hs' Hk' Hm' H'|pos c' r' l' Hn' Hs' Hr' Hm' H'].
    + symmetry in Eu. apply app_eq_nil in Eu as [Eu _]. congruence.
    + destruct c as [|x c]; [congruence|]. injection Eu as <- _. exfalso. apply Hs. left. reflexivity.
    + exfalso. assert (L : length c' <= length c).
      { destruct (Nat.le_gt_cases (length c') (length c)) as [L|L]; [exact L|]. exfalso. destruct Hr as [->|(r'' & ->)].
        - rewrite app_nil_r in Eu. subst c. rewrite app_length in L. lia.
        - apply Hs'. assert (E : nth (length c) (c ++ 32%N :: r'') 0%N = 32%N) by (rewrite app_nth2, Nat.sub_diag by lia; reflexivity). rewrite <- Eu, app_nth1 in E by lia. rewrite <- E. apply nth_In. exact L. }
      assert (Ec : c' = firstn (length c') c) by (eapply prefix_cases; [exact Eu | lia]). specialize (Hm (length c')). rewrite <- Ec in Hm. rewrite Hm in Hk'; [discriminate|]. destruct c'; [congruence | cbn in *; lia].
    + destruct (split_space c' c r' r Eu Hs' Hs Hr' Hr) as [-> ->]. apply IH. exact H'.
Qed.
Print Assumptions C42_found_once.
Example C42_case : found [(str "[X]", 5%Z); (str "ab", 1%Z); (str "abc", 2%Z)] 0 (str "a[X] [X][X]abc d") [(5, 8, 5%Z); (8, 11, 5%Z); (11, 13, 1%Z)].
Proof.
  destruct (C42_matches_exactly [(5%Z, tok "[X]" true); (1%Z, tok "ab" true); (2%Z, tok "abc" true)] (str "a[X] [X][X]abc d") [(str "[X]", 5%Z); (str "ab", 1%Z); (str "abc", 2%Z)]) as (seg & H & Hf).
  - repeat constructor; eexists; repeat split.
  - intros k [H|[H|[H|[]]]]; discriminate.
  - vm_compute in H. injection H as <-. vm_compute in Hf. exact Hf.
Qed.

(** In the middle of a word an added token is not found ... *)
Theorem C42_inside_word_refuted : forall map_r t, zfind 5%Z map_r = Some t -> plain_token t ->
  av_find_matches map_r (str "a[X]") [(str "[X]", 5%Z)] = Ok (map_r, [(None, (0, 4))]).
Proof. reflexivity. Qed.
Print Assumptions C42_inside_word_refuted.
(** ... and of two tokens starting at the same place the shorter one is taken. *)
Theorem C42_longest_refuted : forall map_r t1 t2, zfind 1%Z map_r = Some t1 -> plain_token t1 -> zfind 2%Z map_r = Some t2 -> plain_token t2 ->
  av_find_matches map_r (str "abc") [(str "ab", 1%Z); (str "abc", 2%Z)] = Ok (map_r, [(Some 1%Z, (0, 2)); (None, (2, 3))]).
Proof.
  intros map_r t1 t2 H1 P1 H2 P2. destruct (find_plain map_r (str "abc") [(str "ab", 1%Z); (str "abc", 2%Z)]) as [H _].
  - constructor; [exists t1; auto|]. constructor; [exists t2; auto | constructor].
  - rewrite H. reflexivity.
Qed.
Print Assumptions C42_longest_refuted.

(** ** C44, model level *)
(** The model tokenizes every piece anew from its text: whatever tokens recognition attached to the pieces makes no difference. *)
Definition forget (s : split) : split := mkSplit (sp_text s) (sp_off s) [].
Theorem C44_model_retokenizes : forall E m p, model_tokenize E m p = model_tokenize E m (mkPt (pt_norm p) (map forget (pt_splits p))).
Proof.
  intros E m [ns l]. destruct m as [w|b c]; cbn [model_tokenize pt_norm pt_splits].
  - f_equal. unfold wp_tokenize. cbn [pt_norm pt_splits]. f_equal. induction l as [|s l IH]; [reflexivity|]. cbn [map mapM forget sp_text sp_off]. rewrite IH. reflexivity.
  - assert (H : forall c, bpe_splits E b c l = bpe_splits E b c (map forget l)).
    { induction l as [|s l IH]; intros c0; [reflexivity|]. cbn [map bpe_splits forget sp_text sp_off]. destruct (bpe_word E b c0 (sp_text s)) as [c1 [ts|e|u|]]; [rewrite IH|..]; reflexivity. }
    unfold bpe_tokenize. cbn [pt_norm pt_splits]. rewrite H. reflexivity.
Qed.
Print Assumptions C44_model_retokenizes.
(** WordPiece tokenizes a recognised piece again. A recognised text is always a token of the model (only those are searched for), so
    it comes out as that one token, provided it is not longer than max_input_chars_per_word. *)
Theorem C44_wordpiece_word : forall w cs i, cs <> [] -> forallb valid_cp cs = true -> sfind (utf8_encs cs) (wp_vocab w) = Some i ->
  (Z.of_nat (units cs) <= wp_max w)%Z -> wp_word w (utf8_encs cs) = Ok [mkTok i (utf8_encs cs) (0, units cs)].
Proof.
  intros w cs i Hne Hv Hi Hm. pose proof (wp_word_spec w (utf8_encs cs)) as HS. cbv zeta in HS. rewrite (from_utf8_encs cs Hv) in HS. change (length (flat_map utf16_enc cs)) with (units cs) in HS.
  assert (HP : piece_text (wp_prefix w) (flat_map utf16_enc cs) 0 (units cs) = utf8_encs cs).
  { unfold piece_text. cbn [Nat.eqb app skipn]. unfold units. rewrite firstn_all. apply to_utf8_encs. exact Hv. }
  assert (Hpos : 0 < units cs) by (destruct (Nat.eq_dec (units cs) 0) as [E|]; [apply units_0 in E; congruence | lia]).
  assert (HG : greedy (wp_vocab w) (wp_prefix w) (flat_map utf16_enc cs) 0 [mkTok i (utf8_encs cs) (0, units cs)]).
  { rewrite <- HP at 1. replace (0, units cs) with (0, 0 + units cs) by reflexivity. constructor; [exact Hpos | cbn; unfold units; lia | rewrite HP; exact Hi | intros k' Hk Hk'; unfold units in *; cbn in Hk'; lia|].
    cbn [Nat.add]. constructor. }
  destruct HS as (ts & Hw & [(C & _)|[(_ & Hg)|(_ & Hn & _)]]).
  - lia.
  - rewrite Hw. f_equal. eapply greedy_fun; eassumption.
  - exfalso. eapply Hn. exact HG.
Qed.
Print Assumptions C44_wordpiece_word.

(** A longer one comes out as the unknown token instead. *)
Theorem C44_wordpiece_long_refuted : forall w cs i, forallb valid_cp cs = true -> sfind (utf8_encs cs) (wp_vocab w) = Some i ->
  (wp_max w < Z.of_nat (units cs))%Z -> exists j, wp_word w (utf8_encs cs) = Ok [mkTok j (wp_unk w) (0, units cs)].
Proof.
  intros w cs i Hv Hi Hm. unfold wp_word. rewrite (from_utf8_encs cs Hv). change (length (flat_map utf16_enc cs)) with (units cs).
  replace (wp_max w <? Z.of_nat (units cs))%Z with true by lia. eexists. reflexivity.
Qed.
Print Assumptions C44_wordpiece_long_refuted.
(** Together: a recognised text keeps its own id under WordPiece exactly when it is not too long or is the unknown token itself. *)
Theorem C44_wordpiece_exactly : forall w cs i, cs <> [] -> forallb valid_cp cs = true -> sfind (utf8_encs cs) (wp_vocab w) = Some i ->
  (exists off, wp_word w (utf8_encs cs) = Ok [mkTok i (utf8_encs cs) off]) <-> ((Z.of_nat (units cs) <= wp_max w)%Z \/ utf8_encs cs = wp_unk w).
Proof.
  intros w cs i Hne Hv Hi. split.
  - intros (off & H). destruct (Z.le_gt_cases (Z.of_nat (units cs)) (wp_max w)) as [L|L]; [left; exact L | right].
    destruct (C44_wordpiece_long_refuted w cs i Hv Hi ltac:(lia)) as (j & H'). rewrite H in H'. congruence.
  - intros [L|L]; [eexists; apply C44_wordpiece_word; assumption|]. destruct (Z.le_gt_cases (Z.of_nat (units cs)) (wp_max w)) as [L'|L']; [eexists; apply C44_wordpiece_word; assumption|].
    exists (0, units cs). unfold wp_word. rewrite (from_utf8_encs cs Hv). change (length (flat_map utf16_enc cs)) with (units cs). replace (wp_max w <? Z.of_nat (units cs))%Z with true by lia. unfold wp_unk_token; rewrite <- L, Hi. reflexivity.
Qed.
Print Assumptions C44_wordpiece_exactly.
(** BPE looks the recognised text up directly when the model ignores merges (and has no dropout) ... *)
Theorem C44_bpe_ignore_merges : forall E b c t i, b_ignore_merges b = true -> no_dropout b -> sfind t (b_vocab b) = Some i ->
  exists off, bpe_word E b c t = (c, Ok [mkTok i t off]).
Proof. intros E b c t i H1 H2 H3. exists (0, 0). apply C37_ignore_merges; assumption. Qed.
Print Assumptions C44_bpe_ignore_merges.
(** ... and otherwise merges it anew from its characters, so that unless the merges happen to build it its own id is lost: "[X]" is a token
    of this model, yet its recognised occurrence is encoded as three characters. *)
Definition bpe_x : bpe := mkBpe [(str "[X]", 3); (str "[", 0); (str "X", 1); (str "]", 2)]%Z [] (QArith_base.Qmake 0 1) [] [] [] false false false.
Theorem C44_bpe_refuted : forall E, pq_ok E ->
  snd (bpe_word E bpe_x [] (str "[X]")) = Ok [mkTok 0 (str "[") (0, 1); mkTok 1 (str "X") (1, 2); mkTok 2 (str "]") (2, 3)].
Proof.
  intros E Hq. pose proof (Hq []) as H0.
  assert (Hnil : e_pq E [] = None).
  { destruct (e_pq E []) as [[t q]|]; [|reflexivity]. destruct H0 as [Hp _]. apply Permutation.Permutation_nil in Hp. discriminate. }
  unfold bpe_word. cbn [b_dropout bpe_x]. unfold tokenize_with_cache. cbn [b_ignore_merges bpe_x sfind QArith_base.Qeq_bool QArith_base.Qnum QArith_base.Qden].
  assert (HM : merge_word E bpe_x (str "[X]") = Ok (initial_symbols bpe_x (str "[X]"))).
  { unfold merge_word, merge_all. vm_compute (initial_symbols bpe_x (str "[X]")). cbv beta iota. cbn [init_queue b_merges bpe_x mfind s_c].
    assert (Hloop : forall f m d k w x, merge_loop E f m d k w [] x = Ok w) by (intros f m d k w x; destruct f; cbn [merge_loop]; rewrite Hnil; reflexivity).
    rewrite Hloop. reflexivity. }
  rewrite HM. reflexivity.
Qed.
Print Assumptions C44_bpe_refuted.

(** ** C45 *)
(** Construction from a configuration whose added tokens are [l] runs to completion exactly when every token with a text has the text of a
    special token of the list; otherwise it pushes into the vector it is iterating over, which is undefined behaviour. *)
Theorem C45_construction : forall t l m, tz_av t = Some (new_added_vocab l) -> tz_model t = Some m -> dense (model_vocab m) -> model_vocab m <> [] ->
  (Forall (fun x => at_content x = [] \/ exists s, In s l /\ at_special s = true /\ at_content s = at_content x) l -> exists t', finish_construction t = Ok t') /\
  (~ Forall (fun x => at_content x = [] \/ exists s, In s l /\ at_special s = true /\ at_content s = at_content x) l -> finish_construction t = Undef IterInvalidated).
Proof.
  intros t l m Ha Hm Hd Hne. unfold finish_construction, add_tokens. rewrite Ha, Hm. cbn [new_added_vocab av_added option_map]. split; intros HF.
  - destruct (add_tokens_ok (model_vocab m) (new_added_vocab l) l true Hd Hne (empty_ids_ok _ l)) as (av' & H1 & _).
    { intros _. eapply Forall_impl; [|exact HF]. cbn beta. tauto. }
    rewrite H1. cbn. eauto.
  - unfold av_add_tokens. cbv zeta. pose proof (register_ok l (new_added_vocab l)) as HR. cbv zeta in HR. set (av1 := fold_left register_special l (new_added_vocab l)) in *.
    destruct HR as (_ & A2 & A3 & _ & _ & A6 & _).
    assert (G : forall l' av, ids_ok (model_vocab m) av -> av_special_set av = av_special_set av1 -> ~ Forall (fun x => at_content x = [] \/ In (at_content x) (av_special_set av1)) l' ->
      assign_ids true av (Some (model_vocab m)) l' = Undef IterInvalidated).
    { induction l' as [|x l' IH]; intros av Hi He Hnf; [destruct Hnf; constructor|]. cbn [assign_ids]. destruct (is_nil (at_content x)) eqn:En.
      - apply IH; [exact Hi | exact He|]. intros HF'. apply Hnf. constructor; [left; apply is_nil_true; exact En | exact HF'].
      - apply is_nil_false in En. destruct (choose_id_ok (model_vocab m) av (at_content x) Hd Hne Hi) as (i & -> & C1 & C2 & C3). cbn [bind]. destruct (smem (at_content x) (av_special_set av)) eqn:Es; [|reflexivity].
        apply IH; [eapply (step_ok _ av _ x i); eauto | exact He|]. intros HF'. apply Hnf. constructor; [right; rewrite <- He; apply smem_in; exact Es | exact HF']. }
    rewrite G; [reflexivity | eapply ids_ok_ext; [exact A2 | exact A3 | apply empty_ids_ok] | reflexivity|].
    intros HF'. apply HF. eapply Forall_impl; [|exact HF']. cbn beta. intros x [Hx|Hx]; [left; exact Hx|]. apply A6 in Hx as [[]|(_ & Hx)]. right. exact Hx.
Qed.
Print Assumptions C45_construction.
(** So a configuration with one ordinary (non-special) added token cannot be loaded. *)
Theorem C45_ordinary_token_refuted : forall t x m, tz_av t = Some (new_added_vocab [x]) -> tz_model t = Some m -> dense (model_vocab m) -> model_vocab m <> [] ->
  at_content x <> [] -> at_special x = false -> finish_construction t = Undef IterInvalidated.
Proof.
  intros t x m Ha Hm Hd Hne Hx Hs. apply (C45_construction t [x] m Ha Hm Hd Hne). intros HF. inversion HF as [|? ? [H|(s & [<-|[]] & H & _)] _]; congruence.
Qed.
Print Assumptions C45_ordinary_token_refuted.
(** A configuration without a supported model dereferences a null pointer as soon as an added token has a text. *)
Theorem C45_no_model_refuted : forall t l, tz_av t = Some (new_added_vocab l) -> tz_model t = None -> Exists (fun x => at_content x <> []) l ->
  finish_construction t = Undef NullDeref.
Proof.
  intros t l Ha Hm Hx. unfold finish_construction, add_tokens. rewrite Ha, Hm. cbn [new_added_vocab av_added option_map]. unfold av_add_tokens. cbv zeta.
  pose proof (register_ok l (new_added_vocab l)) as HR. cbv zeta in HR. set (av1 := fold_left register_special l (new_added_vocab l)) in *. destruct HR as (_ & A2 & _).
  assert (G : forall l' av, av_map av = [] -> Exists (fun x => at_content x <> []) l' -> assign_ids true av None l' = Undef NullDeref).
  { induction l' as [|x l' IH]; intros av He Hl; [inversion Hl|]. cbn [assign_ids]. destruct (is_nil (at_content x)) eqn:En.
    - apply IH; [exact He|]. inversion Hl; subst; [apply is_nil_true in En; congruence | assumption].
    - unfold choose_id. rewrite He. reflexivity. }
  rewrite G; [reflexivity | exact A2 | exact Hx].
Qed.
Print Assumptions C45_no_model_refuted.
Example C45_case : exists t m, tz_av t = Some (new_added_vocab [tok "[CLS]" true; tok "new" false]) /\ tz_model t = Some m /\ dense (model_vocab m) /\ model_vocab m <> [] /\
  finish_construction t = Undef IterInvalidated /\
  exists t', finish_construction (set_av t (Some (new_added_vocab [tok "[CLS]" true; tok "[MASK]" true]))) = Ok t'.
Proof.
  exists (mkTz None None (Some (new_added_vocab [tok "[CLS]" true; tok "new" false])) None None (Some (MWordPiece (mkWp small_vocab (str "[UNK]") 100 (str "##")))) None None).
  eexists. split; [reflexivity|]. split; [reflexivity|]. split; [exact small_dense|]. split; [discriminate|]. split; [vm_compute; reflexivity|]. eexists. vm_compute. reflexivity.
Qed.

(** ** C46 *)
(** For ASCII texts, and added tokens that do not begin with white space, matching always succeeds and the flags do what they say.
    What is missing is the statement for other texts, which is false (below). *)
Theorem C46_strip_ascii : forall map_r trie s, ascii s -> Forall (fun p => match fst p with c :: _ => c_space c = false | [] => False end) trie ->
  exists m seg, av_find_matches map_r s trie = Ok (m, seg) /\ stripped_segmentation map_r trie s seg.
Proof.
  intros map_r trie s Ha Ht. unfold av_find_matches. rewrite (ascii_from_utf8 s Ha). destruct (raw_matches_ok (word_ids trie) s (length s) 0 0 eq_refl (le_n _)) as [Ho Hh].
  assert (HS : Forall (fun m => In (slice s (fst (fst m)) (snd (fst m)), snd m) trie) (raw_matches (word_ids trie) s (length s) 0 0)).
  { eapply Forall_impl; [|exact Hh]. intros [[a b] k] H. cbn [fst snd hit_ok] in *. apply word_ids_in in H. rewrite ascii_to_utf8 in H; [exact H | apply slice_all; exact Ha]. }
  assert (HF : Forall (fun m => fst (fst m) < snd (fst m) /\ c_space (nth (fst (fst m)) s 0%N) = false) (raw_matches (word_ids trie) s (length s) 0 0)).
  { eapply Forall_impl; [|exact HS]. intros [[a b] k] H. cbn [fst snd] in *. pose proof (proj1 (Forall_forall _ _) Ht _ H) as Hc. cbn [fst] in Hc. unfold slice in Hc.
    destruct (skipn a s) as [|c r] eqn:Es; [rewrite firstn_nil in Hc; destruct Hc|]. destruct (b - a) as [|n] eqn:Eb; [destruct Hc|]. cbn [firstn] in Hc. split; [lia|].
    assert (Hn : nth_error s a = Some c) by (replace a with (a + 0) by lia; rewrite <- nth_error_skipn, Es; reflexivity). rewrite (nth_error_nth _ _ 0%N Hn). exact Hc. }
  destruct (resolve_strip (flags map_r) trie s _ 0 map_r (fun _ => eq_refl) (Nat.le_0_l _) Ho HF HS) as (m & segs & H1 & H2 & H3 & H4 & H5).
  exists m, segs. split; [exact H1|]. split; [exact H2|]. split; [exact H3 | exact H4].
Qed.
Print Assumptions C46_strip_ascii.
(** Exactly: the recognised pieces are the added texts that stand in the text ([found]), without those a single_word flag rules out, each with the white
    space its strip flags add ([accepted]). *)
Theorem C46_flags_exactly : forall map_r trie s, ascii s -> Forall (fun p => match fst p with c :: _ => c_space c = false | [] => False end) trie ->
  exists m seg texts, av_find_matches map_r s trie = Ok (m, seg) /\ chained 0 (length s) (map snd seg) /\
    found trie 0 s texts /\ accepted (flags map_r) s 0 texts (recognised seg).
Proof.
  intros map_r trie s Ha Ht. unfold av_find_matches. rewrite (ascii_from_utf8 s Ha). destruct (raw_matches_ok (word_ids trie) s (length s) 0 0 eq_refl (le_n _)) as [Ho Hh].
  assert (HS : Forall (fun m => In (slice s (fst (fst m)) (snd (fst m)), snd m) trie) (raw_matches (word_ids trie) s (length s) 0 0)).
  { eapply Forall_impl; [|exact Hh]. intros [[a b] k] H. cbn [fst snd hit_ok] in *. apply word_ids_in in H. rewrite ascii_to_utf8 in H; [exact H | apply slice_all; exact Ha]. }
  assert (HF : Forall (fun m => fst (fst m) < snd (fst m) /\ c_space (nth (fst (fst m)) s 0%N) = false) (raw_matches (word_ids trie) s (length s) 0 0)).
  { eapply Forall_impl; [|exact HS]. intros [[a b] k] H. cbn [fst snd] in *. pose proof (proj1 (Forall_forall _ _) Ht _ H) as Hc. cbn [fst] in Hc. unfold slice in Hc.
    destruct (skipn a s) as [|c r] eqn:Es; [rewrite firstn_nil in Hc; destruct Hc|]. destruct (b - a) as [|n] eqn:Eb; [destruct Hc|]. cbn [firstn] in Hc. split; [lia|].
    assert (Hn : nth_error s a = Some c) by (replace a with (a + 0) by lia; rewrite <- nth_error_skipn, Es; reflexivity). rewrite (nth_error_nth _ _ 0%N Hn). exact Hc. }
  destruct (resolve_strip (flags map_r) trie s _ 0 map_r (fun _ => eq_refl) (Nat.le_0_l _) Ho HF HS) as (m & segs & H1 & H2 & _ & _ & H5).
  exists m, segs, (raw_matches (word_ids trie) s (length s) 0 0). split; [exact H1|]. split; [exact H2|]. split; [|exact H5].
  apply (scan_found trie s); try lia; [|cbn; intros []]. intros k Hk. exact (proj1 (Forall_forall _ _) Ht _ Hk).
Qed.
Print Assumptions C46_flags_exactly.
(** [accepted] determines the recognised pieces. *)
Theorem C46_accepted_once : forall fl s l prev out out', accepted fl s prev l out -> accepted fl s prev l out' -> out = out'.
Proof.
  intros fl s l prev out out' H. revert out'. induction H as [prev|prev a b k l out W1 W2 H IH|prev a b k l out a' b' W A B S L R H IH]; intros out' H'.
  - inversion H'; reflexivity.
  - inversion H'; subst; [auto | tauto].
  - inversion H' as [|? ? ? ? ? ? V1 V2|? ? ? ? ? ? a2 b2 W' A' B' S' L' R' H2]; subst; [tauto|].
    assert (a' = a2).
    { destruct (at_lstrip (fl k)); [|congruence]. destruct (Nat.lt_trichotomy a' a2) as [Hl|[Hl|Hl]]; [|exact Hl|].
      - assert (c_space (nth (a2 - 1) s 0%N) = true) by (apply S; lia). rewrite L' in *; [discriminate | lia].
      - assert (c_space (nth (a' - 1) s 0%N) = true) by (apply S'; lia). rewrite L in *; [discriminate | lia]. }
    assert (b' = b2).
    { destruct (at_rstrip (fl k)); [|congruence]. destruct (Nat.lt_trichotomy b' b2) as [Hl|[Hl|Hl]]; [|exact Hl|].
      - assert (c_space (nth b' s 0%N) = true) by (apply S'; lia). rewrite R in *; [discriminate | lia].
      - assert (c_space (nth b2 s 0%N) = true) by (apply S; lia). rewrite R' in *; [discriminate | lia]. }
    subst. f_equal. apply IH. assumption.
Qed.
Print Assumptions C46_accepted_once.
Example C46_flags_case : accepted (fun _ => mkAt 0 (str "[X]") true true true false true) (str "[X]y  [X] z") 0 [(0, 3, 7%Z); (6, 9, 7%Z)] [(4, 10, 7%Z)].
Proof.
  apply accepted_part; [reflexivity | intros [_ H]; apply H; [cbn; lia | vm_compute; intuition discriminate] |].
  apply accepted_token; [intros _; split; intros _; vm_compute; intuition congruence | lia | cbn; lia | | intros _; reflexivity | intros _; reflexivity | constructor].
  intros j Hj. assert (Hc : j = 4 \/ j = 5 \/ j = 9) by lia. destruct Hc as [-> | [-> | ->]]; reflexivity.
Qed.
Definition strip_token (lstrip rstrip : bool) : added_token := mkAt 0 (str "[X]") false lstrip rstrip false true.
Example C46_case : av_find_matches [(7%Z, strip_token true true)] (str "a  [X]  b[X]") [(str "[X]", 7%Z)] =
  Ok ([(7%Z, strip_token true true)], [(None, (0, 1)); (Some 7%Z, (1, 8)); (None, (8, 12))]).
Proof. vm_compute. reflexivity. Qed.
(** For other texts positions in UTF-16 units are used as byte positions: with five accented letters and ten spaces before it, a recognised rstrip
    token makes encoding throw std::out_of_range, whatever the normalizer. *)
Theorem C46_strip_refuted : forall E norm, extract_and_normalize E (mkAv [] [strip_token false true] [str "[X]"] [(str "[X]", 7%Z)] [(7%Z, strip_token false true)] [] [(str "[X]", 7%Z)]) norm
  (repeat 0xE9%N 5 ++ repeat 32%N 10 ++ str "[X]") = Throw OutOfRange.
Proof. reflexivity. Qed.
Print Assumptions C46_strip_refuted.

(** Tokens made of white space are excluded above for a reason. With a rstrip token before two new-line tokens that are lstrip, the first new line is reported as the range from 5 to 4,
    whose text is everything from 5 on: the rest of the text is taken twice, once as the text of the recognised new line, and encoding then reads outside the tables. *)
Definition newline_token : added_token := mkAt 0 [10%N] false true false false true.
Definition white_av : added_vocab := mkAv [] [strip_token false true; newline_token] [str "[X]"; [10%N]] [(str "[X]", 7%Z); ([10%N], 8%Z)] [(7%Z, strip_token false true); (8%Z, newline_token)] []
    [(str "[X]", 7%Z); ([10%N], 8%Z)].
Definition white_text : wstr := str "[X]" ++ [10%N; 10%N] ++ str "ab".
Definition white_segments : list (option Z * (nat * nat)) := [(Some 7%Z, (0, 5)); (Some 8%Z, (5, 4)); (Some 8%Z, (4, 5)); (None, (5, 7))].
Theorem C46_white_refuted :
  (exists m, av_find_matches (av_map_r white_av) white_text (av_trie_raw white_av) = Ok (m, white_segments)) /\
  (exists l, raw_splits white_text white_segments = Ok l /\ map sp_text l = [str "[X]" ++ [10%N; 10%N]; str "ab"; [10%N]; str "ab"]) /\
  forall E, extract_and_normalize E white_av None white_text = Undef OobIndex.
Proof.
  split; [eexists; vm_compute; reflexivity|]. split; [eexists; split; vm_compute; reflexivity|]. intros E. vm_compute. reflexivity.
Qed.
Print Assumptions C46_white_refuted.
