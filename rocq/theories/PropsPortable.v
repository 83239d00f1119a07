(** C101: when BPE results are the same on every C++ library. Specification: PortSpec.v, BpeSpec.v. *)
From Verif Require Import Base BaseFacts Unicode UnicodeProofs Common Utils PostProcessor Decoder Normalizer PreTokenizer WordPiece Bpe AddedVocab Tokenizer Spec
  NormSpec PreSpec TzSpec TzProofs WpSpec RefSpec RefProofs BpeSpec BpeProofs BpeWord PropsBpe UnkSpec BpeRefSpec Env CutSpec PropsCut PropsText OutProofs PropsOutcome PortSpec.
From Coq Require Import ZifyBool ZifyNat Relations Permutation.

(** *** Nothing before the model looks at the queue *)
Lemma same_clean E q : forall l ns i, clean_loop (with_queue E q) ns i l = clean_loop E ns i l.
Proof. induction l as [|c l IH]; intros ns i; [reflexivity|]. cbn [clean_loop]. change (removed_by_clean (with_queue E q) c) with (removed_by_clean E c). change (is_whitespace (with_queue E q) c) with (is_whitespace E c).
  destruct (removed_by_clean E c); [|rewrite IH; reflexivity]. destruct (transform ns i OpErase); cbn [bind]; [apply IH | reflexivity..].
Qed.
Lemma same_marks E q : forall l i, mark_ids (with_queue E q) l i = mark_ids E l i.
Proof. induction l as [|c l IH]; intros i; [reflexivity|]. cbn [mark_ids]. rewrite !IH. reflexivity. Qed.
Lemma same_replace E q pat c : forall fuel text from we, replace_matches (with_queue E q) fuel pat c text from we = replace_matches E fuel pat c text from we.
Proof.
  induction fuel as [|f IH]; intros text from we; [reflexivity|]. cbn [replace_matches]. change (e_wregex_next (with_queue E q)) with (e_wregex_next E). change (e_inplace (with_queue E q)) with (e_inplace E).
  destruct (e_wregex_next E pat text from we) as [[pos len]|]; [|reflexivity]. destruct (verase text pos (pos + 1)); cbn [bind]; try reflexivity. destruct (vinsert _ pos c); cbn [bind]; try reflexivity. rewrite IH. reflexivity.
Qed.
Lemma normalizer_induction (P : normalizer -> Prop) : (forall a b c d, P (NBert a b c d)) -> (forall f, P (NForm f)) -> (forall p, P (NPrepend p)) -> (forall p c, P (NReplace p c)) -> (forall l r, P (NStrip l r)) -> P NStripAccents ->
  (forall l, Forall P l -> P (NSequence l)) -> forall n, P n.
Proof. intros H1 H2 H3 H4 H5 H6 H7. fix F 1. intros [a b c d|f|p|p c|a b| |l]; [apply H1 | apply H2 | apply H3 | apply H4 | apply H5 | apply H6|]. apply H7. induction l as [|x l IH]; constructor; [apply F | exact IH]. Qed.
Lemma pre_tokenizer_induction (P : pre_tokenizer -> Prop) : P TBert -> (forall p b i, P (TSplit p b i)) -> (forall a r, P (TByteLevel a r)) -> (forall l, Forall P l -> P (TSequence l)) -> forall t, P t.
Proof. intros H1 H2 H3 H4. fix F 1. intros [|p b i|a r|l]; [apply H1 | apply H2 | apply H3|]. apply H4. induction l as [|x l IH]; constructor; [apply F | exact IH]. Qed.
Lemma same_normalize E q n : forall ns, normalize (with_queue E q) n ns = normalize E n ns.
Proof.
  induction n as [cl ch st lo|f|p|p c|l r| |l HL] using normalizer_induction; intros ns; try reflexivity.
  - cbn [normalize]. unfold bert_normalize, do_clean_text, do_strip_accents. rewrite same_clean. change (normalize_nf (with_queue E q) NFD) with (normalize_nf E NFD).
    destruct (if cl then _ else _); cbn [bind]; try reflexivity. destruct (if ch then _ else _) as [n2| | |]; cbn [bind]; try reflexivity. destruct (st || lo); [|reflexivity]. destruct (normalize_nf E NFD n2); cbn [bind]; try reflexivity. rewrite same_marks. reflexivity.
  - cbn [normalize]. unfold replace_normalize. change (e_wregex_ok (with_queue E q)) with (e_wregex_ok E). destruct (convert_from_string p); cbn [bind]; try reflexivity. destruct (negb _); [reflexivity|]. destruct (convert_from_string c); cbn [bind]; try reflexivity. rewrite same_replace. reflexivity.
  - cbn [normalize]. revert ns. induction HL as [|x l Hx HL IH]; intros ns; [reflexivity|]. rewrite Hx. destruct (normalize E x ns); cbn [bind]; [apply IH | reflexivity..].
Qed.
Lemma same_splits E q norm trie : forall l ns m e, normalize_splits (with_queue E q) norm trie ns m e l = normalize_splits E norm trie ns m e l.
Proof.
  induction l as [|s l IH]; intros ns m e; [reflexivity|]. cbn [normalize_splits]. destruct (sp_tokens s); [|rewrite IH; reflexivity]. destruct (convert_from_string (sp_text s)) as [w| | |]; cbn [bind]; try reflexivity.
  assert (K : match norm with Some f => normalize (with_queue E q) f (new_nstring w) | None => Ok (new_nstring w) end = match norm with Some f => normalize E f (new_nstring w) | None => Ok (new_nstring w) end) by (destruct norm; [apply same_normalize | reflexivity]).
  cbv zeta. rewrite K. clear K.
  match goal with |- bind ?x _ = bind _ _ => destruct x as [sub| | |]; cbn [bind]; try reflexivity end. match goal with |- bind ?x _ = bind _ _ => destruct x as [ns'| | |]; cbn [bind]; try reflexivity end.
  match goal with |- bind ?x _ = bind _ _ => destruct x as [se| | |]; cbn [bind]; try reflexivity end. match goal with |- bind ?x _ = bind _ _ => destruct x as [[m' ms]| | |]; cbn [bind]; try reflexivity end.
  match goal with |- bind ?x _ = bind _ _ => destruct x as [here| | |]; cbn [bind]; try reflexivity end. rewrite IH. reflexivity.
Qed.
Lemma same_matches E q pat u : find_matches (with_queue E q) pat u = find_matches E pat u.
Proof. unfold find_matches, regex_matches. reflexivity. Qed.
Lemma split_all_ext f g b : (forall u, f u = g u) -> forall l, split_all f b l = split_all g b l.
Proof. intros H. induction l as [|s l IH]; [reflexivity|]. cbn [split_all]. rewrite IH. unfold split_normalized. rewrite H. reflexivity. Qed.
Lemma pt_split_ext f g b p : (forall u, f u = g u) -> pt_split f b p = pt_split g b p.
Proof. intros H. unfold pt_split. rewrite (split_all_ext f g b H). reflexivity. Qed.
Lemma mapM_same {A B} (f g : A -> res B) : (forall x, f x = g x) -> forall l, mapM f l = mapM g l.
Proof. intros H. induction l as [|x l IH]; [reflexivity|]. cbn [mapM]. rewrite H, IH. reflexivity. Qed.
Lemma same_byte E q x : byte_char_at (with_queue E q) x = byte_char_at E x.
Proof. unfold byte_char_at. change (e_char_signed (with_queue E q)) with (e_char_signed E). reflexivity. Qed.
Lemma same_pre E q t : forall p, pre_tokenize (with_queue E q) t p = pre_tokenize E t p.
Proof.
  induction t as [|pat b i|a r|l HL] using pre_tokenizer_induction; intros p; cbn [pre_tokenize].
  - unfold bert_pre_tokenize. rewrite (pt_split_ext _ _ _ _ (same_matches E q pat_space)). destruct (pt_split _ REMOVED p); cbn [bind]; [apply pt_split_ext, same_matches | reflexivity..].
  - unfold split_pre_tokenize. apply pt_split_ext, same_matches.
  - unfold byte_level_pre_tokenize. assert (K : add_prefix (with_queue E q) p = add_prefix E p) by (unfold add_prefix; change (e_iswspace (with_queue E q)) with (e_iswspace E); reflexivity). rewrite K.
    destruct (if a then add_prefix E p else Ok p) as [p0| | |]; cbn [bind]; [|reflexivity..]. rewrite (pt_split_ext _ (fun u => if r then find_matches E byte_level_pattern u else Ok [((0, length u), false)])) by (intros u; destruct r; [apply same_matches | reflexivity]).
    destruct (pt_split _ ISOLATED p0) as [p1| | |]; cbn [bind]; [|reflexivity..]. rewrite (mapM_same _ (fun s => t <- byte_level_text E (sp_text s) ;; Ok (mkSplit t (sp_off s) (sp_tokens s)))); [reflexivity|]. intros s. unfold byte_level_text. rewrite (mapM_same _ _ (same_byte E q)). reflexivity.
  - revert p. induction HL as [|x l Hx HL IH]; intros p; [reflexivity|]. rewrite Hx. destruct (pre_tokenize E x p); cbn [bind]; [apply IH | reflexivity..].
Qed.
Lemma same_extract E q av norm s : extract_and_normalize (with_queue E q) av norm s = extract_and_normalize E av norm s.
Proof.
  unfold extract_and_normalize. destruct (new_pretok (new_nstring s)) as [p| | |]; cbn [bind]; try reflexivity. destruct (convert_to_string _) as [se| | |]; cbn [bind]; try reflexivity.
  destruct (av_find_matches _ _ _) as [[m ms]| | |]; cbn [bind]; try reflexivity. destruct (raw_splits _ _) as [raw| | |]; cbn [bind]; try reflexivity. cbv zeta. rewrite same_splits. reflexivity.
Qed.
Lemma same_prepare E q t s : prepare (with_queue E q) t s = prepare E t s.
Proof.
  unfold prepare. destruct (new_pretok (new_nstring s)) as [p| | |]; cbn [bind]; try reflexivity.
  assert (K : forall p, match tz_pre t with Some pt => pre_tokenize (with_queue E q) pt p | None => Ok p end = match tz_pre t with Some pt => pre_tokenize E pt p | None => Ok p end) by (intros x; destruct (tz_pre t); [apply same_pre | reflexivity]).
  destruct (tz_av t) as [a|]; [rewrite same_extract; destruct (extract_and_normalize E a (tz_norm t) s) as [[m p1]| | |]|]; cbn [bind]; try reflexivity; rewrite K; reflexivity.
Qed.

(** *** One word *)
Lemma highest_step m x y : step_highest m x y -> step m x y.
Proof. intros (r & H & _). exists r. exact H. Qed.
Lemma highest_steps m x y : steps (step_highest m) x y -> steps (step m) x y.
Proof. induction 1 as [x|x y z H _ IH]; [constructor|]. exact (Relation_Operators.rt1n_trans _ _ _ _ _ (highest_step _ _ _ H) IH). Qed.
Lemma one_result m a x y : (forall s u v, steps (step_highest m) a s -> step_highest m s u -> step_highest m s v -> u = v) ->
  steps (step_highest m) a x -> steps (step_highest m) a y -> (forall r, ~ applicable m r x) -> (forall r, ~ applicable m r y) -> x = y.
Proof.
  intros H1 Hx Hy Nx Ny. revert y Hy Ny H1. induction Hx as [a|a b x Hs Hx IH]; intros y Hy Ny H1.
  - inversion Hy as [|b y0 (r & Hs & _) _]; subst; [reflexivity|]. exfalso. apply (Nx r). eexists. exact Hs.
  - inversion Hy as [|b' y0 Hs' Hy']; subst; [destruct Hs as (r & Hs & _); exfalso; apply (Ny r); eexists; exact Hs|].
    assert (b' = b) by (apply (H1 a); [constructor | exact Hs' | exact Hs]). subst b'. apply IH; [exact Nx | exact Hy' | exact Ny|]. intros s u v Hr. apply H1. exact (Relation_Operators.rt1n_trans _ _ _ _ _ Hs Hr).
Qed.
Lemma tokens_contents v : forall w w' pos, contents w = contents w' -> word_to_tokens v pos w = word_to_tokens v pos w'.
Proof.
  induction w as [|s w IH]; intros [|s' w'] pos H; try discriminate; [reflexivity|]. cbn [contents map] in H. injection H as H1 H2 H3. cbn [word_to_tokens]. rewrite H1, H2. destruct (model_id_to_token v (s_c s')); [|reflexivity]. rewrite (IH w' _ H3). reflexivity.
Qed.

(** A word whose highest-ranked merge is always possible at one place only gets the same tokens (or the same failure) whatever the priority queue does with ties, and after any history. *)
Theorem C101_word : forall E1 E2 b c1 c2 s, pq_ok E1 -> pq_ok E2 -> reach_cache E1 b c1 -> reach_cache E2 b c2 -> no_dropout b -> distinct_results (b_merges b) -> one_way b s ->
  snd (bpe_word E1 b c1 s) = snd (bpe_word E2 b c2 s).
Proof.
  intros E1 E2 b c1 c2 s Q1 Q2 R1 R2 Hd Hdr Ho. unfold no_dropout in Hd.
  assert (D : (exists i, b_ignore_merges b = true /\ sfind s (b_vocab b) = Some i) \/ not_direct b s).
  { unfold not_direct. destruct (b_ignore_merges b); [|right; discriminate]. destruct (sfind s (b_vocab b)) as [i|]; [left; eauto | right; reflexivity]. }
  destruct D as [(i & D1 & D2)|D].
  - unfold bpe_word. rewrite (proj2 (QArith_base.Qeq_bool_iff _ _) Hd). unfold tokenize_with_cache. rewrite D1, D2. reflexivity.
  - rewrite (word_cold E1 b c1 s R1 (or_introl D)), (word_cold E2 b c2 s R2 (or_introl D)).
    assert (N : forall E k, dropped E (b_dropout b) k = false) by (intros E k; apply dropped_zero, QArith_base.Qeq_bool_iff; exact Hd).
    destruct (merge_word_spec E1 b s Q1) as [[I1 ->]|[I1 (w1 & -> & _ & G1 & _)]]; destruct (merge_word_spec E2 b s Q2) as [[I2 ->]|[I2 (w2 & -> & _ & G2 & _)]]; try contradiction; [reflexivity|].
    cbn [bind]. apply tokens_contents. destruct (G1 (N E1)) as [A1 B1]. destruct (G2 (N E2)) as [A2 B2]. eapply one_result; [exact Ho | apply B1; exact Hdr | apply B2; exact Hdr | exact A1 | exact A2].
Qed.
Print Assumptions C101_word.

(** *** Words in which no byte is repeated *)
Lemma concat_twice {A} (ls : list (list A)) : NoDup (concat ls) -> forall i j t, t <> [] -> nth_error ls i = Some t -> nth_error ls j = Some t -> i = j.
Proof.
  assert (K : forall (ls : list (list A)) x (l : list A) i t, NoDup (l ++ concat ls) -> nth_error ls i = Some t -> In x t -> In x l -> False).
  { intros ls' x l i t Hn Hi Hx Hl. apply nth_error_In in Hi. assert (In x (concat ls')) by (apply in_concat; eauto). clear Hi. induction l as [|y l IH]; [destruct Hl|]. cbn [app] in Hn. apply NoDup_cons_iff in Hn as [H1 H2]. destruct Hl as [->|Hl]; [apply H1, in_or_app; auto | auto]. }
  induction ls as [|l ls IH]; intros Hn i j t Ht Hi Hj; [destruct i; discriminate|]. cbn [concat] in Hn. assert (Hn' : NoDup (concat ls)) by (clear - Hn; induction l as [|y l IHl]; [exact Hn | cbn [app] in Hn; apply NoDup_cons_iff in Hn as [_ Hn]; auto]).
  destruct t as [|x t]; [congruence|]. destruct i as [|i], j as [|j]; cbn [nth_error] in *.
  - reflexivity.
  - injection Hi as ->. exfalso. eapply (K ls x); [exact Hn | exact Hj | left; reflexivity | left; reflexivity].
  - injection Hj as ->. exfalso. eapply (K ls x); [exact Hn | exact Hi | left; reflexivity | left; reflexivity].
  - f_equal. eapply IH; eassumption.
Qed.
Lemma Forall2_nth {A B} (P : A -> B -> Prop) l l' : Forall2 P l l' -> forall i x, nth_error l i = Some x -> exists y, nth_error l' i = Some y /\ P x y.
Proof. induction 1 as [|a b l l' H _ IH]; intros [|i] x Hi; try discriminate; cbn in *; [injection Hi as <-; eauto | auto]. Qed.
Lemma nth_mid {A} (l : list A) x r : nth_error (l ++ x :: r) (length l) = Some x.
Proof. rewrite nth_error_app2, Nat.sub_diag by lia. reflexivity. Qed.

(** In a model built by the constructor, with unique ids and without prefix and suffix, a word of known bytes none of which is repeated is such a word. *)
Theorem C101_distinct_bytes : forall vocab merges d unk fu bf ig b s, new_bpe vocab merges d unk [] [] fu bf ig = Ok b -> NoDup (map fst vocab) -> NoDup (map snd vocab) ->
  Forall (fun x => exists i, sfind [x] vocab = Some i) s -> NoDup s -> one_way b s.
Proof.
  intros vocab merges d unk fu bf ig b s Hb Hk Hn Hknown Hs x y z Hx Hy Hz. apply new_bpe_vocab in Hb as (Hm & Hv & _ & _ & Hpre & Hsuf & _). destruct (initial_eq b s) as (Hi & Hpos & _). rewrite Hpre, Hsuf in Hi.
  assert (Hpieces : pieces [] [] s = map (fun x => [x]) s).
  { unfold pieces. generalize (length s) at 1 as n. intros n. generalize 0 as a. clear. induction s as [|x s IH]; intros a; [reflexivity|].
    cbn [length seq combine map fst snd]. rewrite IH. f_equal. unfold piece_at. destruct (a =? 0), (S a =? n); reflexivity. }
  rewrite Hpieces in Hi. subst vocab.
  assert (Hitems : exists ids, items_of b (map (fun x => [x]) s) None = map (fun i => (i, 1)) ids /\ Forall2 (fun x i => sfind [x] (b_vocab b) = Some i) s ids).
  { clear - Hknown. induction Hknown as [|x s [i Hx] Hk IH]; [exists []; split; [reflexivity | constructor]|].
    destruct IH as (ids & E & F). exists (i :: ids). split; [|constructor; assumption]. cbn [map items_of]. rewrite Hx. cbn [BpeWord.flush app]. rewrite E. reflexivity. }
  destruct Hitems as (ids & Hids & HF). pose proof (highest_steps _ _ _ Hx) as Hst.
  assert (Hrule : forall p q r n, mfind p q (b_merges b) = Some (r, n) ->
     exists tp tq, sfind tp (b_vocab b) = Some p /\ sfind tq (b_vocab b) = Some q /\ sfind (tp ++ tq) (b_vocab b) = Some n).
  { intros p q r n Hf. apply (build_merges_spec _ _ _ _ _ _ Hm) in Hf. destruct Hf as [Hf|(_ & k & line & _ & _ & ([tp tq] & _ & G1 & G2 & G3) & _)]; [discriminate|]. exists tp, tq. auto. }
  assert (Hrank : forall p q n p' q' n' r, mfind p q (b_merges b) = Some (r, n) -> mfind p' q' (b_merges b) = Some (r, n') -> p = p').
  { intros p q n p' q' n' r H1 H2. apply (build_merges_spec _ _ _ _ _ _ Hm) in H1, H2. destruct H1 as [H1|(_ & k & line & K1 & L1 & (f1 & F1 & G1 & _) & _)]; [discriminate|]. destruct H2 as [H2|(_ & k' & line' & K2 & L2 & (f2 & F2 & G2 & _) & _)]; [discriminate|].
    assert (k' = k) by lia. subst k'. congruence. }
  destruct (lossless_steps b _ _ Hn Hk Hrule Hst (map (fun x => [x]) s)) as (texts & HT & Hc).
  { rewrite Hi, Hids. clear - HF. induction HF as [|x i s ids Hx HF IH]; cbn; constructor; [split; [exact Hx | reflexivity] | exact IH]. }
  assert (Hcs : concat texts = s) by (rewrite Hc; clear; induction s as [|x s IH]; cbn; [reflexivity | rewrite IH; reflexivity]).
  pose proof (steps_positive _ _ _ Hst Hpos) as Hpx. rewrite <- Hcs in Hs.
  destruct Hy as (r & Hy & My). destruct Hz as (r' & Hz & Mz). assert (r' = r) by (apply Z.le_antisymm; [apply My; eexists; exact Hz | apply Mz; eexists; exact Hy]). subst r'. clear My Mz Hx Hc.
  inversion Hy as [A a la c lc B n Hf E1 E2]. inversion Hz as [A' a' la' c' lc' B' n' Hf' E1' E2']. assert (a' = a) by (eapply Hrank; eassumption). subst a'.
  assert (HL : length A' = length A).
  { destruct (Forall2_nth _ _ _ HT (length A) (a, la)) as (t1 & N1 & S1 & L1); [rewrite <- E1; apply nth_mid|]. destruct (Forall2_nth _ _ _ HT (length A') (a, la')) as (t2 & N2 & S2 & L2); [rewrite <- E1'; apply nth_mid|]. cbn [fst snd] in *.
    assert (t1 = t2). { apply sfind_in in S1, S2. pose proof (id_to_token_unique _ _ _ Hn S1). pose proof (id_to_token_unique _ _ _ Hn S2). congruence. } subst t2.
    assert (Hne : t1 <> []). { intros ->. assert (Hla : 0 < la) by (rewrite <- E1 in Hpx; unfold positive in Hpx; apply Forall_app in Hpx as [_ Hpx]; apply Forall_inv in Hpx; exact Hpx). cbn in L1. lia. }
    eapply (concat_twice texts); eassumption. }
  assert (HA : A' = A). { rewrite <- E1 in E1'. apply (f_equal (firstn (length A))) in E1'. rewrite <- HL in E1' at 1. rewrite !firstn_app, !Nat.sub_diag, !firstn_all in E1'. cbn [firstn] in E1'. rewrite !app_nil_r in E1'. exact E1'. } subst A'.
  rewrite <- E1 in E1'. apply app_inv_head in E1'. injection E1' as <- <- <- <-. rewrite Hf in Hf'. injection Hf' as <-. reflexivity.
Qed.
Print Assumptions C101_distinct_bytes.

(** *** Whole texts *)
Theorem C101_encode : forall E q fuel t b c c' s n l add, pq_ok E -> pq_ok (with_queue E q) -> tz_model t = Some (MBpe b c) -> reach_cache E b c -> reach_cache (with_queue E q) b c' ->
  no_dropout b -> distinct_results (b_merges b) -> s <> [] -> forallb valid_cp s = true -> forallb valid_cp n = true -> normalized_in_place E t s n ->
  words_of E (tz_pre t) n l -> Forall (fun p => one_way b (utf8_encs (snd p))) l ->
  snd (encode E fuel t s add) = snd (encode (with_queue E q) fuel (with_cache t b c') s add).
Proof.
  intros E q fuel t b c c' s n l add Q1 Q2 Hm R1 R2 Hd Hdr Hne Hv Hvn HN HW HO. rewrite !encode_text. change (do_post_process fuel (with_cache t b c')) with (do_post_process fuel t).
  assert (HT : text_encoding E t s = text_encoding (with_queue E q) (with_cache t b c') s); [|rewrite HT; reflexivity].
  destruct (prepare_words E t s n l Hne Hv Hvn HN HW) as (A & av & junk & ws & P1 & <-). unfold text_encoding. rewrite same_prepare. change (prepare E (with_cache t b c') s) with (prepare E t s). rewrite P1. cbn [bind with_cache tz_model]. rewrite Hm.
  assert (Hmt : forall E c p, snd (model_tokenize E (MBpe b c) p) = snd (bpe_tokenize E b c p)) by (intros E0 c0 p; cbn [model_tokenize]; destruct (bpe_tokenize E0 b c0 p); reflexivity).
  rewrite !Hmt, (proj1 (bpe_tokenize_transparent E b c _ (reach_cache_ok E b c R1))), (proj1 (bpe_tokenize_transparent _ b c' _ (reach_cache_ok _ b c' R2))). cbn [pt_splits].
  assert (K : plain_words E b (map (fun p => mkSplit (utf8_encs (fst p)) (snd p) []) ws) = plain_words (with_queue E q) b (map (fun p => mkSplit (utf8_encs (fst p)) (snd p) []) ws)); [|rewrite K; reflexivity].
  rewrite Forall_map in HO. cbn [fst snd] in HO. clear - Q1 Q2 Hd Hdr HO. unfold plain_words. induction HO as [|[x o] ws Hx _ IH]; [reflexivity|]. cbn [map mapM fst snd sp_text] in *. rewrite (C101_word E (with_queue E q) b [] [] (utf8_encs x) Q1 Q2 (reach_empty _ _) (reach_empty _ _) Hd Hdr Hx), IH. reflexivity.
Qed.
Print Assumptions C101_encode.

(** *** Cases *)
(** a queue that prefers the last of the entries with the greatest rank, where that of test_env prefers the first *)
Definition last_pq (q : list merge) : option (merge * list merge) := list_pq (rev q).
Definition last_env : env := with_queue test_env last_pq.
Lemma last_env_pq : pq_ok last_env.
Proof.
  intros q. cbn [e_pq last_env with_queue]. unfold last_pq. pose proof (list_pq_ok (rev q)) as H. destruct (list_pq (rev q)) as [[t r]|].
  - destruct H as [H1 H2]. split; [rewrite <- H1; apply Permutation_rev | intros x Hx; apply H2, in_rev; rewrite rev_involutive; exact Hx].
  - apply (f_equal (@rev _)) in H. rewrite rev_involutive in H. exact H.
Qed.
Definition tie_vocab : smap Z := [(str "a", 0%Z); (str "b", 1%Z); (str "aa", 2%Z); (str "ab", 3%Z); (str "aba", 4%Z)].
Definition tie_bpe (lines : list (bytes * bytes)) : bpe := match new_bpe tie_vocab (map merge_line lines) (QArith_base.Qmake 0 1) [] [] [] false false false with Ok b => b | _ => abc_bpe end.
Definition ids_of (r : res (list token)) : list Z := match r with Ok ts => map tk_id ts | _ => [] end.
(** The three letters of "aaa" are merged from the left or from the right; "abab" becomes aba|b or ab|ab, although no rule has two equal sides. *)
Theorem C101_queue_matters :
  (ids_of (snd (bpe_word test_env (tie_bpe [(str "a", str "a")]) [] (str "aaa"))) = [2; 0]%Z /\ ids_of (snd (bpe_word last_env (tie_bpe [(str "a", str "a")]) [] (str "aaa"))) = [0; 2]%Z) /\
  (ids_of (snd (bpe_word test_env (tie_bpe [(str "a", str "b"); (str "ab", str "a")]) [] (str "abab"))) = [4; 1]%Z /\
   ids_of (snd (bpe_word last_env (tie_bpe [(str "a", str "b"); (str "ab", str "a")]) [] (str "abab"))) = [3; 3]%Z) /\
  pq_ok test_env /\ pq_ok last_env.
Proof. split; [split; vm_compute; reflexivity|]. split; [split; vm_compute; reflexivity|]. split; [exact test_env_pq | exact last_env_pq]. Qed.
Print Assumptions C101_queue_matters.
Definition tie_tz : tokenizer := mkTz None None None None None (Some (MBpe (tie_bpe [(str "a", str "b"); (str "ab", str "a")]) [])) None None.
Example C101_case : one_way (tie_bpe [(str "a", str "b"); (str "ab", str "a")]) (str "ab") /\ distinct_results (b_merges (tie_bpe [(str "a", str "b"); (str "ab", str "a")])) /\
  ids_of (snd (bpe_word last_env (tie_bpe [(str "a", str "b"); (str "ab", str "a")]) [] (str "ab"))) = [3]%Z /\
  words_of test_env (tz_pre tie_tz) (str "ab") [(0, str "ab")] /\ normalized_in_place test_env tie_tz (str "ab") (str "ab").
Proof.
  split; [|split; [|split; [vm_compute; reflexivity|split; [reflexivity | split; [reflexivity | split; [apply le_n | discriminate]]]]]].
  - apply (C101_distinct_bytes tie_vocab (map merge_line [(str "a", str "b"); (str "ab", str "a")]) (QArith_base.Qmake 0 1) [] false false false); [vm_compute; reflexivity | | | |].
    + repeat (apply NoDup_cons; [cbn; intuition discriminate|]). apply NoDup_nil.
    + repeat (apply NoDup_cons; [cbn; intuition discriminate|]). apply NoDup_nil.
    + repeat (apply Forall_cons; [eexists; vm_compute; reflexivity|]). apply Forall_nil.
    + repeat (apply NoDup_cons; [cbn; intuition discriminate|]). apply NoDup_nil.
  - intros a b r a' b' r' n H H'. assert (Hm : b_merges (tie_bpe [(str "a", str "b"); (str "ab", str "a")]) = [((0, 1), (0, 3)); ((3, 0), (1, 4))]%Z) by (vm_compute; reflexivity). rewrite Hm in *. cbn [mfind] in *.
    destruct (Z.eqb_spec a 0), (Z.eqb_spec b 1), (Z.eqb_spec a 3), (Z.eqb_spec b 0), (Z.eqb_spec a' 0), (Z.eqb_spec b' 1), (Z.eqb_spec a' 3), (Z.eqb_spec b' 0); cbn [andb] in *; try discriminate; try lia; subst; split; try reflexivity; congruence.
Qed.
