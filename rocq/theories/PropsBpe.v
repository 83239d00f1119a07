(** C27-C37: the BPE model. [step], [steps], [applicable], [initial], [token_seq], [fused], [unfused], [first_rule],
    [reach_cache] are in BpeSpec.v, [tiles] in WpSpec.v, [pq_ok] (contract of std::priority_queue) in Bpe.v. *)
From Verif Require Import Base BaseFacts Common PreTokenizer WordPiece WpSpec WpProofs Bpe BpeSpec BpeProofs BpeWord Env.
From Coq Require Import Relations ZifyBool ZifyNat.
From Coq Require QArith_base.

Definition no_dropout (b : bpe) : Prop := QArith_base.Qeq (b_dropout b) (QArith_base.Qmake 0 1).
Definition not_direct (b : bpe) (s : bytes) : Prop := b_ignore_merges b = true -> sfind s (b_vocab b) = None.

Lemma no_dropout_bool b : no_dropout b <-> QArith_base.Qeq_bool (b_dropout b) (QArith_base.Qmake 0 1) = true.
Proof. unfold no_dropout. rewrite QArith_base.Qeq_bool_iff. tauto. Qed.

Lemma not_direct_none b s : not_direct b s -> (if b_ignore_merges b then sfind s (b_vocab b) else None) = None.
Proof. unfold not_direct. intros H. destruct (b_ignore_merges b); [apply H|]; reflexivity. Qed.

Lemma word_cold E b c s : reach_cache E b c -> not_direct b s \/ ~ no_dropout b ->
  snd (bpe_word E b c s) = (w <- merge_word E b s ;; word_to_tokens (b_vocab b) 0 w).
Proof.
  intros Hr Hn. destruct (bpe_word_transparent E b c s (reach_cache_ok E b c Hr)) as [-> _]. unfold bpe_word.
  destruct (QArith_base.Qeq_bool (b_dropout b) (QArith_base.Qmake 0 1)) eqn:Ed; [|reflexivity].
  destruct Hn as [Hn|Hn]; [|exfalso; apply Hn, no_dropout_bool; exact Ed].
  unfold tokenize_with_cache. rewrite (not_direct_none b s Hn). cbn [sfind].
  destruct (merge_word E b s) as [w| | |]; [|reflexivity..]. cbn [bind]. destruct (word_to_tokens (b_vocab b) 0 w); reflexivity.
Qed.

Lemma word_ok E b c s ts : pq_ok E -> reach_cache E b c -> not_direct b s \/ ~ no_dropout b -> snd (bpe_word E b c s) = Ok ts ->
  initial b s <> [] /\ exists w, merge_word E b s = Ok w /\ word_to_tokens (b_vocab b) 0 w = Ok ts /\ token_seq ts = contents w.
Proof.
  intros Hq Hr Hn H. rewrite (word_cold E b c s Hr Hn) in H. apply bind_ok in H as (w & Hw & H).
  destruct (merge_word_spec E b s Hq) as [[_ Hu]|[Hi _]]; [congruence|]. split; [exact Hi|].
  exists w. split; [exact Hw|]. split; [exact H|]. apply word_to_tokens_spec in H. tauto.
Qed.

(** C27. Merging any non-empty symbol sequence ends in an ordinary result, whatever the merge table, the dropout, the
    random draws and the way the priority queue breaks ties. *)
Theorem C27_merging_total : forall E m d l, pq_ok E -> l <> [] -> Forall (fun p => 0 < snd p) l ->
  exists w, merge_all E m d (word_of l) = Ok w.
Proof. intros E m d l Hq Hl Hp. destruct (merge_all_spec E m d l Hq Hp Hl) as (w & Hw & _). exists w; exact Hw. Qed.
Print Assumptions C27_merging_total.

(** ... hence tokenizing a word with at least one initial symbol has a defined outcome after any history; the only
    possible exception is the reverse lookup's (excluded by C35 for models built by the constructor). *)
Theorem C27_word_defined : forall E b c s, pq_ok E -> reach_cache E b c -> initial b s <> [] ->
  (exists ts, snd (bpe_word E b c s) = Ok ts) \/ snd (bpe_word E b c s) = Throw OutOfRange.
Proof.
  intros E b c s Hq Hr Hi.
  destruct (bpe_word_transparent E b c s (reach_cache_ok E b c Hr)) as [-> _].
  assert (Hdir : (w <- merge_word E b s ;; word_to_tokens (b_vocab b) 0 w) = Throw OutOfRange \/ exists ts, (w <- merge_word E b s ;; word_to_tokens (b_vocab b) 0 w) = Ok ts).
  { destruct (merge_word_spec E b s Hq) as [[H _]|[_ (w & -> & _)]]; [contradiction|]. cbn [bind].
    generalize 0 as pos. clear. induction w as [|x w IH]; intros pos; cbn [word_to_tokens]; [right; eexists; reflexivity|].
    destruct (model_id_to_token (b_vocab b) (s_c x)); [|left; reflexivity].
    destruct (IH (pos + s_len x)) as [->|[ts ->]]; [left; reflexivity | right; eexists; reflexivity]. }
  unfold bpe_word. destruct (QArith_base.Qeq_bool (b_dropout b) (QArith_base.Qmake 0 1)).
  - unfold tokenize_with_cache. destruct (if b_ignore_merges b then sfind s (b_vocab b) else None); [left; eexists; reflexivity|]. cbn [sfind].
    destruct (merge_word E b s) as [w| | |]; cbn [bind snd] in *.
    + destruct (word_to_tokens (b_vocab b) 0 w) as [ts| | |]; cbn [snd]; destruct Hdir as [Hd|[ts' Hd]]; try discriminate; inversion Hd; subst; eauto.
    + destruct Hdir as [Hd|[ts' Hd]]; [right; exact Hd | discriminate].
    + destruct Hdir as [Hd|[ts' Hd]]; discriminate.
    + destruct Hdir as [Hd|[ts' Hd]]; discriminate.
  - cbn [snd]. tauto.
Qed.
Print Assumptions C27_word_defined.

(** C28. Without dropout: the tokens come from the initial symbols by table merges, cover the same number of bytes, and
    no adjacent pair of the result is in the table. *)
Theorem C28_fully_merged : forall E b c s ts,
  pq_ok E -> reach_cache E b c -> no_dropout b -> not_direct b s -> snd (bpe_word E b c s) = Ok ts ->
  steps (step (b_merges b)) (initial b s) (token_seq ts) /\
  (forall rank, ~ applicable (b_merges b) rank (token_seq ts)) /\
  total_len (token_seq ts) = total_len (initial b s).
Proof.
  intros E b c s ts Hq Hr Hd Hn H. destruct (word_ok E b c s ts Hq Hr (or_introl Hn) H) as (Hi & w & Hw & _ & ->).
  destruct (merge_word_spec E b s Hq) as [[H1 _]|[_ (w' & Hw' & Hs & Hz & _)]]; [contradiction|].
  assert (w' = w) by congruence. subst w'. split; [exact Hs|].
  split; [apply Hz; intros k; apply dropped_zero, no_dropout_bool; exact Hd | eapply steps_total_len; exact Hs].
Qed.
Print Assumptions C28_fully_merged.

(** The tokens' offsets are consecutive from 0 and the table merges are exactly those of the merge list: a pair of ids
    merges with rank k into n iff line k is the first line giving that pair. *)
Theorem C28_merge_table : forall vocab lines d unk pre suf fu bf ig b,
  Forall (fun l => field (fst l) /\ field (snd l)) lines ->
  new_bpe vocab (map merge_line lines) d unk pre suf fu bf ig = Ok b ->
  forall x y r n, mfind x y (b_merges b) = Some (r, n) <->
    exists k, r = Z.of_nat k /\ first_rule vocab (length pre) lines x y k n.
Proof.
  intros vocab lines d unk pre suf fu bf ig b Hf Hb x y r n. apply new_bpe_vocab in Hb as (Hm & _).
  rewrite (build_merges_spec _ _ _ _ _ _ Hm x y r n). rewrite Forall_forall in Hf.
  assert (Hg : forall k line p z, nth_error lines k = Some p -> nth_error (map merge_line lines) k = Some line ->
                 (gives vocab (length pre) line x y z <-> rule_gives vocab (length pre) p x y z)).
  { intros k line p z Hp Hl. rewrite nth_error_map, Hp in Hl. cbn in Hl. inversion Hl; subst line.
    apply nth_error_In in Hp. destruct (Hf p Hp) as [H1 H2]. unfold gives. rewrite (two_fields_line p H1 H2).
    split; [intros (q & E & Hq); inversion E; subst; exact Hq | intros Hq; exists p; auto]. }
  split.
  - intros [H|(_ & k & line & Hr & Hk & Hgv & Hmin)]; [discriminate|]. exists k. split; [lia|].
    rewrite nth_error_map in Hk. destruct (nth_error lines k) as [p|] eqn:Ep; [|discriminate]. cbn in Hk. split.
    + exists p. split; [exact Ep|]. apply (Hg k line p n Ep); [rewrite nth_error_map, Ep; exact Hk | exact Hgv].
    + intros k' p' n' Hlt Hp' Hr'. apply (Hmin k' (merge_line p') n' Hlt); [rewrite nth_error_map, Hp'; reflexivity|].
      apply (Hg k' (merge_line p') p' n' Hp'); [rewrite nth_error_map, Hp'; reflexivity | exact Hr'].
  - intros (k & Hr & (p & Hp & Hgv) & Hmin). right. split; [reflexivity|]. exists k, (merge_line p). split; [lia|].
    assert (Hk : nth_error (map merge_line lines) k = Some (merge_line p)) by (rewrite nth_error_map, Hp; reflexivity).
    split; [exact Hk|]. split; [apply (Hg k _ p n Hp Hk); exact Hgv|].
    intros k' line' n' Hlt Hl' Hg'. rewrite nth_error_map in Hl'. destruct (nth_error lines k') as [p'|] eqn:Ep'; [|discriminate].
    apply (Hmin k' p' n' Hlt Ep'). apply (Hg k' line' p' n' Ep'); [rewrite nth_error_map, Ep'; exact Hl' | exact Hg'].
Qed.
Print Assumptions C28_merge_table.

(** C29. What the code does: when different pairs produce different ids, every merge performed has the HIGHEST rank among
    the merges applicable at that moment (the property asks for the lowest). *)
Theorem C29_highest_rank_first : forall E b c s ts,
  pq_ok E -> reach_cache E b c -> no_dropout b -> not_direct b s -> distinct_results (b_merges b) ->
  snd (bpe_word E b c s) = Ok ts ->
  steps (step_highest (b_merges b)) (initial b s) (token_seq ts).
Proof.
  intros E b c s ts Hq Hr Hd Hn Hdr H. destruct (word_ok E b c s ts Hq Hr (or_introl Hn) H) as (Hi & w & Hw & _ & ->).
  destruct (merge_word_spec E b s Hq) as [[H1 _]|[_ (w' & Hw' & Hs & Hz & _)]]; [contradiction|].
  assert (w' = w) by congruence. subst w'. apply Hz; [|exact Hdr]. intros k. apply dropped_zero, no_dropout_bool; exact Hd.
Qed.
Print Assumptions C29_highest_rank_first.

(** The property holds when no two merges of different rank ever compete. *)
Theorem C29_no_competition : forall E b c s ts,
  pq_ok E -> reach_cache E b c -> no_dropout b -> not_direct b s ->
  (forall x r r', steps (step (b_merges b)) (initial b s) x -> applicable (b_merges b) r x -> applicable (b_merges b) r' x -> r = r') ->
  snd (bpe_word E b c s) = Ok ts ->
  steps (step_lowest (b_merges b)) (initial b s) (token_seq ts).
Proof.
  intros E b c s ts Hq Hr Hd Hn Hone H. destruct (C28_fully_merged E b c s ts Hq Hr Hd Hn H) as [Hs _].
  revert Hone Hs. generalize (initial b s) (token_seq ts). intros x y Hone Hs. induction Hs as [|x y z Hxy Hyz IH]; [constructor|].
  econstructor.
  - destruct Hxy as [rank Hxy]. exists rank. split; [exact Hxy|]. intros r Hr'.
    rewrite (Hone x r rank); [lia | constructor | exact Hr' | exists y; exact Hxy].
  - apply IH. intros u r r' Hu. apply Hone. econstructor; eassumption.
Qed.
Print Assumptions C29_no_competition.

Definition abc_vocab : smap Z := [(str "a", 0); (str "b", 1); (str "c", 2); (str "ab", 3); (str "bc", 4)]%Z.
Definition abc_bpe : bpe := mkBpe abc_vocab [((0, 1), (0, 3)); ((1, 2), (1, 4))]%Z (QArith_base.Qmake 0 1) [] [] [] false false false.
Example abc_built : new_bpe abc_vocab [str "a b"; str "b c"] (QArith_base.Qmake 0 1) [] [] [] false false false = Ok abc_bpe.
Proof. vm_compute. reflexivity. Qed.

(** Refutation: with the merges "a b", "b c" (in this order) the word "abc" is tokenized a|bc by every conforming
    priority queue; the reference order gives ab|c and a|bc is not reachable by lowest-rank merges. *)
Theorem C29_priority_refuted :
  (forall E ts, pq_ok E -> snd (bpe_word E abc_bpe [] (str "abc")) = Ok ts ->
     token_seq ts = [(0%Z, 1); (4%Z, 2)] /\ ~ steps (step_lowest (b_merges abc_bpe)) (initial abc_bpe (str "abc")) (token_seq ts)) /\
  exists ts, snd (bpe_word test_env abc_bpe [] (str "abc")) = Ok ts.
Proof.
  split; [|vm_compute; eexists; reflexivity].
  intros E ts Hq H.
  assert (Happ : forall rank x, applicable (b_merges abc_bpe) rank [(0%Z, 1); (1%Z, 1); (2%Z, 1)] -> x = rank -> rank = 0%Z \/ rank = 1%Z).
  { intros rank x [y Hy] _. remember [(0%Z, 1); (1%Z, 1); (2%Z, 1)] as l eqn:El. destruct Hy as [A a la b lb B n Hm].
    cbn in Hm. destruct ((a =? 0) && (b =? 1))%Z; [inversion Hm; auto|]. destruct ((a =? 1) && (b =? 2))%Z; [inversion Hm; auto | discriminate]. }
  assert (Hi : initial abc_bpe (str "abc") = [(0%Z, 1); (1%Z, 1); (2%Z, 1)]) by (vm_compute; reflexivity).
  assert (Hap0 : applicable (b_merges abc_bpe) 0 [(0%Z, 1); (1%Z, 1); (2%Z, 1)]).
  { eexists. apply (step_intro _ 0%Z [] 0%Z 1 1%Z 1 [(2%Z, 1)] 3%Z). reflexivity. }
  assert (Hap1 : applicable (b_merges abc_bpe) 1 [(0%Z, 1); (1%Z, 1); (2%Z, 1)]).
  { eexists. apply (step_intro _ 1%Z [(0%Z, 1)] 1%Z 1 2%Z 1 [] 4%Z). reflexivity. }
  assert (Hstep : forall rank y, step_at (b_merges abc_bpe) rank [(0%Z, 1); (1%Z, 1); (2%Z, 1)] y ->
            (rank = 0%Z /\ y = [(3%Z, 2); (2%Z, 1)]) \/ (rank = 1%Z /\ y = [(0%Z, 1); (4%Z, 2)])).
  { intros rank y Hy. remember [(0%Z, 1); (1%Z, 1); (2%Z, 1)] as l eqn:El. destruct Hy as [A a la b lb B n Hm].
    destruct A as [|p [|q [|p3 A]]]; cbn in El.
    - inversion El; subst. cbn in Hm. inversion Hm; subst. left; auto.
    - inversion El; subst. cbn in Hm. inversion Hm; subst. right; auto.
    - inversion El.
    - inversion El as [[E1 E2 E3 E4]]. destruct A; discriminate. }
  assert (Hdr : distinct_results (b_merges abc_bpe)).
  { intros a b r a' b' r' n H1 H2. cbn in H1, H2.
    destruct ((a =? 0) && (b =? 1))%Z eqn:X1; [|destruct ((a =? 1) && (b =? 2))%Z eqn:X2; [|discriminate]];
    (destruct ((a' =? 0) && (b' =? 1))%Z eqn:Y1; [|destruct ((a' =? 1) && (b' =? 2))%Z eqn:Y2; [|discriminate]]);
    inversion H1; subst; try discriminate; split; lia. }
  assert (Hnone : forall y rank, ~ step_at (b_merges abc_bpe) rank [(0%Z, 1); (4%Z, 2)] y).
  { intros y rank Hy. remember [(0%Z, 1); (4%Z, 2)] as l eqn:El. destruct Hy as [A a la b lb B n Hm].
    destruct A as [|p [|q A]]; cbn in El; inversion El; subst; [discriminate Hm|]. destruct A; discriminate. }
  assert (Hnd : not_direct abc_bpe (str "abc")) by (intros Hx; discriminate).
  pose proof (C29_highest_rank_first E abc_bpe [] (str "abc") ts Hq (reach_empty _ _) ltac:(reflexivity) Hnd Hdr H) as Hh.
  destruct (C28_fully_merged E abc_bpe [] (str "abc") ts Hq (reach_empty _ _) ltac:(reflexivity) Hnd H) as (_ & Hno & _).
  rewrite Hi in *.
  assert (Hts : token_seq ts = [(0%Z, 1); (4%Z, 2)]).
  { remember (token_seq ts) as z eqn:Ez. inversion Hh as [E0|y ? Hs Hr]; subst.
    - exfalso. eapply Hno. rewrite <- E0. exact Hap0.
    - destruct Hs as (rank & Hs & Hmax). specialize (Hmax 1%Z Hap1). destruct (Hstep _ _ Hs) as [[-> _]|[-> ->]]; [lia|].
      inversion Hr as [|y2 ? Hs2 _]; subst; [congruence|]. exfalso. destruct Hs2 as (r2 & Hs2 & _). eapply Hnone; exact Hs2. }
  split; [exact Hts|]. rewrite Hts. intros Hl. inversion Hl as [|y ? Hs Hr]; subst.
  destruct Hs as (rank & Hs & Hmin). specialize (Hmin 0%Z Hap0). destruct (Hstep _ _ Hs) as [[-> ->]|[-> ->]]; [|lia].
  inversion Hr as [|y2 ? Hs2 Hr2]; subst. destruct Hs2 as (r2 & Hs2 & _).
  remember [(3%Z, 2); (2%Z, 1)] as l eqn:El. destruct Hs2 as [A a la b lb B n Hm].
  destruct A as [|p [|q A]]; cbn in El; inversion El; subst; [discriminate Hm|]. destruct A; discriminate.
Qed.
Print Assumptions C29_priority_refuted.

(** C30. All bytes known, unique ids, no prefix/suffix: the token texts concatenate to the word, each token's text is the
    part of the word its offsets name, and the offsets tile the word. *)
Lemma lossless_steps b x y : NoDup (map snd (b_vocab b)) -> NoDup (map fst (b_vocab b)) ->
  (forall p q r n, mfind p q (b_merges b) = Some (r, n) ->
     exists tp tq, sfind tp (b_vocab b) = Some p /\ sfind tq (b_vocab b) = Some q /\ sfind (tp ++ tq) (b_vocab b) = Some n) ->
  steps (step (b_merges b)) x y ->
  forall texts, Forall2 (fun p t => sfind t (b_vocab b) = Some (fst p) /\ length t = snd p) x texts ->
  exists texts', Forall2 (fun p t => sfind t (b_vocab b) = Some (fst p) /\ length t = snd p) y texts' /\ concat texts' = concat texts.
Proof.
  intros Hn Hk Hm H. induction H as [x|x y z Hs _ IH]; intros texts Hx; [exists texts; auto|].
  destruct Hs as (rank & Hs). destruct Hs as [A a la c lc B n Hf].
  apply Forall2_app_inv_l in Hx as (tA & tR & HA & HR & ->).
  inversion HR as [|? ta ? tR1 [Ha Hla] HR1]; subst. inversion HR1 as [|? tc ? tB [Hc Hlc] HB]; subst. cbn [fst snd] in *.
  destruct (Hm _ _ _ _ Hf) as (tp & tq & Hp & Hq & Hpq).
  assert (Hinj : forall k k' i, sfind k (b_vocab b) = Some i -> sfind k' (b_vocab b) = Some i -> k = k').
  { intros k k' i H1 H2. apply sfind_in in H1, H2. pose proof (id_to_token_unique _ _ _ Hn H1). pose proof (id_to_token_unique _ _ _ Hn H2). congruence. }
  assert (tp = ta) by (eapply Hinj; eassumption). assert (tq = tc) by (eapply Hinj; eassumption). subst tp tq.
  destruct (IH (tA ++ (ta ++ tc) :: tB)) as (t' & Ht' & Hc').
  - apply Forall2_app; [exact HA|]. constructor; [|exact HB]. cbn [fst snd]. split; [exact Hpq|]. rewrite app_length. lia.
  - exists t'. split; [exact Ht'|]. rewrite Hc', !concat_app. cbn [concat]. rewrite <- app_assoc. reflexivity.
Qed.

Lemma tiles_inv a z o l : tiles a z (o :: l) -> exists m, o = (a, m) /\ a < m /\ tiles m z l.
Proof. intros H. inversion H; subst. eauto. Qed.

Theorem C30_lossless : forall E b c s vocab merges d unk fu bf ig,
  pq_ok E -> new_bpe vocab merges d unk [] [] fu bf ig = Ok b -> reach_cache E b c ->
  NoDup (map fst vocab) -> NoDup (map snd vocab) ->
  s <> [] -> Forall (fun x => exists i, sfind [x] vocab = Some i) s ->
  not_direct b s \/ ~ no_dropout b ->
  exists ts, snd (bpe_word E b c s) = Ok ts /\
    concat (map tk_value ts) = s /\ tiles 0 (length s) (map tk_off ts) /\
    Forall (fun t => tk_value t = firstn (snd (tk_off t) - fst (tk_off t)) (skipn (fst (tk_off t)) s)) ts.
Proof.
  intros E b c s vocab merges d unk fu bf ig Hq Hb Hr Hk Hn Hs Hknown Hdir.
  pose proof (new_bpe_merges _ _ _ _ _ _ _ _ _ _ Hb) as Hmv.
  apply new_bpe_vocab in Hb as (Hm & Hv & _ & _ & Hpre & Hsuf & _).
  destruct (initial_eq b s) as (Hi & Hpos & _). rewrite Hpre, Hsuf in Hi.
  assert (Hpieces : pieces [] [] s = map (fun x => [x]) s).
  { unfold pieces. generalize (length s) at 1 as n. intros n. generalize 0 as a. clear. induction s as [|x s IH]; intros a; [reflexivity|].
    cbn [length seq combine map fst snd]. rewrite IH. f_equal. unfold piece_at. destruct (a =? 0), (S a =? n); reflexivity. }
  rewrite Hpieces in Hi.
  subst vocab.
  assert (Hitems : exists ids, items_of b (map (fun x => [x]) s) None = map (fun i => (i, 1)) ids /\ Forall2 (fun x i => sfind [x] (b_vocab b) = Some i) s ids).
  { clear - Hknown. induction Hknown as [|x s [i Hx] Hk IH]; [exists []; split; [reflexivity | constructor]|].
    destruct IH as (ids & E & F). exists (i :: ids). split; [|constructor; assumption].
    cbn [map items_of]. rewrite Hx. cbn [flush app]. rewrite E. reflexivity. }
  destruct Hitems as (ids & Hids & HF).
  assert (Hne : initial b s <> []).
  { rewrite Hi, Hids. destruct HF; [congruence | discriminate]. }
  destruct (merge_word_spec E b s Hq) as [[H1 _]|[_ (w & Hw & Hst & _)]]; [contradiction|].
  assert (Hvi : Forall (fun p => vocab_id (b_vocab b) (fst p)) (contents w)).
  { eapply steps_forall_vocab; [exact Hmv | exact Hst|]. rewrite Hi. apply items_vocab. discriminate. }
  destruct (word_to_tokens_ok (b_vocab b) w 0 Hvi) as [ts Hts]. exists ts.
  split; [rewrite (word_cold E b c s Hr Hdir), Hw; exact Hts|].
  assert (Hrule : forall p q r n, mfind p q (b_merges b) = Some (r, n) ->
     exists tp tq, sfind tp (b_vocab b) = Some p /\ sfind tq (b_vocab b) = Some q /\ sfind (tp ++ tq) (b_vocab b) = Some n).
  { intros p q r n Hf. apply (build_merges_spec _ _ _ _ _ _ Hm) in Hf. destruct Hf as [Hf|(_ & k & line & _ & _ & ([tp tq] & _ & G1 & G2 & G3) & _)]; [discriminate|].
    exists tp, tq. auto. }
  destruct (lossless_steps b _ _ Hn Hk Hrule Hst (map (fun x => [x]) s)) as (texts & HT & Hc).
  { rewrite Hi, Hids. clear - HF. induction HF as [|x i s ids Hx HF IH]; cbn; constructor; [split; [exact Hx | reflexivity] | exact IH]. }
  assert (Hcs : concat texts = s) by (rewrite Hc; clear; induction s as [|x s IH]; cbn; [reflexivity | rewrite IH; reflexivity]).
  destruct (word_to_tokens_spec _ _ _ _ Hts) as (Hid & Hseq & Hval & Htiles).
  assert (Htl : total_len (contents w) = length s).
  { rewrite (steps_total_len _ _ _ Hst), Hi, Hids. clear - HF. induction HF as [|x i s ids Hx HF IH]; cbn; [reflexivity|]. f_equal. exact IH. }
  rewrite Htl in Htiles. specialize (Htiles (steps_positive _ _ _ Hst Hpos)).
  assert (Htexts : map tk_value ts = texts).
  { clear - Hn Hid Hval HT. revert texts HT Hid. generalize (contents w). induction Hval as [|t ts Ht Hval IH]; intros l texts HT Hid.
    - destruct l; [|discriminate]. inversion HT; reflexivity.
    - destruct l as [|p l]; [discriminate|]. inversion HT as [|? tx ? txs [Hp _] HT']; subst. cbn in Hid. inversion Hid as [[E1 E2]]. cbn. f_equal; [|eapply IH; eassumption].
      rewrite E1 in Ht. apply sfind_in in Hp. rewrite (id_to_token_unique _ _ _ Hn Hp) in Ht. congruence. }
  split; [rewrite Htexts; exact Hcs|]. split; [exact Htiles|].
  (* each text is the slice *)
  assert (Hlen : Forall (fun t => length (tk_value t) = snd (tk_off t) - fst (tk_off t)) ts).
  { clear - HT Htexts Hseq. revert HT. rewrite <- Hseq, <- Htexts. clear. induction ts as [|t ts IH]; intros HT; [constructor|].
    cbn in HT. inversion HT as [|? ? ? ? [_ H1] H2]; subst. constructor; [exact H1 | apply IH; exact H2]. }
  cbn [Nat.add] in Htiles.
  assert (Hsl : forall a z ts', tiles a z (map tk_off ts') -> Forall (fun t => length (tk_value t) = snd (tk_off t) - fst (tk_off t)) ts' ->
     skipn a s = concat (map tk_value ts') ->
     Forall (fun t => tk_value t = firstn (snd (tk_off t) - fst (tk_off t)) (skipn (fst (tk_off t)) s)) ts').
  { intros a z ts'. revert a. induction ts' as [|t ts' IH]; intros a Ht Hl Ha; [constructor|].
    cbn [map] in Ht. remember (tk_off t) as o eqn:Eo. destruct (tiles_inv _ _ _ _ Ht) as (m & X2 & Hlt & Ht'). rewrite Eo in X2. symmetry in X2. clear Eo o Ht. inversion Hl as [|? ? Hl1 Hl2]; subst.
    cbn [map concat] in Ha. rewrite <- X2 in Hl1. cbn [fst snd] in Hl1. constructor.
    - rewrite <- X2. cbn [fst snd]. rewrite Ha, firstn_app, <- Hl1, firstn_all, Nat.sub_diag. cbn [firstn]. rewrite app_nil_r. reflexivity.
    - apply (IH m); [exact Ht' | exact Hl2|]. replace m with (a + (m - a)) by lia. rewrite <- skipn_skipn', Ha. rewrite <- Hl1, skipn_app, skipn_all, Nat.sub_diag. reflexivity. }
  apply (Hsl 0 (length s)); [exact Htiles | exact Hlen|]. cbn [skipn]. rewrite Htexts. symmetry. exact Hcs.
Qed.
Print Assumptions C30_lossless.

(** C31, C32. The initial symbols, exactly, when byte fallback is off. With an unknown token in the vocabulary: the known
    bytes' ids, and the unknown id for every unknown byte or (fuse_unk) every maximal run of unknown bytes. Without:
    unknown bytes leave no trace. *)
Theorem C32_initial_symbols : forall b s, b_byte_fallback b = false ->
  match unk_id b with
  | Some u => if b_fuse_unk b then fused u (lookups b s) (initial b s) else initial b s = unfused u (lookups b s)
  | None => initial b s = known_only (lookups b s)
  end.
Proof.
  intros b s Hf. destruct (initial_eq b s) as (-> & _). unfold lookups. destruct (unk_id b) as [u|] eqn:Eu.
  - destruct (b_fuse_unk b) eqn:Efu.
    + apply (items_fused b Hf u _ Eu Efu).
    + apply (items_unfused b Hf u _ Eu Efu).
  - apply (items_no_unk b Hf _ Eu).
Qed.
Print Assumptions C32_initial_symbols.

Lemma fused_len u l x : fused u l x -> total_len x = length l /\ (l <> [] -> x <> []).
Proof.
  induction 1 as [|i l r _ [IH _]|k l r Hk _ _ [IH _]]; cbn; [split; [reflexivity | congruence]| |].
  - split; [f_equal; exact IH | discriminate].
  - rewrite app_length, repeat_length. split; [f_equal; exact IH | discriminate].
Qed.
Lemma unfused_len u l : total_len (unfused u l) = length l /\ (l <> [] -> unfused u l <> []).
Proof.
  induction l as [|o l [IH _]]; cbn; [split; [reflexivity | congruence]|]. split; [|discriminate].
  destruct o; cbn; f_equal; exact IH.
Qed.
Lemma lookups_length b s : length (lookups b s) = length s.
Proof. unfold lookups, pieces. rewrite !map_length, combine_length, seq_length. lia. Qed.

(** C32. With no merges the tokens are exactly these symbols: their ids and lengths, with consecutive offsets from 0. *)
Theorem C32_unknown_tokens : forall E b c s ts,
  pq_ok E -> reach_cache E b c -> not_direct b s \/ ~ no_dropout b -> b_merges b = [] -> b_byte_fallback b = false ->
  snd (bpe_word E b c s) = Ok ts ->
  match unk_id b with
  | Some u => (if b_fuse_unk b then fused u (lookups b s) (token_seq ts) else token_seq ts = unfused u (lookups b s)) /\
              tiles 0 (length s) (map tk_off ts)
  | None => token_seq ts = known_only (lookups b s)
  end.
Proof.
  intros E b c s ts Hq Hr Hd Hm Hf H. destruct (word_ok E b c s ts Hq Hr Hd H) as (Hi & w & Hw & Hwt & Hts).
  destruct (merge_word_spec E b s Hq) as [[H1 _]|[_ (w' & Hw' & Hst & _)]]; [contradiction|]. assert (w' = w) by congruence. subst w'.
  assert (Hsame : contents w = initial b s).
  { rewrite Hm in Hst. clear - Hst. inversion Hst as [|y ? Hs _]; subst; [reflexivity|]. exfalso. destruct Hs as (rank & Hs). destruct Hs. discriminate. }
  pose proof (C32_initial_symbols b s Hf) as Hc. destruct (initial_eq b s) as (_ & Hp & _).
  destruct (word_to_tokens_spec _ _ _ _ Hwt) as (_ & _ & _ & Ht). rewrite Hsame in *. specialize (Ht Hp).
  rewrite Hts. destruct (unk_id b) as [u|]; [|exact Hc]. split; [exact Hc|].
  replace (length s) with (0 + total_len (initial b s)); [exact Ht|]. cbn [Nat.add]. destruct (b_fuse_unk b).
  - destruct (fused_len _ _ _ Hc) as [-> _]. apply lookups_length.
  - rewrite Hc. destruct (unfused_len u (lookups b s)) as [-> _]. apply lookups_length.
Qed.
Print Assumptions C32_unknown_tokens.

(** C31. With an unknown token in the vocabulary and byte fallback off, a non-empty word is always tokenized and its
    tokens account for every byte. *)
Theorem C31_accounts_for_all_bytes : forall E vocab merges d unk pre suf fu ig b c s u,
  pq_ok E -> new_bpe vocab merges d unk pre suf fu false ig = Ok b -> reach_cache E b c -> unk_id b = Some u ->
  s <> [] -> not_direct b s \/ ~ no_dropout b ->
  exists ts, snd (bpe_word E b c s) = Ok ts /\ total_len (token_seq ts) = length s /\ tiles 0 (length s) (map tk_off ts).
Proof.
  intros E vocab merges d unk pre suf fu ig b c s u Hq Hb Hr Hu Hs Hd.
  pose proof (new_bpe_merges _ _ _ _ _ _ _ _ _ _ Hb) as Hmv. apply new_bpe_vocab in Hb as (_ & Hv & _ & _ & _ & _ & _ & Hf & _).
  pose proof (C32_initial_symbols b s Hf) as Hc. rewrite Hu in Hc. destruct (initial_eq b s) as (Hi & Hp & _).
  assert (Hl : lookups b s <> []) by (intros E0; apply Hs; apply (f_equal (@length _)) in E0; rewrite lookups_length in E0; destruct s; [reflexivity | discriminate]).
  assert (Hne : initial b s <> [] /\ total_len (initial b s) = length s).
  { destruct (b_fuse_unk b).
    - destruct (fused_len _ _ _ Hc) as [H1 H2]. rewrite lookups_length in H1. auto.
    - rewrite Hc. destruct (unfused_len u (lookups b s)) as [H1 H2]. rewrite lookups_length in H1. auto. }
  destruct Hne as [Hne Htl].
  destruct (merge_word_spec E b s Hq) as [[H1 _]|[_ (w & Hw & Hst & _)]]; [contradiction|].
  assert (Hvi : Forall (fun p => vocab_id (b_vocab b) (fst p)) (contents w)).
  { eapply steps_forall_vocab; [exact Hmv | exact Hst|]. rewrite Hi. apply items_vocab. discriminate. }
  destruct (word_to_tokens_ok (b_vocab b) w 0 Hvi) as [ts Hts]. exists ts.
  split; [rewrite (word_cold E b c s Hr Hd), Hw; exact Hts|].
  destruct (word_to_tokens_spec _ _ _ _ Hts) as (_ & Hseq & _ & Ht).
  rewrite Hseq, (steps_total_len _ _ _ Hst). split; [exact Htl|].
  specialize (Ht (steps_positive _ _ _ Hst Hp)). rewrite (steps_total_len _ _ _ Hst), Htl in Ht. exact Ht.
Qed.
Print Assumptions C31_accounts_for_all_bytes.

(** Without an unknown token and byte fallback: the tokens account for the known bytes only, and the call is undefined
    exactly when no byte is known. *)
Theorem C31_unknown_bytes_dropped : forall E vocab merges d unk pre suf fu ig b c s,
  pq_ok E -> new_bpe vocab merges d unk pre suf fu false ig = Ok b -> reach_cache E b c -> unk_id b = None ->
  not_direct b s \/ ~ no_dropout b ->
  ((forall i, ~ In (Some i) (lookups b s)) -> snd (bpe_word E b c s) = Undef OobIndex) /\
  ((exists i, In (Some i) (lookups b s)) ->
     exists ts, snd (bpe_word E b c s) = Ok ts /\
       total_len (token_seq ts) = length (filter (fun o => match o with Some _ => true | None => false end) (lookups b s))).
Proof.
  intros E vocab merges d unk pre suf fu ig b c s Hq Hb Hr Hu Hd.
  pose proof (new_bpe_merges _ _ _ _ _ _ _ _ _ _ Hb) as Hmv. apply new_bpe_vocab in Hb as (_ & Hv & _ & _ & _ & _ & _ & Hf & _).
  pose proof (C32_initial_symbols b s Hf) as Hc. rewrite Hu in Hc. destruct (initial_eq b s) as (Hi & Hp & _).
  rewrite (word_cold E b c s Hr Hd). split.
  - intros Hnone. destruct (merge_word_spec E b s Hq) as [[_ ->]|[Hne _]]; [reflexivity|]. exfalso. apply Hne. rewrite Hc.
    clear - Hnone. induction (lookups b s) as [|[i|] l IH]; [reflexivity | | apply IH; intros i Hi; eapply Hnone; right; exact Hi].
    exfalso. eapply Hnone. left; reflexivity.
  - intros [i Hin].
    assert (Hlen : total_len (initial b s) = length (filter (fun o => match o with Some _ => true | None => false end) (lookups b s))).
    { rewrite Hc. clear. induction (lookups b s) as [|[i|] l IH]; cbn; [reflexivity | f_equal; exact IH | exact IH]. }
    destruct (merge_word_spec E b s Hq) as [[H1 _]|[_ (w & Hw & Hst & _)]].
    { exfalso. rewrite Hc in H1. clear - Hin H1. induction (lookups b s) as [|[j|] l IH]; [destruct Hin | discriminate |].
      destruct Hin as [E|Hin]; [discriminate | apply IH; assumption]. }
    assert (Hvi : Forall (fun p => vocab_id (b_vocab b) (fst p)) (contents w)).
    { eapply steps_forall_vocab; [exact Hmv | exact Hst|]. rewrite Hi. apply items_vocab. discriminate. }
    destruct (word_to_tokens_ok (b_vocab b) w 0 Hvi) as [ts Hts]. exists ts. rewrite Hw. split; [exact Hts|].
    destruct (word_to_tokens_spec _ _ _ _ Hts) as (_ & -> & _). rewrite (steps_total_len _ _ _ Hst). exact Hlen.
Qed.
Print Assumptions C31_unknown_bytes_dropped.

(** Refutation, for every conforming environment: "xa" over a vocabulary without x gives one token covering one byte;
    "x" alone is undefined behaviour; with byte fallback and an unknown token, "xby" lists the fallback token of b before
    the unknown token of x. *)
Definition drop_bpe : bpe := mkBpe [(str "a", 0)]%Z [] (QArith_base.Qmake 0 1) [] [] [] false false false.
Definition reorder_bpe : bpe := mkBpe [(str "<unk>", 0); (str "<000b>", 1); (str "y", 2)]%Z [] (QArith_base.Qmake 0 1) (str "<unk>") [] [] false true false.
Theorem C31_never_drops_refuted : forall E, pq_ok E ->
  snd (bpe_word E drop_bpe [] (str "xa")) = Ok [mkTok 0 (str "a") (0, 1)] /\
  snd (bpe_word E drop_bpe [] (str "x")) = Undef OobIndex /\
  snd (bpe_word E reorder_bpe [] (str "xby")) =
    Ok [mkTok 1 (str "<000b>") (0, 1); mkTok 0 (str "<unk>") (1, 2); mkTok 2 (str "y") (2, 3)].
Proof.
  intros E Hq. pose proof (Hq []) as H0.
  assert (Hnil : e_pq E [] = None).
  { destruct (e_pq E []) as [[t q]|]; [|reflexivity]. destruct H0 as [Hp _]. apply Permutation.Permutation_nil in Hp. discriminate. }
  assert (Hloop : forall f m d k w x, merge_loop E f m d k w [] x = Ok w).
  { intros f m d k w x. destruct f; cbn [merge_loop]; rewrite Hnil; reflexivity. }
  assert (Hmw : forall b s, b_merges b = [] -> merge_word E b s = match initial_symbols b s with [] => Undef OobIndex | w => Ok (filter (fun s => negb (s_len s =? 0)) w) end).
  { intros b s Hb. unfold merge_word, merge_all. rewrite Hb.
    assert (Hiq : forall w i, init_queue [] i w = []) by (induction w as [|x [|y w] IH]; intros i; [reflexivity | reflexivity | apply (IH (S i))]).
    destruct (initial_symbols b s); [reflexivity|]. rewrite Hiq, Hloop. reflexivity. }
  split; [|split]; unfold bpe_word; cbn [b_dropout drop_bpe reorder_bpe]; unfold tokenize_with_cache; cbn [b_ignore_merges drop_bpe reorder_bpe sfind];
    (rewrite Hmw; [vm_compute; reflexivity | reflexivity]).
Qed.
Print Assumptions C31_never_drops_refuted.

(** C33. What byte fallback really looks up: the text "<000" byte ">". With no unknown token, the initial symbols of a
    word are, in order, the id of each known piece and, for an unknown piece, the ids of those texts for its bytes. *)
Theorem C33_fallback_exact : forall b s, b_byte_fallback b = true -> unk_id b = None ->
  initial b s = flat_map (fun p => match sfind p (b_vocab b) with
                                   | Some i => [(i, 1)]
                                   | None => flat_map (fun y => match sfind (str "<000" ++ [y] ++ str ">") (b_vocab b) with Some i => [(i, 1)] | None => [] end) p
                                   end) (pieces (b_prefix b) (b_suffix b) s).
Proof. intros b s Hf Hu. destruct (initial_eq b s) as (-> & _). apply items_fallback; assumption. Qed.
Print Assumptions C33_fallback_exact.

(** Refutation: with the token <0xNN> of every byte in the vocabulary (and nothing else), every non-empty word is
    undefined behaviour. *)
Definition hex_digit (n : N) : N := (if n <? 10 then 48 + n else 55 + n)%N.
Definition byte_token (x : N) : bytes := str "<0x" ++ [hex_digit (x / 16); hex_digit (x mod 16)]%N ++ str ">".
Definition fallback_vocab : smap Z := map (fun n => (byte_token (N.of_nat n), Z.of_nat n)) (seq 0 256).
Definition fallback_bpe : bpe := mkBpe fallback_vocab [] (QArith_base.Qmake 0 1) [] [] [] false true false.
Theorem C33_fallback_refuted :
  (forall x, (x < 256)%N -> exists i, sfind (byte_token x) (b_vocab fallback_bpe) = Some i) /\
  (forall E s, pq_ok E -> snd (bpe_word E fallback_bpe [] s) = Undef OobIndex).
Proof.
  assert (Hkeys : forall k, (k <> [] -> hd_error k <> Some 60%N) \/ length k <> 6 -> sfind k fallback_vocab = None).
  { intros k Hk. apply sfind_none. intros Hin. unfold fallback_vocab in Hin. rewrite map_map in Hin. cbn [fst] in Hin.
    apply in_map_iff in Hin as (n & <- & _). destruct Hk as [Hk|Hk]; [apply Hk; [discriminate | reflexivity] | apply Hk; reflexivity]. }
  assert (Hfb : forall y, sfind (str "<000" ++ [y] ++ str ">") fallback_vocab = None).
  { intros y. apply sfind_none. intros Hin. unfold fallback_vocab in Hin. rewrite map_map in Hin. cbn [fst] in Hin.
    apply in_map_iff in Hin as (n & E & _). unfold byte_token in E. cbn in E. inversion E. }
  split.
  - intros x Hx. apply sfind_some_in. unfold fallback_bpe. cbn [b_vocab]. unfold fallback_vocab. rewrite map_map. cbn [fst].
    apply in_map_iff. exists (N.to_nat x). rewrite N2Nat.id. split; [reflexivity|]. apply in_seq. lia.
  - intros E s Hq. rewrite (word_cold E fallback_bpe [] s (reach_empty _ _)) by (left; intros H; discriminate).
    destruct (merge_word_spec E fallback_bpe s Hq) as [[_ ->]|[Hne _]]; [reflexivity|]. exfalso. apply Hne.
    rewrite (C33_fallback_exact fallback_bpe s eq_refl eq_refl). clear Hne. unfold pieces. cbn [b_prefix b_suffix fallback_bpe b_vocab].
    generalize (length s) at 1. intros n.
    match goal with |- flat_map ?F _ = [] => set (f := F) end. generalize 0 as a. induction s as [|x s IH]; intros a; [reflexivity|].
    cbn [length seq combine map flat_map fst snd].
    replace (piece_at [] [] n a x) with [x] by (unfold piece_at; destruct (a =? 0), (S a =? n); reflexivity).
    unfold f at 1. rewrite (Hkeys [x]) by (right; discriminate). cbn [flat_map]. rewrite Hfb. cbn [app]. apply IH.
Qed.
Print Assumptions C33_fallback_refuted.

(** C34. The cache is transparent: after any history of calls, tokenize gives exactly the outcome of a fresh model. *)
Theorem C34_cache_transparent : forall E b c p, reach_cache E b c ->
  snd (bpe_tokenize E b c p) = snd (bpe_tokenize E b [] p).
Proof.
  intros E b c p H. destruct (bpe_tokenize_transparent E b c p (reach_cache_ok E b c H)) as [-> _].
  destruct (bpe_tokenize_transparent E b [] p (cache_ok_nil E b)) as [-> _]. reflexivity.
Qed.
Print Assumptions C34_cache_transparent.

(** C35. For a model built by the constructor, a word with at least one initial symbol is always tokenized and every
    token is a vocabulary entry. *)
Theorem C35_ids_resolve : forall E vocab merges d unk pre suf fu bf ig b c s,
  pq_ok E -> new_bpe vocab merges d unk pre suf fu bf ig = Ok b -> reach_cache E b c -> initial b s <> [] ->
  exists ts, snd (bpe_word E b c s) = Ok ts /\ Forall (fun t => In (tk_value t, tk_id t) vocab) ts.
Proof.
  intros E vocab merges d unk pre suf fu bf ig b c s Hq Hb Hr Hne.
  pose proof (new_bpe_merges _ _ _ _ _ _ _ _ _ _ Hb) as Hmv. apply new_bpe_vocab in Hb as (_ & <- & _).
  destruct (initial_eq b s) as (Hi & Hp & _).
  assert (Hcold : exists ts, (w <- merge_word E b s ;; word_to_tokens (b_vocab b) 0 w) = Ok ts /\ Forall (fun t => In (tk_value t, tk_id t) (b_vocab b)) ts).
  { destruct (merge_word_spec E b s Hq) as [[H1 _]|[_ (w & Hw & Hst & _)]]; [contradiction|]. rewrite Hw. cbn [bind].
    assert (Hvi : Forall (fun p => vocab_id (b_vocab b) (fst p)) (contents w)).
    { eapply steps_forall_vocab; [exact Hmv | exact Hst|]. rewrite Hi. apply items_vocab. discriminate. }
    destruct (word_to_tokens_ok (b_vocab b) w 0 Hvi) as [ts Hts]. exists ts. split; [exact Hts|].
    destruct (word_to_tokens_spec _ _ _ _ Hts) as (_ & _ & Hv & _). eapply Forall_impl; [|exact Hv]. cbn. intros t. apply id_to_token_in. }
  destruct (bpe_word_transparent E b c s (reach_cache_ok E b c Hr)) as [-> _].
  unfold bpe_word. destruct (QArith_base.Qeq_bool (b_dropout b) (QArith_base.Qmake 0 1)); [|exact Hcold].
  unfold tokenize_with_cache. destruct (if b_ignore_merges b then sfind s (b_vocab b) else None) as [i|] eqn:Ed.
  - exists [mkTok i s (0, 0)]. split; [reflexivity|]. constructor; [|constructor]. cbn. apply sfind_in. destruct (b_ignore_merges b); [exact Ed | discriminate].
  - cbn [sfind]. destruct Hcold as (ts & Hts & Hv). exists ts. split; [|exact Hv]. apply bind_ok in Hts as (w & -> & ->). reflexivity.
Qed.
Print Assumptions C35_ids_resolve.

(** C36. Dropout larger than every draw: no merge at all. With dropout the cache is never written. The outcome depends on
    the word only. *)
Theorem C36_full_dropout : forall E b c s ts,
  pq_ok E -> reach_cache E b c -> ~ no_dropout b -> (forall k, QArith_base.Qlt (e_draw E k) (b_dropout b)) ->
  snd (bpe_word E b c s) = Ok ts -> token_seq ts = initial b s.
Proof.
  intros E b c s ts Hq Hr Hd Hk H. destruct (word_ok E b c s ts Hq Hr (or_intror Hd) H) as (Hi & w & Hw & _ & ->).
  destruct (merge_word_spec E b s Hq) as [[H1 _]|[_ (w' & Hw' & _ & _ & Hall)]]; [contradiction|]. assert (w' = w) by congruence. subst w'.
  apply Hall. intros k. unfold dropped.
  destruct (QArith_base.Qeq_bool (b_dropout b) (QArith_base.Qmake 0 1)) eqn:E0; [exfalso; apply Hd, no_dropout_bool; exact E0|]. cbn [negb andb].
  destruct (QArith_base.Qle_bool (b_dropout b) (e_draw E k)) eqn:E1; [|reflexivity].
  apply QArith_base.Qle_bool_iff in E1. exfalso. exact (QArith_base.Qlt_not_le _ _ (Hk k) E1).
Qed.
Print Assumptions C36_full_dropout.

Theorem C36_dropout_bypasses_cache : forall E b c p, ~ no_dropout b ->
  bpe_tokenize E b c p = (c, snd (bpe_tokenize E b [] p)).
Proof.
  intros E b c p Hd.
  assert (Hw : forall c s, bpe_word E b c s = (c, snd (bpe_word E b [] s))).
  { intros c0 s. unfold bpe_word. destruct (QArith_base.Qeq_bool (b_dropout b) (QArith_base.Qmake 0 1)) eqn:E0; [exfalso; apply Hd, no_dropout_bool; exact E0 | reflexivity]. }
  assert (Hs : forall l c, bpe_splits E b c l = (c, snd (bpe_splits E b [] l))).
  { induction l as [|s l IH]; intros c0; [reflexivity|]. cbn [bpe_splits]. rewrite (Hw c0), (Hw []). cbn [snd].
    destruct (snd (bpe_word E b [] (sp_text s))); [|reflexivity..]. rewrite (IH c0), (IH []). reflexivity. }
  unfold bpe_tokenize. rewrite (Hs _ c), (Hs _ []). reflexivity.
Qed.
Print Assumptions C36_dropout_bypasses_cache.

Theorem C36_deterministic : forall E b c1 c2 s, reach_cache E b c1 -> reach_cache E b c2 ->
  snd (bpe_word E b c1 s) = snd (bpe_word E b c2 s).
Proof.
  intros E b c1 c2 s H1 H2. destruct (bpe_word_transparent E b c1 s (reach_cache_ok _ _ _ H1)) as [-> _].
  destruct (bpe_word_transparent E b c2 s (reach_cache_ok _ _ _ H2)) as [-> _]. reflexivity.
Qed.
Print Assumptions C36_deterministic.

(** C37. A vocabulary word under ignore_merges (dropout 0): one token with the word's id and text; its span is (0,0). *)
Theorem C37_ignore_merges : forall E b c s i,
  b_ignore_merges b = true -> no_dropout b -> sfind s (b_vocab b) = Some i ->
  bpe_word E b c s = (c, Ok [mkTok i s (0, 0)]).
Proof.
  intros E b c s i Hig Hd Hs. unfold bpe_word. rewrite (proj1 (no_dropout_bool b) Hd). unfold tokenize_with_cache. rewrite Hig, Hs. reflexivity.
Qed.
Print Assumptions C37_ignore_merges.

(** Refutation of the span for every such model and every non-empty vocabulary word. *)
Theorem C37_span_refuted : forall E b c s i t,
  b_ignore_merges b = true -> no_dropout b -> sfind s (b_vocab b) = Some i -> s <> [] ->
  snd (bpe_word E b c s) = Ok [t] -> tk_off t <> (0, length s).
Proof.
  intros E b c s i t Hig Hd Hs Hne H. rewrite (C37_ignore_merges E b c s i Hig Hd Hs) in H. inversion H; subst t. cbn.
  destruct s; [congruence | discriminate].
Qed.
Print Assumptions C37_span_refuted.

(** Witnesses: a model with merges, on which the hypotheses of the theorems above hold. *)
Definition low_vocab : smap Z :=
  [(str "l", 0); (str "o", 1); (str "w", 2); (str "e", 3); (str "r", 4); (str "lo", 5); (str "low", 6); (str "er", 7); (str "<unk>", 8); (str "lower", 9)]%Z.
Definition low_merges : list (bytes * bytes) := [(str "l", str "o"); (str "lo", str "w"); (str "e", str "r")].
Definition low_bpe (drop : QArith_base.Q) (fuse ignore : bool) : res bpe :=
  new_bpe low_vocab (map merge_line low_merges) drop (str "<unk>") [] [] fuse false ignore.
Definition tokens_of (b : res bpe) (s : bytes) : res (list (Z * (nat * nat))) :=
  x <- b ;; r <- snd (bpe_word test_env x [] s) ;; Ok (map (fun t => (tk_id t, tk_off t)) r).
Example bpe_witness_plain : tokens_of (low_bpe (QArith_base.Qmake 0 1) true false) (str "lower") = Ok [(6%Z, (0, 3)); (7%Z, (3, 5))].
Proof. vm_compute. reflexivity. Qed.
Example bpe_witness_fused : tokens_of (low_bpe (QArith_base.Qmake 0 1) true false) (str "xyler") = Ok [(8%Z, (0, 2)); (0%Z, (2, 3)); (7%Z, (3, 5))].
Proof. vm_compute. reflexivity. Qed.
Example bpe_witness_unfused : tokens_of (low_bpe (QArith_base.Qmake 0 1) false false) (str "xyl") = Ok [(8%Z, (0, 1)); (8%Z, (1, 2)); (0%Z, (2, 3))].
Proof. vm_compute. reflexivity. Qed.
Example bpe_witness_dropout : tokens_of (low_bpe (QArith_base.Qmake 1 1) false false) (str "lower")
  = Ok [(0%Z, (0, 1)); (1%Z, (1, 2)); (2%Z, (2, 3)); (3%Z, (3, 4)); (4%Z, (4, 5))].
Proof. vm_compute. reflexivity. Qed.
Example bpe_witness_ignore : tokens_of (low_bpe (QArith_base.Qmake 0 1) false true) (str "lower") = Ok [(9%Z, (0, 0))].
Proof. vm_compute. reflexivity. Qed.
Example bpe_witness_hyps :
  NoDup (map fst low_vocab) /\ NoDup (map snd low_vocab) /\ Forall (fun l => field (fst l) /\ field (snd l)) low_merges /\
  Forall (fun x => exists i, sfind [x] low_vocab = Some i) (str "lower") /\
  exists b, low_bpe (QArith_base.Qmake 0 1) true false = Ok b /\ distinct_results (b_merges b).
Proof.
  split; [|split; [|split; [|split]]].
  - repeat (constructor; [cbn; intuition discriminate|]). constructor.
  - repeat (constructor; [cbn; intuition discriminate|]). constructor.
  - assert (F : forall p, p <> [] -> forallb (fun x => negb (is_space_ascii x)) p = true -> field p).
    { intros p Hp H. split; [exact Hp|]. apply Forall_forall. intros x Hx. rewrite forallb_forall in H. specialize (H x Hx). apply space_black. destruct (is_space_ascii x); [discriminate | reflexivity]. }
    unfold low_merges. repeat (apply Forall_cons; [split; (apply F; [vm_compute; discriminate | reflexivity])|]). apply Forall_nil.
  - repeat (constructor; [eexists; vm_compute; reflexivity|]). constructor.
  - eexists. split; [vm_compute; reflexivity|]. intros a b r a' b' r' n H1 H2. cbn in H1, H2.
    repeat match type of H1 with (if ?c then _ else _) = _ => destruct c eqn:?; [|] end; try discriminate;
    repeat match type of H2 with (if ?c then _ else _) = _ => destruct c eqn:?; [|] end; try discriminate;
    inversion H1; subst; try discriminate; split; lia.
Qed.
Example bpe_witness_history : exists b c, low_bpe (QArith_base.Qmake 0 1) true false = Ok b /\ reach_cache test_env b c /\ c <> [].
Proof.
  eexists. eexists. split; [vm_compute; reflexivity|]. split.
  - eapply (reach_call _ _ [] (mkPt (Normalizer.mkNs [] [] []) [mkSplit (str "low") (0, 3) []])); [constructor | vm_compute; reflexivity].
  - discriminate.
Qed.
