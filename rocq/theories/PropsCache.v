(** C102: what the BPE cache holds. [reach_cache], [initial] are in BpeSpec.v, [encodable], [whole_word] in BpeRefSpec.v, [words_of] in CutSpec.v. *)
From Verif Require Import Base BaseFacts Unicode UnicodeProofs Common Utils PostProcessor Decoder Normalizer PreTokenizer WordPiece Bpe AddedVocab Tokenizer Spec
  NormSpec NormProofs PreSpec AvSpec AvProofs ExtractProofs TzSpec TzProofs WpSpec OffSpec OffProofs RefSpec RefProofs BpeSpec BpeProofs BpeWord PropsBpe UnkSpec BpeRefSpec PropsBpeText Env CutSpec PropsCut.
From Coq Require Import ZifyBool ZifyNat Relations Permutation.

(** the words the cache has an entry for *)
Definition cached (c : cache) : list bytes := map fst c.
(** The call gets as far as this word: all words before it and the word itself have tokens. *)
Definition reached (E : env) (b : bpe) (l : list split) (s : bytes) : Prop :=
  exists A x B, l = A ++ x :: B /\ sp_text x = s /\ Forall (fun y => exists ts, snd (bpe_word E b [] (sp_text y)) = Ok ts) (A ++ [x]).

Lemma sfind_none_keys {V} k (m : smap V) : sfind k m = None <-> ~ In k (map fst m).
Proof.
  induction m as [|[k' v] m IH]; [split; [intros _ [] | reflexivity]|]. cbn [sfind map fst In]. destruct (leqb_spec k k') as [->|Hn].
  - split; [discriminate | intros H; exfalso; apply H; left; reflexivity].
  - rewrite IH. split; [intros H [E|E]; [congruence | auto] | intros H E; apply H; right; exact E].
Qed.
Lemma insert_keys {V} k (v : V) m : NoDup (map fst m) -> NoDup (map fst (sinsert k v m)) /\ forall s, In s (map fst (sinsert k v m)) <-> In s (map fst m) \/ s = k.
Proof.
  intros Hm. unfold sinsert. destruct (sfind k m) as [w|] eqn:Ef.
  - split; [exact Hm|]. intros s. split; [auto|]. intros [H| ->]; [exact H|]. destruct (in_dec (list_eq_dec N.eq_dec) k (map fst m)) as [|Hn]; [assumption|]. apply sfind_none_keys in Hn. congruence.
  - rewrite map_app. cbn [map fst]. split.
    + apply sfind_none_keys in Ef. clear - Hm Ef. induction (map fst m) as [|x l IH]; [repeat constructor; auto|]. cbn [app]. apply NoDup_cons_iff in Hm as [H1 H2]. constructor; [rewrite in_app_iff; intros [H|[H|[]]]; [auto | subst; apply Ef; left; reflexivity] | apply IH; [exact H2 | intros H; apply Ef; right; exact H]].
    + intros s. rewrite in_app_iff. cbn [In]. intuition congruence.
Qed.
Lemma word_keys E b c s : cache_ok E b c -> no_dropout b -> NoDup (cached c) ->
  NoDup (cached (fst (bpe_word E b c s))) /\ forall x, In x (cached (fst (bpe_word E b c s))) <-> In x (cached c) \/ (x = s /\ not_direct b s /\ exists ts, snd (bpe_word E b [] s) = Ok ts).
Proof.
  intros Hc Hd Hn. unfold bpe_word. unfold no_dropout in Hd. rewrite (proj2 (QArith_base.Qeq_bool_iff _ _) Hd). unfold tokenize_with_cache, not_direct.
  destruct (b_ignore_merges b); [destruct (sfind s (b_vocab b)) as [i|] eqn:Es|]; cbn [fst snd]; [split; [exact Hn|]; intros x; split; [auto|]; intros [H|(_ & H & _)]; [exact H | specialize (H eq_refl); discriminate]|..].
  all: cbn [sfind]; destruct (sfind s c) as [w|] eqn:Ec; cbn [fst snd].
  1, 3: split; [exact Hn|]; intros x; split; [auto|]; intros [H|(-> & _)]; [exact H|]; destruct (in_dec (list_eq_dec N.eq_dec) s (cached c)) as [|HN]; [assumption | apply sfind_none_keys in HN; congruence].
  all: destruct (merge_word E b s) as [w| | |]; cbn [fst snd]; try (split; [exact Hn|]; intros x; split; [auto|]; intros [H|(_ & _ & ts & H)]; [exact H | discriminate]).
  all: destruct (word_to_tokens (b_vocab b) 0 w) as [ts| | |]; cbn [fst snd]; try (split; [exact Hn|]; intros x; split; [auto|]; intros [H|(_ & _ & ts & H)]; [exact H | discriminate]).
  all: destruct (insert_keys s w c Hn) as [K1 K2]; split; [exact K1|]; intros x; unfold cached; rewrite K2; split; [intros [H| ->]; [left; exact H | right; split; [reflexivity|]; split; [congruence | eauto]] | intros [H|(H & _)]; auto].
Qed.
Lemma splits_keys E b : no_dropout b -> forall l c, cache_ok E b c -> NoDup (cached c) ->
  NoDup (cached (fst (bpe_splits E b c l))) /\ forall x, In x (cached (fst (bpe_splits E b c l))) <-> In x (cached c) \/ (reached E b l x /\ not_direct b x).
Proof.
  intros Hd. induction l as [|s l IH]; intros c Hc Hn.
  - split; [exact Hn|]. intros x. cbn [bpe_splits fst]. split; [auto|]. intros [H|((A & y & B & H & _) & _)]; [exact H | destruct A; discriminate].
  - cbn [bpe_splits]. destruct (word_keys E b c (sp_text s) Hc Hd Hn) as [W1 W2]. destruct (bpe_word_transparent E b c (sp_text s) Hc) as [T1 T2].
    assert (Hstop : (forall ts, snd (bpe_word E b [] (sp_text s)) <> Ok ts) -> forall x, ~ reached E b (s :: l) x).
    { intros Hf x (A & y & B & HA & _ & HF). destruct A as [|a A]; injection HA as <- _; cbn [app] in HF; apply Forall_inv in HF as [ts HF]; exact (Hf ts HF). }
    assert (Hcons : forall ts x, snd (bpe_word E b [] (sp_text s)) = Ok ts -> reached E b (s :: l) x <-> x = sp_text s \/ reached E b l x).
    { intros ts x Hts. split.
      - intros (A & y & B & HA & <- & HF). destruct A as [|a A]; injection HA as <- HA; [left; reflexivity|]. right. exists A, y, B. split; [exact HA|]. split; [reflexivity|]. exact (Forall_inv_tail HF).
      - intros [-> |(A & y & B & HA & Hy & HF)]; [exists [], s, l; split; [reflexivity|]; split; [reflexivity|]; constructor; [eauto | constructor]|]. exists (s :: A), y, B. rewrite HA. split; [reflexivity|]. split; [exact Hy|]. constructor; [eauto | exact HF]. }
    destruct (bpe_word E b c (sp_text s)) as [c' [ts| | |]]; cbn [fst snd] in *.
    2-4: split; [exact W1|]; intros x; rewrite W2; rewrite <- T1; split; [intros [H|(_ & _ & ts & H)]; [auto | discriminate] | intros [H|[H _]]; [auto | exfalso; eapply Hstop; [|exact H]; rewrite <- T1; discriminate]].
    destruct (IH c' T2 W1) as [I1 I2]. destruct (bpe_splits E b c' l) as [c'' rest]. cbn [fst snd] in *. split; [exact I1|]. intros x. rewrite I2, W2, (Hcons ts x (eq_sym T1)). rewrite <- T1.
    split; [intros [[H|(-> & H & _)]|[H H']]; auto | intros [H|[[-> |H] H']]; [auto | left; right; split; [reflexivity|]; split; [exact H' | eauto] | auto]].
Qed.
Lemma reach_nodup E b c : reach_cache E b c -> no_dropout b -> NoDup (cached c).
Proof.
  induction 1 as [|c p c' r Hr IH Hc]; intros Hd; [constructor|]. specialize (IH Hd). destruct (splits_keys E b Hd (pt_splits p) c (reach_cache_ok E b c Hr) IH) as [H _]. unfold bpe_tokenize in Hc. destruct (bpe_splits E b c (pt_splits p)) as [c1 r1]. injection Hc as <- _. exact H.
Qed.

(** One call: the cache keeps every entry, gets one for every word of the call that was merged before the call ended, and no other; every word has at most one entry, the
    result of merging it. *)
Theorem C102_call : forall E b c p, reach_cache E b c -> no_dropout b ->
  NoDup (cached (fst (bpe_tokenize E b c p))) /\
  (forall s, In s (cached (fst (bpe_tokenize E b c p))) <-> In s (cached c) \/ (reached E b (pt_splits p) s /\ not_direct b s)) /\
  (forall s w, In (s, w) (fst (bpe_tokenize E b c p)) -> merge_word E b s = Ok w).
Proof.
  intros E b c p Hr Hd. destruct (splits_keys E b Hd (pt_splits p) c (reach_cache_ok E b c Hr) (reach_nodup E b c Hr Hd)) as [H1 H2].
  assert (H3 : cache_ok E b (fst (bpe_tokenize E b c p))) by (apply bpe_tokenize_transparent, reach_cache_ok, Hr).
  unfold bpe_tokenize in *. destruct (bpe_splits E b c (pt_splits p)) as [c1 r1]. cbn [fst] in *. split; [exact H1|]. split; [exact H2|]. intros s w Hin. apply H3. clear - H1 Hin. unfold cached in H1.
  induction c1 as [|[k v] c1 IH]; [destruct Hin|]. cbn [map fst] in H1. apply NoDup_cons_iff in H1 as [N1 N2]. cbn [sfind]. destruct (leqb_spec s k) as [->|Hk]; destruct Hin as [Hin|Hin].
  - injection Hin as ->. reflexivity.
  - exfalso. apply N1. apply (in_map fst) in Hin. exact Hin.
  - congruence.
  - auto.
Qed.
Print Assumptions C102_call.

(** With dropout the cache is never written (C36_dropout_bypasses_cache). *)

(** One text: encode adds the words of the text that are merged, whatever truncation, post-processing and padding do afterwards. *)
Theorem C102_encode : forall E fuel t vocab merges d unk pre suf fu bf ig b c s n l add, pq_ok E -> new_bpe vocab merges d unk pre suf fu bf ig = Ok b ->
  tz_model t = Some (MBpe b c) -> reach_cache E b c -> no_dropout b -> s <> [] -> forallb valid_cp s = true -> forallb valid_cp n = true -> normalized_in_place E t s n ->
  words_of E (tz_pre t) n l -> Forall (fun p => encodable b (snd p)) l ->
  exists c', tz_model (fst (encode E fuel t s add)) = Some (MBpe b c') /\ NoDup (cached c') /\
    forall x, In x (cached c') <-> In x (cached c) \/ (exists p, In p l /\ x = utf8_encs (snd p) /\ forall i, ~ whole_word b (snd p) i).
Proof.
  intros E fuel t vocab merges d unk pre suf fu bf ig b c s n l add Hq Hb Hm Hr Hd Hne Hv Hvn HN HW HE. destruct (prepare_words E t s n l Hne Hv Hvn HN HW) as (A & av & junk & q & P1 & <-). rewrite Forall_map in HE. cbn [fst snd] in HE.
  set (p := mkPt (numbered_ns (unit_sizes s) junk s) (map (fun p => mkSplit (utf8_encs (fst p)) (snd p) []) q)) in *. destruct (C102_call E b c p Hr Hd) as (C1 & C2 & _).
  exists (fst (bpe_tokenize E b c p)). split; [|split; [exact C1|]].
  - unfold encode. rewrite P1. unfold set_av. cbn [tz_model]. rewrite Hm. cbn [model_tokenize]. destruct (bpe_tokenize E b c p) as [c' r]. reflexivity.
  - intros x. rewrite C2. subst p. cbn [pt_splits].
    assert (Hall : Forall (fun y => exists ts, snd (bpe_word E b [] (sp_text y)) = Ok ts) (map (fun p : wstr * (nat * nat) => mkSplit (utf8_encs (fst p)) (snd p) []) q)).
    { rewrite Forall_map. cbn [sp_text]. eapply Forall_impl; [|exact HE]. intros [w o] He. cbn [fst] in *. destruct (word_cases E b vocab merges d unk pre suf fu bf ig Hq Hb w) as [(_ & ts & T & _)|(Hno & _)]; [eauto | contradiction]. }
    assert (HD : forall w, not_direct b (utf8_encs w) <-> forall i, ~ whole_word b w i).
    { intros w. unfold not_direct, whole_word. unfold no_dropout in Hd. split; [intros H i (H1 & _ & H2); rewrite (H H1) in H2; discriminate|]. intros H Hi. destruct (sfind (utf8_encs w) (b_vocab b)) as [i|]; [|reflexivity]. exfalso. apply (H i). auto. }
    split.
    + intros [H|((X & y & Y & HX & <- & _) & Hnd)]; [auto|]. right. assert (Hin : In y (X ++ y :: Y)) by (apply in_or_app; right; left; reflexivity). rewrite <- HX in Hin.
      apply in_map_iff in Hin as ([w o] & <- & Hin). cbn [sp_text fst] in *. exists (fst o, w). split; [apply in_map_iff; exists (w, o); split; [reflexivity | exact Hin]|]. split; [reflexivity|]. apply HD. exact Hnd.
    + intros [H|([pos w] & Hin & -> & Hw)]; [auto|]. right. cbn [snd] in *. split; [|apply HD; exact Hw]. apply in_map_iff in Hin as ([w' o] & Hwo & Hin). cbn [fst snd] in Hwo. injection Hwo as _ ->.
      apply (in_map (fun p : wstr * (nat * nat) => mkSplit (utf8_encs (fst p)) (snd p) [])) in Hin. apply in_split in Hin as (X & Y & HXY). exists X, (mkSplit (utf8_encs w) o []), Y. split; [exact HXY|]. split; [reflexivity|].
      assert (Hall' := Hall). unfold wstr in *. rewrite HXY in Hall'. apply Forall_app in Hall' as [H1 H2]. apply Forall_app. split; [exact H1|]. constructor; [exact (Forall_inv H2) | constructor].
Qed.
Print Assumptions C102_encode.

(** The cache is never bounded: after calls with [k] different words it has [k] entries, for every [k]. *)
Definition one_word (s : bytes) : pretok := mkPt (new_nstring []) [mkSplit s (0, length s) []].
Definition after_words (E : env) (b : bpe) (ws : list bytes) : cache := fold_left (fun c s => fst (bpe_tokenize E b c (one_word s))) ws [].
Theorem C102_grows : forall E b ws, no_dropout b -> NoDup ws -> Forall (fun s => not_direct b s /\ exists ts, snd (bpe_word E b [] s) = Ok ts) ws -> length (after_words E b ws) = length ws.
Proof.
  intros E b ws Hd Hn HF.
  assert (K : forall ws, Forall (fun s => not_direct b s /\ exists ts, snd (bpe_word E b [] s) = Ok ts) ws -> forall c, reach_cache E b c ->
    reach_cache E b (fold_left (fun c s => fst (bpe_tokenize E b c (one_word s))) ws c) /\ forall s, In s (cached (fold_left (fun c s => fst (bpe_tokenize E b c (one_word s))) ws c)) <-> In s (cached c) \/ In s ws).
  { clear - Hd. induction 1 as [|w ws [Hw1 [ts Hw2]] _ IH]; intros c Hr; [split; [exact Hr|]; intros s; cbn; tauto|]. cbn [fold_left]. destruct (C102_call E b c (one_word w) Hr Hd) as (_ & C2 & _).
    assert (Hr' : reach_cache E b (fst (bpe_tokenize E b c (one_word w)))) by (destruct (bpe_tokenize E b c (one_word w)) as [c' r] eqn:Ec; exact (reach_call E b c (one_word w) c' r Hr Ec)).
    destruct (IH _ Hr') as [I1 I2]. split; [exact I1|]. intros s. rewrite I2, C2. cbn [In one_word pt_splits]. split.
    - intros [[H|((A & x & B & HA & <- & _) & _)]|H]; auto. destruct A as [|a A]; [injection HA as <- _; auto | injection HA as _ HA; destruct A; discriminate].
    - intros [H|[<- |H]]; auto. left. right. split; [|exact Hw1]. exists [], (mkSplit w (0, length w) []), []. split; [reflexivity|]. split; [reflexivity|]. constructor; [eauto | constructor]. }
  destruct (K ws HF [] (reach_empty E b)) as [K1 K2]. unfold after_words. rewrite <- (map_length fst). apply Permutation_length. apply NoDup_Permutation; [exact (reach_nodup E b _ K1 Hd) | exact Hn|]. intros s. rewrite (K2 s). cbn [cached map In]. tauto.
Qed.
Print Assumptions C102_grows.

(** *** Cases *)
Example C102_case : exists c', tz_model (fst (encode test_env 0 (abt []) (str "ab b ab") true)) = Some (MBpe (abt_bpe []) c') /\ cached c' = [str "ab"; str "b"] /\
  words_of test_env (tz_pre (abt [])) (str "ab b ab") [(0, str "ab"); (3, str "b"); (5, str "ab")] /\ Forall (fun p => encodable (abt_bpe []) (snd p)) [(0, str "ab"); (3, str "b"); (5, str "ab")] /\
  no_dropout (abt_bpe []) /\ normalized_in_place test_env (abt []) (str "ab b ab") (str "ab b ab").
Proof.
  eexists. split; [vm_compute; reflexivity|]. split; [vm_compute; reflexivity|]. split; [|split; [|split; [vm_compute; reflexivity | split; [reflexivity | split; [apply le_n | discriminate]]]]].
  - exists [[(0, str "ab"); (3, str "b"); (5, str "ab")]]. split; [|reflexivity]. constructor; [|constructor]. cbn [fst snd].
    apply (bs_word _ _ 0 (str "ab") (str " b ab")); [discriminate | repeat constructor | left; reflexivity|]. apply bs_space; [reflexivity|].
    apply (bs_word _ _ 3 (str "b") (str " ab")); [discriminate | repeat constructor | left; reflexivity|]. apply bs_space; [reflexivity|].
    apply (bs_word _ _ 5 (str "ab") []); [discriminate | repeat constructor | exact I | constructor].
  - repeat (apply Forall_cons; [right; vm_compute; lia|]). apply Forall_nil.
Qed.
