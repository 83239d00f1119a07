(** Concurrent encode calls: C71. The threads, [reachable] and [race] are in Concurrent.v. *)
From Verif Require Import Base BaseFacts Unicode Common Utils PostProcessor Decoder Normalizer PreTokenizer WordPiece Bpe AddedVocab Tokenizer Spec BpeSpec BpeProofs BpeWord AvSpec AvProofs HistSpec HistProofs TzSpec TzProofs
  Concurrent ConcProofs PropsEncode PropsBpe PropsRound Env.

(** ** C71 *)
(** The program whose steps are interleaved is encode: alone it returns what encode returns (or fails as encode fails), and leaves the tokenizer encode leaves. *)
Theorem C71_program_is_encode : forall E fuel t s add, snd (run (encode_prog E fuel t s add) (shared_of t)) = snd (encode E fuel t s add) /\
  fst (encode E fuel t s add) = with_shared t (fst (run (encode_prog E fuel t s add) (shared_of t))).
Proof. intros E fuel t s add. destruct (encode_run E fuel t s add) as [H1 H2]. rewrite H1. split; [reflexivity | exact H2]. Qed.
Print Assumptions C71_program_is_encode.

(** Whatever the schedule, with any number of calls at any time, every finished call has the sequential result, if one access to a shared member is one step.
    What is missing is exactly that: nothing in the code makes them so (below). *)
Theorem C71_sequential_results : forall E fuel t calls, (forall b c, tz_model t = Some (MBpe b c) -> reach_cache E b c) ->
  forall sh cs, reachable E fuel t calls (sh, cs) -> forall c r, In c cs -> c_prog c = Done r -> r = snd (encode E fuel t (c_text c) (c_add c)).
Proof.
  intros E fuel t calls Hm. assert (Hok : forall b c, tz_model t = Some (MBpe b c) -> cache_ok E b c) by (intros b c H; apply reach_cache_ok, Hm, H).
  assert (HI : forall x, reachable E fuel t calls x -> sh_ok E (sh_map_r (shared_of t)) (model_bpe (tz_model t)) (fst x) /\
     Forall (fun c => good E (sh_map_r (shared_of t)) (model_bpe (tz_model t)) (c_prog c) (snd (encode E fuel t (c_text c) (c_add c)))) (snd x)).
  { intros x H. induction H as [|x y _ [I1 I2] Hs].
    - split; [|constructor]. cbn [fst]. split; [reflexivity|]. unfold shared_of, cache_fact, model_bpe. cbn [sh_cache]. destruct (tz_model t) as [[w|b c]|]; [discriminate | | discriminate]. apply (Hok b c eq_refl).
    - destruct x as [sh cs], y as [sh' cs']. cbn [fst snd] in *. split.
      + inversion Hs as [|? ? l c r p Hp]; subst; [exact I1|]. apply Forall_app in I2 as [_ I2]. apply Forall_inv in I2. eapply good_step; eassumption.
      + eapply pool_step; [| |exact I2|exact Hs].
        * intros s add _. cbn [c_prog c_text c_add]. apply good_encode, Hok.
        * intros c sh1 p Hg Hp. cbn [c_prog c_text c_add]. eapply good_step; eassumption. }
  intros sh cs H c r Hc Hd. destruct (HI _ H) as [_ HF]. cbn [snd] in HF. rewrite Forall_forall in HF. specialize (HF c Hc). rewrite Hd in HF. exact HF.
Qed.
Print Assumptions C71_sequential_results.

(** A call in progress never waits for another one: left alone it finishes. *)
Theorem C71_no_waiting : forall E fuel t calls sh l c r, reachable E fuel t calls (sh, l ++ c :: r) ->
  exists sh' x, reachable E fuel t calls (sh', l ++ mkCall (c_text c) (c_add c) (Done x) :: r).
Proof.
  intros E fuel t calls sh l c r. destruct c as [s add p]. cbn [c_text c_add]. revert sh. induction p as [x|i k IH|w k IH|w y k IH]; intros sh H; [eauto | | |].
  - eapply IH. eapply r_step; [exact H|]. apply (st_access E fuel t calls sh _ l (mkCall s add (Lookup i k)) r). apply ps_lookup.
  - eapply IH. eapply r_step; [exact H|]. apply (st_access E fuel t calls sh _ l (mkCall s add (Find w k)) r). apply ps_find.
  - eapply IH. eapply r_step; [exact H|]. apply (st_access E fuel t calls sh _ l (mkCall s add (Insert w y k)) r). apply ps_insert.
Qed.
Print Assumptions C71_no_waiting.

(** The property fails: whenever an encode call leaves the tokenizer other than it was (its cache has a new word, say), two such calls at once have a data race. *)
Theorem C71_race_refuted : forall E fuel t s add t' r, encode E fuel t s add = (t', r) -> t' <> t ->
  exists x, reachable E fuel t (fun s' add' => s' = s /\ add' = add) x /\ race x.
Proof.
  intros E fuel t s add t' r H Hne. set (p := encode_prog E fuel t s add). destruct (encode_run E fuel t s add) as [H2 H3]. rewrite H in H2, H3. cbn [fst snd] in H2, H3.
  destruct (tidy_writes p (shared_of t) (tidy_encode E fuel t s add)) as [Hs|(_ & q & m & Hq & Hn)].
  - exfalso. apply Hne. rewrite H3. fold p in H2. pose proof (stays_run p _ Hs) as HS. rewrite H2 in HS. cbn [fst] in HS. rewrite HS. apply with_shared_same.
  - exists (shared_of t, [mkCall s add q; mkCall s add q]). split.
    + set (calls := fun s' add' => s' = s /\ add' = add).
      assert (R1 : reachable E fuel t calls (shared_of t, [] ++ mkCall s add q :: [])).
      { apply (reach_move E fuel t calls _ [] (mkCall s add p) [] q); [|exact Hq]. eapply r_step; [apply r_start|]. apply (st_start E fuel t calls (shared_of t) [] s add). split; reflexivity. }
      apply (reach_move E fuel t calls _ [mkCall s add q] (mkCall s add p) [] q); [|exact Hq]. eapply r_step; [exact R1|]. apply (st_start E fuel t calls (shared_of t) [mkCall s add q] s add). split; reflexivity.
    + exists 0, 1, (mkCall s add q), (mkCall s add q), m, true, true. cbn [fst snd c_prog nth_error]. repeat split; auto.
Qed.
Print Assumptions C71_race_refuted.
(** For instance two threads encoding "low" with a fresh BPE tokenizer. *)
Definition low_tz : option tokenizer := match low_bpe (QArith_base.Qmake 0 1) true false with Ok b => Some (mkTz None None None None None (Some (MBpe b [])) None None) | _ => None end.
Example C71_race_case : exists t, low_tz = Some t /\ (forall b c, tz_model t = Some (MBpe b c) -> reach_cache test_env b c) /\ exists t' r, encode test_env 10 t (str "low") false = (t', Ok r) /\ t' <> t /\ en_ids r = [6%Z].
Proof.
  eexists. split; [reflexivity|]. split.
  - intros b c H. injection H as <- <-. apply reach_empty.
  - eexists _, _. split; [vm_compute; reflexivity|]. split; [discriminate | reflexivity].
Qed.

(** What is true. Calls that do not change the tokenizer (say, because the words of their texts are in the cache already) are safe together: in no schedule is there
    a race, the tokenizer stays as it is, and finished calls have the sequential result. *)
Theorem C71_read_only : forall E fuel t (calls : wstr -> bool -> Prop), (forall s add, calls s add -> exists r, encode E fuel t s add = (t, r)) ->
  forall sh cs, reachable E fuel t calls (sh, cs) -> ~ race (sh, cs) /\ sh = shared_of t /\ forall c r, In c cs -> c_prog c = Done r -> r = snd (encode E fuel t (c_text c) (c_add c)).
Proof.
  intros E fuel t calls Hc sh cs H.
  assert (HS : forall s add, calls s add -> stays (encode_prog E fuel t s add) (shared_of t)).
  { intros s add Hsa. destruct (Hc s add Hsa) as (r & Hr). destruct (tidy_writes _ (shared_of t) (tidy_encode E fuel t s add)) as [Hs|(Hn & _)]; [exact Hs|]. exfalso. apply Hn.
    destruct (encode_run E fuel t s add) as [H2 _]. rewrite Hr in H2. rewrite H2. reflexivity. }
  split; [exact (pool_no_race _ _ _ _ _ HS H)|]. destruct (pool_stays _ _ _ _ _ HS H) as [H1 H2]. cbn [fst snd] in *. split; [exact H1|]. intros c r Hin Hd. rewrite Forall_forall in H2. destruct (H2 c Hin) as [_ H3]. rewrite Hd in H3. exact H3.
Qed.
Print Assumptions C71_read_only.

(** Tokenizers that keep no cache (WordPiece; BPE with dropout), in every state they can reach by adding tokens and encoding, are safe for all texts, if the empty text is not a token. *)
Theorem C71_no_cache_safe : forall E fuel t m ops av, tz_av t = Some av -> tz_model t = Some m -> dense (model_vocab m) -> model_vocab m <> [] -> sfind [] (model_vocab m) = None ->
  history (model_vocab m) ops av -> (forall b c, m = MBpe b c -> ~ no_dropout b) ->
  forall sh cs, reachable E fuel t (fun _ _ => True) (sh, cs) -> ~ race (sh, cs) /\ sh = shared_of t /\ forall c r, In c cs -> c_prog c = Done r -> r = snd (encode E fuel t (c_text c) (c_add c)).
Proof.
  intros E fuel t m ops av Hav Hm Hd Hne Hemp Hh Hnc sh cs H. apply (history_ok _ _ _ Hd Hne) in Hh.
  assert (HS : forall s add, True -> stays (encode_prog E fuel t s add) (shared_of t)).
  { intros s add _. apply looks_stays with (ids := trie_ids (tz_av t)).
    - intros i Hi. unfold shared_of, trie_ids in *. rewrite Hav in *. cbn [sh_map_r]. apply in_map_iff in Hi as ([x j] & <- & Hx). cbn [snd]. destruct (trie_model _ _ _ x j Hh Hx) as (Hx1 & tok & Hx2 & Hx3).
      assert (Hxn : x <> []) by (intros ->; congruence). destruct (proj2 (ho_assigned _ _ _ Hh x)) as (i & Hi); [split; [exact Hxn | rewrite <- Hx3; apply in_map; exact Hx2]|].
      pose proof (io_model _ _ (ho_ids _ _ _ Hh) x i Hi) as Hi2. rewrite Hx1 in Hi2. subst i. destruct (io_back _ _ (ho_ids _ _ _ Hh) x _ Hi) as (tk & Htk & _). congruence.
    - apply encode_looks. rewrite Hm. destruct m as [w|b c]; [exact I|]. cbn [cacheless]. specialize (Hnc b c eq_refl). rewrite no_dropout_bool in Hnc. destruct (QArith_base.Qeq_bool (b_dropout b) (QArith_base.Qmake 0 1)); congruence. }
  split; [exact (pool_no_race _ _ _ _ _ HS H)|]. destruct (pool_stays _ _ _ _ _ HS H) as [H1 H2]. cbn [fst snd] in *. split; [exact H1|]. intros c r Hin Hd'. rewrite Forall_forall in H2. destruct (H2 c Hin) as [_ H3]. rewrite Hd' in H3. exact H3.
Qed.
Print Assumptions C71_no_cache_safe.
Example C71_safe_case : tz_av (demo None None None) = Some demo_av /\ dense demo_vocab /\ sfind [] demo_vocab = None /\ history demo_vocab [mkAt 1 (str "[CLS]") false false false false true] demo_av.
Proof. split; [reflexivity|]. split; [exact demo_dense|]. split; [reflexivity | exact demo_history]. Qed.

(** Outside those states a WordPiece tokenizer can race too: when a token given to it is the empty text, which is also a token of the model, its id is looked up
    in the map of added tokens without ever having been put there. *)
Definition blank_vocab : smap Z := [(str "[UNK]", 0%Z); ([], 1%Z); (str "a", 2%Z)].
Definition blank_tokens : list added_token := [mkAt 0 [] false false false false true].
Theorem C71_empty_token_refuted : forall E fuel, exists t av n, av_add_tokens true (new_added_vocab blank_tokens) (Some blank_vocab) blank_tokens = Ok (av, n) /\ tz_av t = Some av /\
  tz_model t = Some (MWordPiece (mkWp blank_vocab (str "[UNK]") 100 (str "##"))) /\ history blank_vocab blank_tokens av /\
  exists x, reachable E fuel t (fun s _ => s = str "a") x /\ race x.
Proof.
  intros E fuel. destruct (av_add_tokens true (new_added_vocab blank_tokens) (Some blank_vocab) blank_tokens) as [[av n]| | |] eqn:Ea; try (vm_compute in Ea; discriminate).
  exists (mkTz None None (Some av) None None (Some (MWordPiece (mkWp blank_vocab (str "[UNK]") 100 (str "##")))) None None), av, n.
  split; [reflexivity|]. split; [reflexivity|]. split; [reflexivity|]. split; [eapply h_new; exact Ea|]. vm_compute in Ea. injection Ea as <- <-.
  match goal with |- exists x, reachable E fuel ?t _ x /\ _ => destruct (encode E fuel t (str "a") false) as [t' [r| | |]] eqn:Er; [|vm_compute in Er; discriminate ..]; destruct (C71_race_refuted E fuel t (str "a") false t' (Ok r) Er) as (x & Hx & Hr) end.
  - vm_compute in Er. injection Er as <- <-. discriminate.
  - exists x. split; [|exact Hr]. clear - Hx. induction Hx as [|x y _ IH Hs]; [apply r_start|]. eapply r_step; [exact IH|]. destruct Hs as [sh cs s add [-> _]|sh sh' l c r p Hp]; [apply st_start; reflexivity | apply st_access; exact Hp].
Qed.
Print Assumptions C71_empty_token_refuted.
