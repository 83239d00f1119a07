(** Proofs about Concurrent.v. *)
From Verif Require Import Base BaseFacts Unicode Common Utils PostProcessor Decoder Normalizer PreTokenizer WordPiece Bpe AddedVocab Tokenizer Spec BpeSpec BpeProofs BpeWord AvSpec AvProofs HistSpec HistProofs TzSpec TzProofs Concurrent.
From Coq Require Import ZifyBool.

(** ** Running alone is Tokenizer.encode *)
Lemma run_bind {A B} (p : prog A) (f : A -> prog B) : forall sh,
  run (pbind p f) sh = match run p sh with (sh', Ok a) => run (f a) sh' | (sh', Throw e) => (sh', Throw e) | (sh', Undef u) => (sh', Undef u) | (sh', Diverge) => (sh', Diverge) end.
Proof. induction p as [r|i k IH|s k IH|s w k IH]; intros sh; cbn [pbind run]; [destruct r; reflexivity | apply IH ..]. Qed.

(** [q] is the outcome [r] of the sequential code; [m] is the map it leaves *)
Definition outcome {A} (c : cache) (m : zmap added_token) (r : res (zmap added_token * A)) (q : shared * res A) : Prop :=
  q = (mkSh m c, match r with Ok (_, a) => Ok a | Throw e => Throw e | Undef u => Undef u | Diverge => Diverge end) /\ forall x, r = Ok x -> m = fst x.
Lemma map_ref_eq m i : map_ref m i = (look m i, touch m i).
Proof. unfold map_ref, look, touch. destruct (zfind i m); reflexivity. Qed.

Ltac fail_case := split; [reflexivity | discriminate].
Lemma run_resolve c sentence total l : forall start m,
  outcome c (resolve_map sentence m l) (resolve_matches sentence total start m l) (run (resolve_prog sentence total start l) (mkSh m c)).
Proof.
  induction l as [|[[a b] id] l IH]; intros start m; [split; [reflexivity | intros x Hx; injection Hx as <-; reflexivity]|]. cbn [resolve_map resolve_matches resolve_prog run sh_map_r sh_cache].
  fold (map_ref m id). destruct (map_ref m id) as [tok m']. cbn [fst snd].
  rewrite run_bind. cbn [run]. match goal with |- context [if at_single_word tok then ?x else Ok true] => set (k := if at_single_word tok then x else Ok true) end. destruct k as [keep| | |]; cbn [bind]; try fail_case.
  destruct keep; cbn [negb]; [|apply IH].
  rewrite run_bind. cbn [run].
  assert (G1 : forall n : nat, match (if at_lstrip tok then p <- substr_range sentence 0 a ;; Ok (Nat.max (space_leftmost_at_end p) start) else Ok a) with
    | Ok _ => (if at_lstrip tok then p <- substr_range sentence 0 a ;; Ok n else Ok n) = Ok n
    | Throw e => (if at_lstrip tok then p <- substr_range sentence 0 a ;; Ok n else Ok n) = Throw e
    | Undef e => (if at_lstrip tok then p <- substr_range sentence 0 a ;; Ok n else Ok n) = Undef e
    | Diverge => (if at_lstrip tok then p <- substr_range sentence 0 a ;; Ok n else Ok n) = Diverge end).
  { intros n. destruct (at_lstrip tok); [|reflexivity]. destruct (substr_range sentence 0 a); reflexivity. }
  specialize (G1 0). destruct (if at_lstrip tok then p <- substr_range sentence 0 a ;; Ok (Nat.max (space_leftmost_at_end p) start) else Ok a) as [a'| | |]; rewrite G1; cbn [bind]; try fail_case.
  rewrite run_bind. cbn [run].
  assert (G2 : forall n : nat, match (if at_rstrip tok then p <- substr_from sentence b ;; Ok (b + space_rightmost_at_start p) else Ok b) with
    | Ok _ => (if at_rstrip tok then p <- substr_from sentence b ;; Ok n else Ok n) = Ok n
    | Throw e => (if at_rstrip tok then p <- substr_from sentence b ;; Ok n else Ok n) = Throw e
    | Undef e => (if at_rstrip tok then p <- substr_from sentence b ;; Ok n else Ok n) = Undef e
    | Diverge => (if at_rstrip tok then p <- substr_from sentence b ;; Ok n else Ok n) = Diverge end).
  { intros n. destruct (at_rstrip tok); [|reflexivity]. destruct (substr_from sentence b); reflexivity. }
  specialize (G2 0). destruct (if at_rstrip tok then p <- substr_from sentence b ;; Ok (b + space_rightmost_at_start p) else Ok b) as [b'| | |]; rewrite G2; cbn [bind]; try fail_case.
  rewrite run_bind. destruct (IH b' m') as [IH1 IH2]. rewrite IH1. destruct (resolve_matches sentence total b' m' l) as [[m1 r1]| | |]; cbn [bind]; try fail_case.
  cbn [run]. split; [reflexivity|]. intros x Hx. injection Hx as <-. cbn [fst]. exact (IH2 _ eq_refl).
Qed.
Lemma run_find c sentence trie m : outcome c (find_map m sentence trie) (av_find_matches m sentence trie) (run (find_prog sentence trie) (mkSh m c)).
Proof. apply run_resolve. Qed.

Definition swap3 {A B C} (r : res (A * B * C)) : res (B * (A * C)) := '(a, b, c) <- r ;; Ok (b, (a, c)).
Lemma run_normalize E norm trie c l : forall ns m ending,
  outcome c (normalize_map E norm trie ns m ending l) (swap3 (normalize_splits E norm trie ns m ending l)) (run (normalize_prog E norm trie ns ending l) (mkSh m c)).
Proof.
  induction l as [|s l IH]; intros ns m ending; [split; [reflexivity | intros x Hx; injection Hx as <-; reflexivity]|]. cbn [normalize_map normalize_splits normalize_prog]. destruct (sp_tokens s) as [|t0 tl].
  - rewrite run_bind. cbn [run]. destruct (convert_from_string (sp_text s)) as [w| | |]; cbn [bind]; try fail_case.
    cbv zeta. rewrite run_bind. cbn [run]. destruct (match norm with Some f => _ | None => _ end) as [sub| | |]; cbn [bind]; try fail_case.
    rewrite run_bind. cbn [run]. destruct (transform_range ns _ sub) as [ns'| | |]; cbn [bind]; try fail_case.
    rewrite run_bind. cbn [run]. destruct (convert_to_string (ns_text sub)) as [sentence| | |]; cbn [bind]; try fail_case.
    rewrite run_bind. destruct (run_find c sentence trie m) as [HF1 HF2]. rewrite HF1. destruct (av_find_matches m sentence trie) as [[m' ms]| | |]; cbn [bind]; try fail_case.
    rewrite run_bind. cbn [run]. pose proof (HF2 _ eq_refl) as Hm'. cbn [fst] in Hm'. destruct (norm_splits (ns_text sub) ending ms) as [here| | |]; cbn [bind]; try fail_case.
    rewrite Hm'. rewrite run_bind. destruct (IH ns' m' (ending + length (ns_text sub))) as [IH1 IH2]. rewrite IH1. destruct (normalize_splits E norm trie ns' m' (ending + length (ns_text sub)) l) as [[[ns'' m''] rest]| | |]; cbn [swap3 bind] in *; try fail_case.
    cbn [run]. split; [reflexivity|]. intros x Hx. injection Hx as <-. cbn [fst]. exact (IH2 _ eq_refl).
  - cbv zeta. rewrite run_bind. destruct (IH ns m (ending + length (sp_text s))) as [IH1 IH2]. rewrite IH1. destruct (normalize_splits E norm trie ns m (ending + length (sp_text s)) l) as [[[ns'' m''] rest]| | |]; cbn [swap3 bind] in *; try fail_case.
    cbn [run]. split; [reflexivity|]. intros x Hx. injection Hx as <-. cbn [fst]. exact (IH2 _ eq_refl).
Qed.

Lemma run_extract E av norm s c : outcome c (extract_map E av norm s) (extract_and_normalize E av norm s) (run (extract_prog E av norm s) (mkSh (av_map_r av) c)).
Proof.
  unfold extract_and_normalize, extract_prog, extract_map. rewrite run_bind. cbn [run]. destruct (new_pretok (new_nstring s)) as [p| | |]; cbn [bind]; try fail_case.
  rewrite run_bind. cbn [run]. destruct (convert_to_string (ns_text (pt_norm p))) as [sentence| | |]; cbn [bind]; try fail_case.
  rewrite run_bind. destruct (run_find c sentence (av_trie_raw av) (av_map_r av)) as [HF1 HF2]. rewrite HF1. destruct (av_find_matches (av_map_r av) sentence (av_trie_raw av)) as [[m1 ms]| | |]; cbn [bind]; try fail_case.
  rewrite run_bind. cbn [run]. pose proof (HF2 _ eq_refl) as Hm1. cbn [fst] in Hm1. destruct (raw_splits (ns_text (pt_norm p)) ms) as [raw| | |]; cbn [bind]; try fail_case.
  cbv zeta. rewrite Hm1, run_bind. set (splits1 := match raw with [] => pt_splits p | _ => raw end). destruct (run_normalize E norm (av_trie_norm av) c splits1 (pt_norm p) m1 0) as [HN1 HN2]. rewrite HN1.
  destruct (normalize_splits E norm (av_trie_norm av) (pt_norm p) m1 0 splits1) as [[[ns m2] splits2]| | |]; cbn [swap3 bind] in *; try fail_case.
  cbn [run]. split; [reflexivity|]. intros x Hx. injection Hx as <-. cbn [fst]. exact (HN2 _ eq_refl).
Qed.

(** the map a failing or successful preparation leaves *)
Definition av_left (o : option added_vocab) : zmap added_token := match o with Some a => av_map_r a | None => [] end.
Lemma extract_early E a norm s : (forall p, new_pretok (new_nstring s) <> Ok p) -> extract_map E a norm s = av_map_r a.
Proof. intros H. unfold extract_map. destruct (new_pretok (new_nstring s)) as [p| | |]; [destruct (H p eq_refl) | reflexivity ..]. Qed.
Lemma run_prepare E t s :
  run (prepare_prog E t s) (shared_of t) = (mkSh (av_left (prepare_av E t s)) (sh_cache (shared_of t)), match prepare E t s with Ok (_, p) => Ok p | Throw e => Throw e | Undef u => Undef u | Diverge => Diverge end) /\
  (forall x, prepare E t s = Ok x -> fst x = prepare_av E t s).
Proof.
  unfold prepare, prepare_prog, prepare_av. rewrite run_bind. cbn [run].
  assert (Hsm : shared_of t = mkSh (av_left (tz_av t)) (sh_cache (shared_of t))) by reflexivity. set (c := sh_cache (shared_of t)) in *. rewrite Hsm. clear Hsm.
  destruct (new_pretok (new_nstring s)) as [p| | |] eqn:Ep; cbn [bind].
  2-4: (split; [|discriminate]; f_equal; f_equal; destruct (tz_av t) as [a|]; [cbn [av_left]; cbn; rewrite extract_early by (intros ? ?; congruence); reflexivity | reflexivity]).
  rewrite run_bind. destruct (tz_av t) as [a|]; cbn [run av_left].
  - destruct (run_extract E a (tz_norm t) s c) as [HE1 HE2]. rewrite HE1. destruct (extract_and_normalize E a (tz_norm t) s) as [[m p1]| | |]; cbn [bind]; try fail_case.
    pose proof (HE2 _ eq_refl) as Hm. cbn [fst] in Hm. cbn [run]. destruct (match tz_pre t with Some pt => _ | None => _ end) as [p2| | |]; cbn [bind]; try fail_case. split; [reflexivity|]. intros x Hx. injection Hx as <-. cbn [fst]. rewrite Hm. reflexivity.
  - cbn [bind]. destruct (match tz_pre t with Some pt => _ | None => _ end) as [p2| | |]; cbn [bind]; try fail_case. split; [reflexivity|]. intros x Hx. injection Hx as <-. reflexivity.
Qed.

Lemma run_word E b s m c : run (word_prog E b s) (mkSh m c) = (mkSh m (fst (bpe_word E b c s)), snd (bpe_word E b c s)).
Proof.
  unfold word_prog, bpe_word. destruct (QArith_base.Qeq_bool (b_dropout b) (QArith_base.Qmake 0 1)); [|reflexivity]. unfold tokenize_with_cache.
  destruct (if b_ignore_merges b then sfind s (b_vocab b) else None) as [i|]; [reflexivity|]. cbn [run sh_cache]. destruct (sfind s c) as [w|]; [reflexivity|].
  rewrite run_bind. cbn [run]. destruct (merge_word E b s) as [w| | |]; try reflexivity. rewrite run_bind. cbn [run]. destruct (word_to_tokens (b_vocab b) 0 w) as [ts| | |]; reflexivity.
Qed.
Lemma run_splits E b l m : forall c, run (splits_prog E b l) (mkSh m c) = (mkSh m (fst (bpe_splits E b c l)), snd (bpe_splits E b c l)).
Proof.
  induction l as [|s l IH]; intros c; [reflexivity|]. cbn [splits_prog bpe_splits]. rewrite run_bind, run_word. destruct (bpe_word E b c (sp_text s)) as [c' [ts| | |]]; cbn [fst snd]; try reflexivity.
  rewrite run_bind, IH. destruct (bpe_splits E b c' l) as [c'' [x| | |]]; reflexivity.
Qed.

Lemma prepare_av_map E t s : prepare_av E t s = match tz_av t with Some a => Some (set_map_r a (av_left (prepare_av E t s))) | None => None end.
Proof. unfold prepare_av. destruct (tz_av t); reflexivity. Qed.
Lemma encode_run E fuel t s add : run (encode_prog E fuel t s add) (shared_of t) = (shared_of (fst (encode E fuel t s add)), snd (encode E fuel t s add)) /\
  fst (encode E fuel t s add) = with_shared t (shared_of (fst (encode E fuel t s add))).
Proof.
  unfold encode_prog, encode. rewrite run_bind. destruct (run_prepare E t s) as [HP1 HP2]. rewrite HP1. pose proof (prepare_av_map E t s) as Hav. unfold prepare_av in Hav. destruct (prepare E t s) as [[av p]| | |].
  - pose proof (HP2 _ eq_refl) as Ha. cbn [fst] in Ha. subst av. rewrite run_bind. unfold shared_of, with_shared, set_av, set_model, prepare_av; cbn [sh_cache sh_map_r tz_model].
    destruct (tz_model t) as [[w|b c]|] eqn:Em; cbn [model_tokenize model_prog].
    + cbn [run]. destruct (wp_tokenize w p) as [p'| | |]; cbn [run bind]; cbn [fst snd sh_map_r sh_cache tz_av tz_model]; (split; [destruct (tz_av t); reflexivity|]); rewrite ?Em; destruct (tz_av t); reflexivity.
    + rewrite run_bind, run_splits. unfold bpe_tokenize. destruct (bpe_splits E b c (pt_splits p)) as [c' [l| | |]]; cbn [fst snd run bind]; cbn [sh_map_r sh_cache tz_av tz_model];
        (split; [destruct (tz_av t); reflexivity|]); rewrite ?Em; destruct (tz_av t); reflexivity.
    + cbn [run bind fst snd sh_map_r sh_cache tz_av tz_model]. rewrite ?Em. (split; [destruct (tz_av t); reflexivity|]); destruct (tz_av t); reflexivity.
  - cbn [fst snd]. unfold shared_of, with_shared, set_av, set_model, prepare_av. cbn [sh_map_r sh_cache tz_av tz_model tz_trunc tz_pad tz_norm tz_pre tz_dec tz_post]. split; [destruct (tz_av t), (tz_model t) as [[]|]; reflexivity|]. destruct (tz_av t), (tz_model t) as [[]|]; reflexivity.
  - cbn [fst snd]. unfold shared_of, with_shared, set_av, set_model, prepare_av. cbn [sh_map_r sh_cache tz_av tz_model tz_trunc tz_pad tz_norm tz_pre tz_dec tz_post]. split; [destruct (tz_av t), (tz_model t) as [[]|]; reflexivity|]. destruct (tz_av t), (tz_model t) as [[]|]; reflexivity.
  - cbn [fst snd]. unfold shared_of, with_shared, set_av, set_model, prepare_av. cbn [sh_map_r sh_cache tz_av tz_model tz_trunc tz_pad tz_norm tz_pre tz_dec tz_post]. split; [destruct (tz_av t), (tz_model t) as [[]|]; reflexivity|]. destruct (tz_av t), (tz_model t) as [[]|]; reflexivity.
Qed.

(** ** Every interleaving gives the sequential result *)
Section Good.
Context (E : env) (m0 : zmap added_token) (ob : option bpe).
(** [c] may be what the cache holds *)
Definition cache_fact (s : bytes) (w : list symbol) : Prop := match ob with Some b => merge_word E b s = Ok w | None => False end.
(** whatever the others do, the call ends with [r] and only adds correct entries *)
Fixpoint good {A} (p : prog A) (r : res A) : Prop :=
  match p with
  | Done x => x = r
  | Lookup i k => good (k (look m0 i)) r
  | Find s k => good (k None) r /\ forall w, cache_fact s w -> good (k (Some w)) r
  | Insert s w k => cache_fact s w /\ good k r
  end.
Definition sh_ok (sh : shared) : Prop := (forall i, look (sh_map_r sh) i = look m0 i) /\ forall s w, sfind s (sh_cache sh) = Some w -> cache_fact s w.

Lemma good_step {A} sh (p : prog A) sh' p' r : sh_ok sh -> pstep sh p sh' p' -> good p r -> sh_ok sh' /\ good p' r.
Proof.
  intros [H1 H2] Hs Hg. destruct Hs as [sh i k|sh s k|sh s w k]; cbn [good] in Hg.
  - rewrite map_ref_eq. cbn [fst snd]. split; [|rewrite H1; exact Hg]. split; [intros j; cbn [sh_map_r]; rewrite touch_look; apply H1 | exact H2].
  - split; [split; assumption|]. destruct Hg as [G1 G2]. destruct (sfind s (sh_cache sh)) as [w|] eqn:Ef; [apply G2, H2, Ef | exact G1].
  - destruct Hg as [G1 G2]. split; [|exact G2]. split; [exact H1|]. cbn [sh_cache]. intros s' w' Hf. rewrite sfind_sinsert in Hf. destruct (sfind s' (sh_cache sh)) eqn:E'; [apply H2; congruence|].
    destruct (leqb_spec s' s) as [->|]; [congruence | discriminate].
Qed.
Lemma good_bind {A B} (p : prog A) (f : A -> prog B) r : good p r ->
  forall r', match r with Ok a => good (f a) r' | Throw e => r' = Throw e | Undef u => r' = Undef u | Diverge => r' = Diverge end -> good (pbind p f) r'.
Proof.
  induction p as [x|i k IH|s k IH|s w k IH]; cbn [good pbind]; intros Hg r' Hr.
  - subst x. destruct r; cbn [good]; congruence || exact Hr.
  - apply IH; assumption.
  - destruct Hg as [G1 G2]. split; [apply IH; assumption | intros w Hw; apply IH; auto].
  - destruct Hg as [G1 G2]. split; [exact G1 | apply IH; assumption].
Qed.
(** a program that only looks up added tokens ends as it does alone *)
Fixpoint no_cache {A} (p : prog A) : Prop :=
  match p with Done _ => True | Lookup _ k => forall a, no_cache (k a) | _ => False end.
Lemma no_cache_bind {A B} (p : prog A) (f : A -> prog B) : no_cache p -> (forall a, no_cache (f a)) -> no_cache (pbind p f).
Proof. intros Hp Hf. induction p as [x|i k IH|s k IH|s w k IH]; cbn [no_cache pbind] in *; [destruct x; cbn; auto | auto | contradiction ..]. Qed.
Lemma no_cache_good {A} (p : prog A) : forall sh, no_cache p -> (forall i, look (sh_map_r sh) i = look m0 i) -> good p (snd (run p sh)).
Proof.
  induction p as [x|i k IH|s k IH|s w k IH]; cbn [no_cache good run]; intros sh Hn Hm; [reflexivity | | contradiction ..].
  rewrite map_ref_eq. cbn [fst snd]. rewrite Hm. apply IH; [apply Hn|]. intros j. cbn [sh_map_r]. rewrite touch_look. apply Hm.
Qed.
End Good.

Lemma resolve_no_cache sentence total l : forall start, no_cache (resolve_prog sentence total start l).
Proof.
  induction l as [|[[a b] id] l IH]; intros start; cbn [resolve_prog no_cache]; [exact I|]. intros tok. apply no_cache_bind; [exact I|]. intros keep. destruct (negb keep); [apply IH|].
  apply no_cache_bind; [exact I|]. intros a'. apply no_cache_bind; [exact I|]. intros b'. apply no_cache_bind; [apply IH | intros rest; exact I].
Qed.
Lemma normalize_no_cache E norm trie l : forall ns ending, no_cache (normalize_prog E norm trie ns ending l).
Proof.
  induction l as [|s l IH]; intros ns ending; cbn [normalize_prog]; [exact I|]. destruct (sp_tokens s).
  - apply no_cache_bind; [exact I|]. intros w. cbv zeta. apply no_cache_bind; [exact I|]. intros sub. apply no_cache_bind; [exact I|]. intros ns'. apply no_cache_bind; [exact I|]. intros sentence.
    apply no_cache_bind; [apply resolve_no_cache|]. intros ms. apply no_cache_bind; [exact I|]. intros here. apply no_cache_bind; [apply IH|]. intros [ns'' rest]. exact I.
  - cbv zeta. apply no_cache_bind; [apply IH|]. intros [ns'' rest]. exact I.
Qed.
Lemma prepare_no_cache E t s : no_cache (prepare_prog E t s).
Proof.
  unfold prepare_prog. apply no_cache_bind; [exact I|]. intros p0. apply no_cache_bind; [|intros p1; exact I]. destruct (tz_av t) as [a|]; [|exact I]. unfold extract_prog.
  apply no_cache_bind; [exact I|]. intros p. apply no_cache_bind; [exact I|]. intros sentence. apply no_cache_bind; [apply resolve_no_cache|]. intros ms. apply no_cache_bind; [exact I|]. intros raw.
  cbv zeta. apply no_cache_bind; [apply normalize_no_cache|]. intros [ns l]. exact I.
Qed.

(** the BPE model a cache belongs to *)
Definition model_bpe (m : option model) : option bpe := match m with Some (MBpe b _) => Some b | _ => None end.

Lemma good_word E m0 b s : good E m0 (Some b) (word_prog E b s) (snd (bpe_word E b [] s)).
Proof.
  unfold word_prog, bpe_word. destruct (QArith_base.Qeq_bool (b_dropout b) (QArith_base.Qmake 0 1)); [|reflexivity]. unfold tokenize_with_cache.
  destruct (if b_ignore_merges b then sfind s (b_vocab b) else None) as [i|]; [reflexivity|]. cbn [good sfind]. unfold cache_fact. split.
  - destruct (merge_word E b s) as [w| | |] eqn:Ew; cbn [pbind good]; try reflexivity. destruct (word_to_tokens (b_vocab b) 0 w) as [ts| | |]; cbn [pbind good]; try reflexivity. auto.
  - intros w Hw. rewrite Hw. destruct (word_to_tokens (b_vocab b) 0 w); reflexivity.
Qed.
Lemma good_splits E m0 b l : good E m0 (Some b) (splits_prog E b l) (plain_words E b l).
Proof.
  induction l as [|s l IH]; [reflexivity|]. cbn [splits_prog plain_words mapM]. fold (plain_words E b l). eapply good_bind; [apply good_word|]. destruct (snd (bpe_word E b [] (sp_text s))) as [ts| | |]; cbn [bind]; try reflexivity.
  eapply good_bind; [exact IH|]. destruct (plain_words E b l); reflexivity.
Qed.

Lemma good_encode E fuel t s add : (forall b c, tz_model t = Some (MBpe b c) -> cache_ok E b c) ->
  good E (sh_map_r (shared_of t)) (model_bpe (tz_model t)) (encode_prog E fuel t s add) (snd (encode E fuel t s add)).
Proof.
  intros Hc. unfold encode_prog, encode. eapply good_bind; [apply (no_cache_good E (sh_map_r (shared_of t)) (model_bpe (tz_model t)) _ (shared_of t)); [apply prepare_no_cache | reflexivity]|].
  destruct (run_prepare E t s) as [HP _]. rewrite HP. clear HP. destruct (prepare E t s) as [[av p]| | |].
  - cbn [snd]. unfold set_av, set_model. cbn [tz_model]. eapply good_bind with (r := match tz_model t with Some m => snd (model_tokenize E m p) | None => Ok p end).
    + destruct (tz_model t) as [[w|b c]|]; cbn [model_prog model_tokenize snd model_bpe]; try reflexivity. specialize (Hc b c eq_refl). destruct (bpe_tokenize_transparent E b c p Hc) as [HT _].
      destruct (bpe_tokenize E b c p) as [c' r]. cbn [snd] in *. subst r. eapply good_bind; [apply good_splits|]. destruct (plain_words E b (pt_splits p)); reflexivity.
    + destruct (tz_model t) as [m|].
      * destruct (model_tokenize E m p) as [m' r]. cbn [snd]. destruct r; cbn [bind]; reflexivity.
      * reflexivity.
  - reflexivity.
  - reflexivity.
  - reflexivity.
Qed.

(** ** Races *)
(** alone, the program writes nothing *)
Fixpoint stays {A} (p : prog A) (sh : shared) : Prop :=
  match p with
  | Done _ => True
  | Lookup i k => zfind i (sh_map_r sh) <> None /\ stays (k (look (sh_map_r sh) i)) sh
  | Find s k => stays (k (sfind s (sh_cache sh))) sh
  | Insert _ _ _ => False
  end.
Lemma touch_known m i : zfind i m <> None -> touch m i = m.
Proof. unfold touch. destruct (zfind i m); congruence. Qed.
Lemma touch_grows m i : zfind i m = None -> length (touch m i) = S (length m).
Proof. unfold touch. intros ->. rewrite app_length. cbn. lia. Qed.
Lemma stays_step {A} sh (p : prog A) sh' p' : stays p sh -> pstep sh p sh' p' -> sh' = sh /\ stays p' sh.
Proof.
  intros H Hs. destruct Hs as [sh i k|sh s k|sh s w k]; cbn [stays] in H; [|split; [reflexivity | exact H] | contradiction].
  destruct H as [H1 H2]. rewrite map_ref_eq. cbn [fst snd]. rewrite touch_known by exact H1. destruct sh. split; [reflexivity | exact H2].
Qed.
Lemma stays_run {A} (p : prog A) : forall sh, stays p sh -> fst (run p sh) = sh.
Proof.
  induction p as [x|i k IH|s k IH|s w k IH]; cbn [stays run]; intros sh H; [reflexivity | | apply IH, H | contradiction].
  destruct H as [H1 H2]. rewrite map_ref_eq. cbn [fst snd]. rewrite touch_known by exact H1. destruct sh as [m c]. apply IH, H2.
Qed.

(** cache entries are only inserted right after a search for them found nothing *)
Fixpoint tidy {A} (p : prog A) : Prop :=
  match p with
  | Done _ => True
  | Lookup _ k => forall a, tidy (k a)
  | Find s k => (forall w, tidy (k (Some w))) /\ match k None with Insert s' w q => s' = s /\ tidy q | _ => tidy (k None) end
  | Insert _ _ _ => False
  end.
Lemma tidy_bind {A B} (p : prog A) (f : A -> prog B) : (forall a, tidy (f a)) -> (tidy p -> tidy (pbind p f)) /\ match p with Insert _ _ q => tidy q -> tidy (pbind q f) | _ => True end.
Proof.
  intros Hf. induction p as [x|i k IH|s k IH|s w k IH]; cbn [tidy pbind].
  - split; [|exact I]. intros _. destruct x; cbn; auto.
  - split; [|exact I]. intros H a. apply IH, H.
  - split; [|exact I]. intros [H1 H2]. split; [intros w; apply (IH (Some w)), H1|]. destruct (IH None) as [I1 I2]. destruct (k None) as [x|i k'|s' k'|s' w q]; cbn [pbind] in *.
    + destruct x; cbn; auto. specialize (Hf a). destruct (f a); cbn in *; auto; contradiction.
    + apply I1, H2.
    + apply I1, H2.
    + destruct H2 as [-> H2]. split; [reflexivity | apply I2, H2].
  - split; [contradiction | apply IH].
Qed.
Lemma no_cache_tidy {A} (p : prog A) : no_cache p -> tidy p.
Proof. induction p as [x|i k IH|s k IH|s w k IH]; cbn [no_cache tidy]; intros H; [exact I | intros a; apply IH, H | contradiction ..]. Qed.
Lemma tidy_word E b s : tidy (word_prog E b s).
Proof.
  unfold word_prog. destruct (QArith_base.Qeq_bool (b_dropout b) (QArith_base.Qmake 0 1)); [|exact I]. destruct (if b_ignore_merges b then sfind s (b_vocab b) else None); [exact I|].
  cbn [tidy]. split; [intros; exact I|]. destruct (merge_word E b s) as [w| | |]; cbn [pbind tidy]; auto. destruct (word_to_tokens (b_vocab b) 0 w); cbn [pbind tidy]; auto.
Qed.
Lemma tidy_splits E b l : tidy (splits_prog E b l).
Proof. induction l as [|s l IH]; [exact I|]. cbn [splits_prog]. apply tidy_bind; [|apply tidy_word]. intros ts. apply tidy_bind; [intros; exact I | exact IH]. Qed.
Lemma tidy_encode E fuel t s add : tidy (encode_prog E fuel t s add).
Proof.
  apply tidy_bind; [|apply no_cache_tidy, prepare_no_cache]. intros p. apply tidy_bind; [intros; exact I|]. unfold model_prog. destruct (tz_model t) as [[w|b c]|]; [exact I | | exact I].
  apply tidy_bind; [intros; exact I | apply tidy_splits].
Qed.

Lemma run_grows {A} (p : prog A) : forall sh, length (sh_map_r sh) <= length (sh_map_r (fst (run p sh))) /\ length (sh_cache sh) <= length (sh_cache (fst (run p sh))).
Proof.
  induction p as [x|i k IH|s k IH|s w k IH]; cbn [run]; intros sh; [cbn; lia | | apply IH |].
  - rewrite map_ref_eq. cbn [fst snd]. specialize (IH (look (sh_map_r sh) i) (mkSh (touch (sh_map_r sh) i) (sh_cache sh))). cbn [sh_map_r sh_cache] in IH.
    assert (length (sh_map_r sh) <= length (touch (sh_map_r sh) i)) by (unfold touch; destruct (zfind i (sh_map_r sh)); [lia | rewrite app_length; lia]). lia.
  - specialize (IH (mkSh (sh_map_r sh) (sinsert s w (sh_cache sh)))). cbn [sh_map_r sh_cache] in IH.
    assert (length (sh_cache sh) <= length (sinsert s w (sh_cache sh))) by (unfold sinsert; destruct (sfind s (sh_cache sh)); [lia | rewrite app_length; lia]). lia.
Qed.

(** A tidy program either writes nothing, or alone it arrives, without having written, at an access that changes the shared state. *)
Inductive reaches {A} (sh : shared) : prog A -> prog A -> Prop :=
| re_here p : reaches sh p p
| re_step p q r : pstep sh p sh q -> reaches sh q r -> reaches sh p r.
Lemma tidy_writes {A} (p : prog A) : forall sh, tidy p ->
  stays p sh \/ (fst (run p sh) <> sh /\ exists q m, reaches sh p q /\ next_access sh q = Some (m, true)).
Proof.
  assert (H : forall p : prog A, (forall sh, tidy p -> stays p sh \/ (fst (run p sh) <> sh /\ exists q m, reaches sh p q /\ next_access sh q = Some (m, true))) /\ True); [|intros sh Hp; apply H; exact Hp].
  clear p. induction p as [x|i k IH|s k IH|s w k IH]; (split; [|exact I]); intros sh Ht.
  - left. exact I.
  - destruct (zfind i (sh_map_r sh)) as [a|] eqn:Ei.
    + assert (Hk : mkSh (snd (map_ref (sh_map_r sh) i)) (sh_cache sh) = sh /\ fst (map_ref (sh_map_r sh) i) = look (sh_map_r sh) i).
      { rewrite map_ref_eq. cbn [fst snd]. rewrite touch_known by congruence. destruct sh; auto. }
      destruct Hk as [K1 K2]. destruct (proj1 (IH (look (sh_map_r sh) i)) sh (Ht _)) as [Hs|(Hr & q & m & Hq & Hn)].
      * left. cbn [stays]. split; [congruence | exact Hs].
      * right. cbn [run]. rewrite K1, K2. split; [exact Hr|]. exists q, m. split; [|exact Hn]. eapply re_step; [|exact Hq]. pose proof (ps_lookup sh i k) as HP. rewrite K1, K2 in HP. exact HP.
    + right. split.
      * intros Hr. cbn [run] in Hr. rewrite map_ref_eq in Hr. cbn [fst snd] in Hr. pose proof (run_grows (k (look (sh_map_r sh) i)) (mkSh (touch (sh_map_r sh) i) (sh_cache sh))) as [HG _]. rewrite Hr in HG. cbn [sh_map_r] in HG. rewrite touch_grows in HG by exact Ei. lia.
      * exists (Lookup i k), AddedTokensMapR. split; [apply re_here | cbn; rewrite Ei; reflexivity].
  - destruct Ht as [T1 T2]. cbn [stays run]. destruct (sfind s (sh_cache sh)) as [w|] eqn:Es.
    + destruct (proj1 (IH (Some w)) sh (T1 w)) as [Hs|(Hr & q & m & Hq & Hn)]; [left; exact Hs | right]. split; [exact Hr|]. exists q, m. split; [|exact Hn]. eapply re_step; [|exact Hq]. pose proof (ps_find sh s k) as HP. rewrite Es in HP. exact HP.
    + pose proof (ps_find sh s k) as HP. rewrite Es in HP. pose proof (proj1 (IH None) sh) as IHn. destruct (k None) as [x|i k'|s' k'|s' w q] eqn:Ek.
      1-3: (destruct (IHn T2) as [Hs|(Hr & q & m & Hq & Hn)]; [left; exact Hs | right; split; [exact Hr|]; exists q, m; split; [eapply re_step; [exact HP | exact Hq] | exact Hn]]).
      destruct T2 as [-> _]. right. split.
      * intros Hr. cbn [run] in Hr. pose proof (run_grows q (mkSh (sh_map_r sh) (sinsert s w (sh_cache sh)))) as [_ HG]. rewrite Hr in HG. cbn [sh_cache] in HG. unfold sinsert in HG. rewrite Es, app_length in HG. cbn in HG. lia.
      * exists (Insert s w q), BpeCache. split; [eapply re_step; [exact HP | apply re_here] | reflexivity].
  - destruct Ht.
Qed.

(** ** Pools of calls *)
Lemma pool_step E fuel t (calls : wstr -> bool -> Prop) (P : call -> Prop) sh cs sh' cs' : (forall s add, calls s add -> P (mkCall s add (encode_prog E fuel t s add))) ->
  (forall c sh1 p, P c -> pstep sh (c_prog c) sh1 p -> P (mkCall (c_text c) (c_add c) p)) -> Forall P cs -> step E fuel t calls (sh, cs) (sh', cs') -> Forall P cs'.
Proof.
  intros H1 H2 Hf Hs. inversion Hs as [? ? s add Hc|? ? l c r p Hp]; subst.
  - apply Forall_app. split; [exact Hf | apply Forall_cons; [apply H1, Hc | apply Forall_nil]].
  - apply Forall_app in Hf as [F1 F2]. inversion F2 as [|? ? F3 F4]; subst. apply Forall_app. split; [exact F1|]. apply Forall_cons; [|exact F4]. eapply H2; [exact F3 | exact Hp].
Qed.

Lemma pstep_run {A} sh (p : prog A) sh' p' : pstep sh p sh' p' -> run p sh = run p' sh'.
Proof. intros H. destruct H; reflexivity. Qed.
(** calls that write nothing when alone write nothing at all *)
Lemma pool_stays E fuel t (calls : wstr -> bool -> Prop) x : (forall s add, calls s add -> stays (encode_prog E fuel t s add) (shared_of t)) -> reachable E fuel t calls x ->
  fst x = shared_of t /\ Forall (fun c => stays (c_prog c) (shared_of t) /\ snd (run (c_prog c) (shared_of t)) = snd (encode E fuel t (c_text c) (c_add c))) (snd x).
Proof.
  intros Hc H. induction H as [|x y _ [I1 I2] Hs]; [split; [reflexivity | constructor]|]. destruct x as [sh cs], y as [sh' cs']. cbn [fst snd] in *. subst sh. split.
  - inversion Hs as [|? ? l c r p Hp]; subst; [reflexivity|]. apply Forall_app in I2 as [_ I2]. apply Forall_inv in I2. apply (stays_step _ _ _ _ (proj1 I2) Hp).
  - eapply pool_step; [| |exact I2|exact Hs].
    + intros s add Hsa. split; [apply Hc, Hsa | destruct (encode_run E fuel t s add) as [HR _]; cbn [c_prog c_text c_add]; exact (f_equal snd HR)].
    + intros c sh1 p [H1 H2] Hp. cbn [c_prog c_text c_add]. destruct (stays_step _ _ _ _ H1 Hp) as [E1 E2]. split; [exact E2|]. rewrite <- H2. rewrite (pstep_run _ _ _ _ Hp), E1. reflexivity.
Qed.
Lemma stays_no_write {A} (p : prog A) sh m b : stays p sh -> next_access sh p = Some (m, b) -> b = false.
Proof. destruct p as [x|i k|s k|s w k]; cbn [stays next_access]; [discriminate | | congruence | contradiction]. intros [H _]. destruct (zfind i (sh_map_r sh)); congruence. Qed.
Lemma pool_no_race E fuel t (calls : wstr -> bool -> Prop) x : (forall s add, calls s add -> stays (encode_prog E fuel t s add) (shared_of t)) -> reachable E fuel t calls x -> ~ race x.
Proof.
  intros Hc H (i & j & ci & cj & m & wi & wj & _ & Hi & Hj & Ai & Aj & Hw). destruct (pool_stays _ _ _ _ _ Hc H) as [E1 HF]. rewrite E1 in *. apply nth_error_In in Hi, Hj.
  rewrite Forall_forall in HF. rewrite (stays_no_write _ _ _ _ (proj1 (HF _ Hi)) Ai), (stays_no_write _ _ _ _ (proj1 (HF _ Hj)) Aj) in Hw. discriminate.
Qed.
Lemma with_shared_same t : with_shared t (shared_of t) = t.
Proof. destruct t as [tr pd av nm pr md dc po]. unfold with_shared, shared_of, set_av, set_model. cbn. destruct av as [[]|], md as [[]|]; reflexivity. Qed.

(** moving one call of the pool along accesses that change nothing *)
Lemma reach_move E fuel t calls sh l c r q : reachable E fuel t calls (sh, l ++ c :: r) -> reaches sh (c_prog c) q -> reachable E fuel t calls (sh, l ++ mkCall (c_text c) (c_add c) q :: r).
Proof.
  intros H Hr. remember (c_prog c) as p eqn:Ep. revert c Ep H. induction Hr as [p|p q r' Hp _ IH]; intros c -> H; [destruct c; exact H|].
  apply (IH (mkCall (c_text c) (c_add c) q) eq_refl). eapply r_step; [exact H|]. apply st_access. exact Hp.
Qed.

(** ** Programs that look up known ids only *)
Fixpoint looks_in {A} (ids : list Z) (p : prog A) : Prop :=
  match p with Done _ => True | Lookup i k => In i ids /\ forall a, looks_in ids (k a) | _ => False end.
Lemma looks_bind {A B} ids (p : prog A) (f : A -> prog B) : looks_in ids p -> (forall a, looks_in ids (f a)) -> looks_in ids (pbind p f).
Proof. intros Hp Hf. induction p as [x|i k IH|s k IH|s w k IH]; cbn [looks_in pbind] in *; [destruct x; cbn; auto | destruct Hp; split; auto | contradiction ..]. Qed.
Lemma looks_stays {A} ids (p : prog A) sh : (forall i, In i ids -> zfind i (sh_map_r sh) <> None) -> looks_in ids p -> stays p sh.
Proof. intros H. induction p as [x|i k IH|s k IH|s w k IH]; cbn [looks_in stays]; intros Hp; [exact I | destruct Hp; auto | contradiction ..]. Qed.
Lemma resolve_looks ids sentence total l : Forall (fun x => In (snd x) ids) l -> forall start, looks_in ids (resolve_prog sentence total start l).
Proof.
  induction 1 as [|[[a b] id] l Hid Hl IH]; intros start; cbn [resolve_prog looks_in]; [exact I|]. split; [exact Hid|]. intros tok. apply looks_bind; [exact I|]. intros keep. destruct (negb keep); [apply IH|].
  apply looks_bind; [exact I|]. intros a'. apply looks_bind; [exact I|]. intros b'. apply looks_bind; [apply IH | intros rest; exact I].
Qed.
Lemma find_looks ids sentence trie : incl (map snd trie) ids -> looks_in ids (find_prog sentence trie).
Proof.
  intros Hi. apply resolve_looks. apply Forall_forall. intros x Hx. apply Hi. destruct (proj1 (Forall_forall _ _) (raw_ids (word_ids trie) _ _ 0 0) x Hx) as (w & Hw). apply word_ids_in in Hw. apply in_map_iff. exists (w, snd x). auto.
Qed.
Lemma normalize_looks E ids norm trie l : incl (map snd trie) ids -> forall ns ending, looks_in ids (normalize_prog E norm trie ns ending l).
Proof.
  intros Hi. induction l as [|s l IH]; intros ns ending; cbn [normalize_prog]; [exact I|]. destruct (sp_tokens s).
  - apply looks_bind; [exact I|]. intros w. cbv zeta. apply looks_bind; [exact I|]. intros sub. apply looks_bind; [exact I|]. intros ns'. apply looks_bind; [exact I|]. intros sentence.
    apply looks_bind; [apply find_looks; exact Hi|]. intros ms. apply looks_bind; [exact I|]. intros here. apply looks_bind; [apply IH|]. intros [ns'' rest]. exact I.
  - cbv zeta. apply looks_bind; [apply IH|]. intros [ns'' rest]. exact I.
Qed.
(** the ids of added tokens that encode can recognise *)
Definition trie_ids (av : option added_vocab) : list Z := match av with Some a => map snd (av_trie_norm a ++ av_trie_raw a) | None => [] end.
Lemma prepare_looks E t s : looks_in (trie_ids (tz_av t)) (prepare_prog E t s).
Proof.
  unfold prepare_prog, trie_ids. apply looks_bind; [exact I|]. intros p0. apply looks_bind; [|intros p1; exact I]. destruct (tz_av t) as [a|]; [|exact I]. unfold extract_prog.
  apply looks_bind; [exact I|]. intros p. apply looks_bind; [exact I|]. intros sentence. apply looks_bind; [apply find_looks; rewrite map_app; intros x Hx; apply in_or_app; right; exact Hx|]. intros ms. apply looks_bind; [exact I|]. intros raw.
  cbv zeta. apply looks_bind; [apply normalize_looks; rewrite map_app; intros x Hx; apply in_or_app; left; exact Hx|]. intros [ns l]. exact I.
Qed.
(** models that keep no cache *)
Definition cacheless (m : option model) : Prop := match m with Some (MBpe b _) => QArith_base.Qeq_bool (b_dropout b) (QArith_base.Qmake 0 1) = false | _ => True end.
Lemma encode_looks E fuel t s add : cacheless (tz_model t) -> looks_in (trie_ids (tz_av t)) (encode_prog E fuel t s add).
Proof.
  intros Hm. apply looks_bind; [apply prepare_looks|]. intros p. apply looks_bind; [|intros; exact I]. unfold model_prog. destruct (tz_model t) as [[w|b c]|]; [exact I | | exact I].
  cbn [cacheless] in Hm. apply looks_bind; [|intros; exact I]. induction (pt_splits p) as [|x l IH]; [exact I|]. cbn [splits_prog]. apply looks_bind; [unfold word_prog; rewrite Hm; exact I|]. intros ts. apply looks_bind; [exact IH | intros; exact I].
Qed.
