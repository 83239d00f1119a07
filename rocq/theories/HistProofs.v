(** Lemmas for PropsHistory.v: decode as a relation, and the simulation behind history independence. *)
From Verif Require Import Base BaseFacts Unicode Common Utils PostProcessor Decoder Normalizer PreTokenizer WordPiece Bpe BpeSpec BpeProofs BpeWord AddedVocab Tokenizer AvSpec AvProofs HistSpec.
From Coq Require Import ZifyBool.

(** ** The reverse vocabulary *)
Lemma vocab_r_gen (v : smap Z) : forall (r : zmap bytes) i, zfind i (fold_left (fun r p => zset (snd p) (fst p) r) v r) = match find (fun p => Z.eqb i (snd p)) (rev v) with Some p => Some (fst p) | None => zfind i r end.
Proof.
  induction v as [|[t j] v IH]; intros r i; [reflexivity|]. cbn [fold_left rev fst snd]. rewrite IH.
  assert (HF : forall (f : list N * Z -> bool) l x, find f (l ++ [x]) = match find f l with Some y => Some y | None => if f x then Some x else None end).
  { intros f l x. induction l as [|y l IHl]; cbn; [reflexivity|]. destruct (f y); [reflexivity | exact IHl]. }
  rewrite HF. destruct (find _ (rev v)); [reflexivity|]. cbn [fst snd]. rewrite zfind_zset. destruct (Z.eqb i j); reflexivity.
Qed.
Lemma vocab_r_in v i t : model_id_to_token v i = Some t -> In (t, i) v.
Proof.
  unfold model_id_to_token, make_vocab_r. rewrite vocab_r_gen. cbn [zfind]. destruct (find _ (rev v)) as [[t' j]|] eqn:Ef; [|discriminate]. cbn. intros [= <-].
  apply find_some in Ef as [H1 H2]. cbn in H2. apply Z.eqb_eq in H2 as ->. apply in_rev. exact H1.
Qed.
Lemma vocab_r_some v i t : In (t, i) v -> exists t', model_id_to_token v i = Some t'.
Proof.
  intros H. unfold model_id_to_token, make_vocab_r. rewrite vocab_r_gen. cbn [zfind]. destruct (find _ (rev v)) as [[t' j]|] eqn:Ef; [eexists; reflexivity|].
  exfalso. apply in_rev in H. pose proof (find_none _ _ Ef _ H) as HN. cbn in HN. rewrite Z.eqb_refl in HN. discriminate.
Qed.
Lemma vocab_r_unique v i t : NoDup (map snd v) -> In (t, i) v -> model_id_to_token v i = Some t.
Proof. intros Hn H. destruct (vocab_r_some v i t H) as (t' & H'). rewrite H'. f_equal. apply vocab_r_in in H'. eapply nodup_snd_inj; eassumption. Qed.

(** ** decode *)
Definition resolve (t : tokenizer) (av : added_vocab) (i : Z) : option bytes :=
  match av_id_to_token av i with Some s => Some s | None => match tz_model t with Some m => model_id_to_token (model_vocab m) i | None => None end end.

Lemma decode_ids_some t av m skip : tz_av t = Some av -> tz_model t = Some m -> forall ids toks, Forall2 (fun i s => resolve t av i = Some s) ids toks ->
  decode_ids t skip ids = Ok (filter (fun s => negb skip || negb (is_special_token av s)) toks).
Proof.
  intros Ha Hm ids toks H. induction H as [|i s ids toks Hi _ IH]; [reflexivity|]. cbn [decode_ids filter]. rewrite Ha. unfold resolve in Hi. rewrite Hm in Hi. rewrite Hm.
  destruct (av_id_to_token av i) as [s'|]; [injection Hi as ->|rewrite Hi]; cbn [bind]; rewrite IH; cbn [bind]; destruct (negb skip || negb (is_special_token av s)); reflexivity.
Qed.
Lemma decode_ids_none t av m skip : tz_av t = Some av -> tz_model t = Some m -> forall ids, Exists (fun i => resolve t av i = None) ids ->
  decode_ids t skip ids = Throw BadOptionalAccess.
Proof.
  intros Ha Hm ids H. induction ids as [|i ids IH]; [inversion H|]. cbn [decode_ids]. rewrite Ha, Hm. destruct (resolve t av i) as [s|] eqn:Ei.
  - assert (HE : Exists (fun i => resolve t av i = None) ids) by (inversion H; subst; [congruence | assumption]). unfold resolve in Ei. rewrite Hm in Ei.
    rewrite (IH HE). destruct (av_id_to_token av i) as [s'|]; [|rewrite Ei]; reflexivity.
  - unfold resolve in Ei. rewrite Hm in Ei. destruct (av_id_to_token av i); [discriminate|]. rewrite Ei. reflexivity.
Qed.

Lemma without_filter {A} (drop : A -> Prop) (f : A -> bool) : (forall x, f x = true <-> ~ drop x) -> (forall x, f x = false -> drop x) ->
  forall l k, without drop l k <-> k = filter f l.
Proof.
  intros H1 H2 l. induction l as [|x l IH]; intros k; split; intros H.
  - inversion H. reflexivity.
  - subst k. constructor.
  - cbn [filter]. inversion H as [|? ? ? Hd Hw|? ? ? Hd Hw]; subst; apply IH in Hw; subst.
    + destruct (f x) eqn:E; [apply H1 in E; contradiction | reflexivity].
    + apply H1 in Hd. rewrite Hd. reflexivity.
  - subst k. cbn [filter]. destruct (f x) eqn:E; [apply wo_keep; [apply H1; exact E | apply IH; reflexivity] | apply wo_drop; [apply H2; exact E | apply IH; reflexivity]].
Qed.

(** ** History independence *)
(** An id that the model itself reads as the empty text: default-inserting an (empty) entry for it changes nothing. *)
Definition blank (v : option (smap Z)) (i : Z) : Prop := exists v', v = Some v' /\ model_id_to_token v' i = Some [].
Definition same_entry (v : option (smap Z)) (m m' : zmap added_token) (i : Z) : Prop :=
  zfind i m = zfind i m' \/ (look m i = default_added_token /\ look m' i = default_added_token /\ blank v i).
Definition same_map v m m' := forall i, same_entry v m m' i.
Definition covered (v : option (smap Z)) (trie : list (bytes * Z)) (m : zmap added_token) : Prop := forall t i, In (t, i) trie -> zfind i m <> None \/ blank v i.

Lemma same_look v m m' i : same_map v m m' -> look m i = look m' i.
Proof. intros H. destruct (H i) as [H'|(H1 & H2 & _)]; [unfold look; rewrite H'; reflexivity | congruence]. Qed.
Lemma same_refl v m : same_map v m m.
Proof. intros i. left. reflexivity. Qed.
Lemma same_zset v m m' i t : same_map v m m' -> same_map v (zset i t m) (zset i t m').
Proof.
  intros H j. unfold same_entry, look. rewrite !zfind_zset. destruct (Z.eqb j i); [left; reflexivity|]. exact (H j).
Qed.

(** state after looking up id [k]: default-insert it *)
Definition touch (m : zmap added_token) (k : Z) : zmap added_token := match zfind k m with Some _ => m | None => m ++ [(k, default_added_token)] end.
Lemma touch_find m k i : zfind i (touch m k) = match zfind i m with Some t => Some t | None => if Z.eqb i k then Some default_added_token else None end.
Proof.
  unfold touch. destruct (zfind k m) eqn:E.
  - destruct (zfind i m) eqn:E'; [reflexivity|]. destruct (Z.eqb_spec i k); [congruence | reflexivity].
  - rewrite zfind_app. cbn [zfind]. reflexivity.
Qed.
Lemma touch_look m k i : look (touch m k) i = look m i.
Proof. unfold look. rewrite touch_find. destruct (zfind i m); [reflexivity|]. destruct (Z.eqb i k); reflexivity. Qed.
Lemma touch_same v m m' k : same_map v m m' -> (zfind k m <> None \/ blank v k) -> (zfind k m' <> None \/ blank v k) -> same_map v (touch m k) (touch m' k).
Proof.
  intros H H1 H2 i. unfold same_entry. rewrite !touch_look, !touch_find. destruct (Z.eqb_spec i k) as [->|].
  - destruct (H k) as [Hk|Hk]; [left; rewrite Hk; reflexivity | right; exact Hk].
  - destruct (H i) as [Hk|Hk]; [left; rewrite Hk; reflexivity | right; exact Hk].
Qed.
Lemma touch_covered v trie m k : covered v trie m -> covered v trie (touch m k).
Proof.
  intros H t i Hi. destruct (H t i Hi) as [H'|H']; [left | right; exact H']. rewrite touch_find. destruct (zfind i m); congruence.
Qed.

(** the outcome of a computation with a map, up to [same_map] *)
Definition same_res {A} v (r r' : res (zmap added_token * A)) : Prop :=
  match r, r' with
  | Ok (m, a), Ok (m', a') => a = a' /\ same_map v m m'
  | Throw e, Throw e' => e = e'
  | Undef u, Undef u' => u = u'
  | Diverge, Diverge => True
  | _, _ => False
  end.

Lemma resolve_same v sentence total l : forall start m m', same_map v m m' -> Forall (fun x => (zfind (snd x) m <> None \/ blank v (snd x)) /\ (zfind (snd x) m' <> None \/ blank v (snd x))) l ->
  same_res v (resolve_matches sentence total start m l) (resolve_matches sentence total start m' l).
Proof.
  induction l as [|[[a b] k] l IH]; intros start m m' Hs Hf; [cbn; auto|]. cbn [resolve_matches].
  assert (E1 : forall mm, match zfind k mm with Some t => (t, mm) | None => (default_added_token, mm ++ [(k, default_added_token)]) end = (look mm k, touch mm k)).
  { intros mm. unfold look, touch. destruct (zfind k mm); reflexivity. }
  rewrite !E1. rewrite <- (same_look v m m' k Hs). inversion Hf as [|? ? [F1 F2] Hf']; subst. cbn [snd] in *.
  pose proof (touch_same v m m' k Hs F1 F2) as Hs'.
  assert (Hf'' : Forall (fun x => (zfind (snd x) (touch m k) <> None \/ blank v (snd x)) /\ (zfind (snd x) (touch m' k) <> None \/ blank v (snd x))) l).
  { eapply Forall_impl; [|exact Hf']. cbn beta. intros x [G1 G2]. rewrite !touch_find. split; [destruct G1 as [G1|G1]; [left; destruct (zfind (snd x) m); congruence | right; exact G1] | destruct G2 as [G2|G2]; [left; destruct (zfind (snd x) m'); congruence | right; exact G2]]. }
  set (tok := look m k). destruct (if at_single_word tok then _ else Ok true) as [keep| | |]; cbn [bind same_res]; auto.
  destruct keep; cbn [negb]; [|apply IH; assumption].
  destruct (if at_lstrip tok then _ else Ok a) as [a'| | |]; cbn [bind same_res]; auto. destruct (if at_rstrip tok then _ else Ok b) as [b'| | |]; cbn [bind same_res]; auto.
  specialize (IH b' _ _ Hs' Hf''). destruct (resolve_matches sentence total b' (touch m k) l) as [[m1 r1]| | |], (resolve_matches sentence total b' (touch m' k) l) as [[m2 r2]| | |]; cbn [bind same_res] in *; try contradiction; auto.
  destruct IH as [-> IH]. auto.
Qed.

Lemma find_same v m m' sentence trie : same_map v m m' -> covered v trie m -> covered v trie m' ->
  same_res v (av_find_matches m sentence trie) (av_find_matches m' sentence trie).
Proof.
  intros Hs H1 H2. apply resolve_same; [exact Hs|]. apply Forall_forall. intros x Hx. destruct (proj1 (Forall_forall _ _) (raw_ids (word_ids trie) _ _ 0 0) x Hx) as (t & Ht). apply word_ids_in in Ht. eauto.
Qed.

Lemma grow_covered v trie ids m m' : grow ids m m' -> covered v trie m -> covered v trie m'.
Proof. intros G H t i Hi. destruct (H t i Hi) as [H'|H']; [left | right; exact H']. destruct (zfind i m) as [x|] eqn:E; [rewrite (gr_keep _ _ _ G i x E); discriminate | congruence]. Qed.

Definition same_res3 {A B} v (r r' : res (A * zmap added_token * B)) : Prop :=
  match r, r' with
  | Ok (a, m, b), Ok (a', m', b') => a = a' /\ b = b' /\ same_map v m m'
  | Throw e, Throw e' => e = e'
  | Undef u, Undef u' => u = u'
  | Diverge, Diverge => True
  | _, _ => False
  end.
Lemma normalize_same E norm v trie l : forall ns m m' ending, same_map v m m' -> covered v trie m -> covered v trie m' ->
  same_res3 v (normalize_splits E norm trie ns m ending l) (normalize_splits E norm trie ns m' ending l).
Proof.
  induction l as [|s l IH]; intros ns m m' ending Hs H1 H2; [cbn; auto|]. cbn [normalize_splits]. destruct (sp_tokens s).
  - destruct (convert_from_string (sp_text s)) as [w| | |]; cbn [bind same_res3]; auto. cbv zeta. destruct (match norm with Some f => normalize E f (new_nstring w) | None => Ok (new_nstring w) end) as [sub| | |]; cbn [bind same_res3]; auto.
    destruct (transform_range ns _ sub) as [ns'| | |]; cbn [bind same_res3]; auto. destruct (convert_to_string (ns_text sub)) as [sentence| | |]; cbn [bind same_res3]; auto.
    pose proof (find_same v m m' sentence trie Hs H1 H2) as HF. destruct (av_find_matches m sentence trie) as [[m1 ms]| | |] eqn:E1, (av_find_matches m' sentence trie) as [[m2 ms']| | |] eqn:E2; cbn [bind same_res same_res3] in *; try contradiction; auto.
    destruct HF as [<- HF]. destruct (norm_splits (ns_text sub) ending ms) as [here| | |]; cbn [bind same_res3]; auto.
    specialize (IH ns' m1 m2 (ending + length (ns_text sub)) HF (grow_covered _ _ _ _ _ (find_grow _ _ _ _ _ E1) H1) (grow_covered _ _ _ _ _ (find_grow _ _ _ _ _ E2) H2)).
    destruct (normalize_splits E norm trie ns' m1 _ l) as [[[? ?] ?]| | |], (normalize_splits E norm trie ns' m2 _ l) as [[[? ?] ?]| | |]; cbn [bind same_res3] in *; try contradiction; auto.
    destruct IH as (-> & -> & IH). auto.
  - specialize (IH ns m m' (ending + length (sp_text s)) Hs H1 H2). cbv zeta.
    destruct (normalize_splits E norm trie ns m _ l) as [[[? ?] ?]| | |], (normalize_splits E norm trie ns m' _ l) as [[[? ?] ?]| | |]; cbn [bind same_res3] in *; try contradiction; auto.
    destruct IH as (-> & -> & IH). auto.
Qed.

(** two added vocabularies that differ only in default-inserted blank entries *)
Record same_av (v : option (smap Z)) (a a' : added_vocab) : Prop := {
  sa_added : av_added a = av_added a'; sa_specials : av_specials a = av_specials a'; sa_set : av_special_set a = av_special_set a';
  sa_map : av_map a = av_map a'; sa_norm : av_trie_norm a = av_trie_norm a'; sa_raw : av_trie_raw a = av_trie_raw a';
  sa_map_r : same_map v (av_map_r a) (av_map_r a') }.

Lemma extract_same E norm v a a' s : same_av v a a' -> covered v (av_trie_norm a ++ av_trie_raw a) (av_map_r a) -> covered v (av_trie_norm a' ++ av_trie_raw a') (av_map_r a') ->
  same_res v (extract_and_normalize E a norm s) (extract_and_normalize E a' norm s).
Proof.
  intros [S1 S2 S3 S4 S5 S6 S7] H1 H2. rewrite <- S5, <- S6 in H2. unfold extract_and_normalize. rewrite <- S5, <- S6. destruct (new_pretok (new_nstring s)) as [p| | |]; cbn [bind same_res]; auto.
  destruct (convert_to_string (ns_text (pt_norm p))) as [sentence| | |]; cbn [bind same_res]; auto.
  assert (C : forall m, covered v (av_trie_norm a ++ av_trie_raw a) m -> covered v (av_trie_norm a) m /\ covered v (av_trie_raw a) m).
  { intros m H. split; intros t i Hi; apply (H t i); apply in_app_iff; tauto. }
  destruct (C _ H1) as [H1n H1r]. destruct (C _ H2) as [H2n H2r].
  pose proof (find_same v _ _ sentence (av_trie_raw a) S7 H1r H2r) as HF.
  destruct (av_find_matches (av_map_r a) sentence (av_trie_raw a)) as [[m1 ms]| | |] eqn:E1, (av_find_matches (av_map_r a') sentence (av_trie_raw a)) as [[m2 ms']| | |] eqn:E2; cbn [bind same_res] in *; try contradiction; auto.
  destruct HF as [<- HF]. destruct (raw_splits (ns_text (pt_norm p)) ms) as [raw| | |]; cbn [bind same_res]; auto. cbv zeta.
  set (splits1 := match raw with [] => pt_splits p | _ => raw end).
  pose proof (normalize_same E norm v (av_trie_norm a) splits1 (pt_norm p) m1 m2 0 HF (grow_covered _ _ _ _ _ (find_grow _ _ _ _ _ E1) H1n) (grow_covered _ _ _ _ _ (find_grow _ _ _ _ _ E2) H2n)) as HN.
  destruct (normalize_splits E norm (av_trie_norm a) (pt_norm p) m1 0 splits1) as [[[? ?] ?]| | |], (normalize_splits E norm (av_trie_norm a) (pt_norm p) m2 0 splits1) as [[[? ?] ?]| | |]; cbn [bind same_res same_res3] in *; try contradiction; auto.
  destruct HN as (-> & -> & HN). auto.
Qed.

(** ** Additions *)
Lemma choose_same a a' v t : av_map a = av_map a' -> choose_id a v t = choose_id a' v t.
Proof. intros H. unfold choose_id. rewrite H. reflexivity. Qed.

Definition same_av_res v (r r' : res added_vocab) : Prop :=
  match r, r' with
  | Ok a, Ok a' => same_av v a a'
  | Throw e, Throw e' => e = e'
  | Undef u, Undef u' => u = u'
  | Diverge, Diverge => True
  | _, _ => False
  end.
Lemma register_same v l : forall a a', same_av v a a' -> same_av v (fold_left register_special l a) (fold_left register_special l a').
Proof.
  induction l as [|t l IH]; intros a a' H; [exact H|]. cbn [fold_left]. apply IH. destruct H as [S1 S2 S3 S4 S5 S6 S7]. unfold register_special. rewrite <- S3.
  destruct (_ && _); constructor; cbn; congruence || assumption.
Qed.
Lemma assign_same alias v w l : forall a a', same_av v a a' -> same_av_res v (assign_ids alias a w l) (assign_ids alias a' w l).
Proof.
  induction l as [|t l IH]; intros a a' H; [exact H|]. cbn [assign_ids]. destruct (is_nil (at_content t)); [apply IH; exact H|]. pose proof H as [S1 S2 S3 S4 S5 S6 S7].
  rewrite (choose_same a a' w (at_content t) S4). destruct (choose_id a' w (at_content t)) as [i| | |]; cbn [bind same_av_res]; auto. cbv zeta. rewrite <- S3.
  destruct (smem (at_content t) (av_special_set a)); [apply IH|destruct alias; cbn [same_av_res]; auto; apply IH]; constructor; cbn; try congruence; apply same_zset; exact S7.
Qed.
Lemma add_same alias v w a a' l : same_av v a a' ->
  match av_add_tokens alias a w l, av_add_tokens alias a' w l with
  | Ok (b, n), Ok (b', n') => n = n' /\ same_av v b b'
  | Throw e, Throw e' => e = e'
  | Undef u, Undef u' => u = u'
  | Diverge, Diverge => True
  | _, _ => False
  end.
Proof.
  intros H. unfold av_add_tokens. cbv zeta. pose proof (assign_same alias v w l _ _ (register_same v l _ _ H)) as HA.
  destruct (assign_ids alias (fold_left register_special l a) w l) as [b| | |], (assign_ids alias (fold_left register_special l a') w l) as [b'| | |]; cbn [bind same_av_res] in *; try contradiction; auto.
  destruct HA as [S1 S2 S3 S4 S5 S6 S7]. unfold refresh_added_tokens. cbv zeta. rewrite S2, S1. destruct w as [w|]; [|destruct (av_specials b' ++ av_added b')]; cbn [bind]; auto; (split; [reflexivity|]; constructor; cbn; auto).
Qed.

(** *** the invariant: every id in a trie has an entry, or is blank *)
Record inv (v : option (smap Z)) (a : added_vocab) : Prop := {
  iv_map : forall tok, In tok (av_specials a ++ av_added a) -> at_content tok <> [] -> exists i, sfind (at_content tok) (av_map a) = Some i;
  iv_back : forall t i, sfind t (av_map a) = Some i -> zfind i (av_map_r a) <> None;
  iv_model : forall t i w j, sfind t (av_map a) = Some i -> v = Some w -> sfind t w = Some j -> i = j;
  iv_trie : forall t i, In (t, i) (av_trie_norm a ++ av_trie_raw a) -> exists w tok, v = Some w /\ sfind t w = Some i /\ In tok (av_specials a ++ av_added a) /\ at_content tok = t }.

Definition clean_ids (w : smap Z) : Prop := NoDup (map snd w) \/ sfind [] w = None.
Lemma inv_covered v a : (forall w, v = Some w -> clean_ids w) -> inv v a -> covered v (av_trie_norm a ++ av_trie_raw a) (av_map_r a).
Proof.
  intros Hn H t i Hi. destruct (iv_trie _ _ H t i Hi) as (w & tok & -> & H1 & H2 & H3). destruct (is_nil t) eqn:En.
  - apply is_nil_true in En. subst t. right. exists w. split; [reflexivity|]. destruct (Hn w eq_refl) as [Hd|Hd]; [|rewrite En in H1; congruence]. apply vocab_r_unique; [exact Hd|]. apply sfind_in. rewrite <- H1, En. reflexivity.
  - left. apply is_nil_false in En. rewrite <- H3 in En. destruct (iv_map _ _ H tok H2 En) as (j & Hj). rewrite H3 in Hj.
    rewrite <- (iv_model _ _ H t j w i Hj eq_refl H1). eapply iv_back; eassumption.
Qed.

Record pre_inv (v : option (smap Z)) (a : added_vocab) (l : list added_token) : Prop := {
  pi_map : forall tok, In tok (av_specials a ++ av_added a) -> at_content tok <> [] -> (exists i, sfind (at_content tok) (av_map a) = Some i) \/ In (at_content tok) (map at_content l);
  pi_back : forall t i, sfind t (av_map a) = Some i -> zfind i (av_map_r a) <> None;
  pi_model : forall t i w j, sfind t (av_map a) = Some i -> v = Some w -> sfind t w = Some j -> i = j }.

Lemma pi_step v a a' tok l i : at_content tok <> [] -> pre_inv v a (tok :: l) -> choose_id a v (at_content tok) = Ok i ->
  av_specials a' = av_specials a -> (av_added a' = av_added a \/ av_added a' = av_added a ++ [tok]) -> av_map a' = sset (at_content tok) i (av_map a) -> av_map_r a' = zset i tok (av_map_r a) -> pre_inv v a' l.
Proof.
  intros Hne [P1 P2 P3] Hc Es Ea Em Er. constructor; rewrite ?Es, ?Em, ?Er.
  - intros x Hx Hx'. rewrite sfind_sset. destruct (leqb_spec (at_content x) (at_content tok)) as [E|E]; [left; eexists; reflexivity|].
    assert (Hx2 : In x (av_specials a ++ av_added a)).
    { rewrite in_app_iff in *. destruct Ea as [Ea|Ea]; rewrite Ea in Hx; rewrite ?in_app_iff in Hx; [exact Hx|]. destruct Hx as [Hx|[Hx|[Hx|[]]]]; auto. subst x. congruence. }
    destruct (P1 x Hx2 Hx') as [H|[H|H]]; [left; exact H | congruence | right; exact H].
  - intros t j. rewrite sfind_sset, zfind_zset. destruct (leqb t (at_content tok)); [intros [= ->]; rewrite Z.eqb_refl; discriminate|]. intros H. destruct (Z.eqb j i); [discriminate|]. eapply P2; exact H.
  - intros t j w k. rewrite sfind_sset. destruct (leqb_spec t (at_content tok)) as [->|]; [|apply P3]. intros [= ->] -> Hw. unfold choose_id in Hc.
    destruct (sfind (at_content tok) (av_map a)) as [j'|] eqn:Ej; [injection Hc as ->; eapply P3; [exact Ej | reflexivity | exact Hw]|].
    unfold token_to_id in Hc. rewrite Hw in Hc. congruence.
Qed.
Lemma assign_inv alias v l : forall a a', pre_inv v a l -> assign_ids alias a v l = Ok a' -> pre_inv v a' [].
Proof.
  induction l as [|tok l IH]; intros a a' H Ha; [injection Ha as <-; exact H|]. cbn [assign_ids] in Ha. destruct (is_nil (at_content tok)) eqn:En.
  - apply is_nil_true in En. apply (IH a a'); [|exact Ha]. destruct H as [P1 P2 P3]. constructor; auto. intros x Hx Hx'. destruct (P1 x Hx Hx') as [G|[G|G]]; [left; exact G | congruence | right; exact G].
  - apply is_nil_false in En. apply bind_ok in Ha as (i & Hi & Ha). cbv zeta in Ha. destruct (smem (at_content tok) (av_special_set a)); [|destruct alias; [discriminate|]].
    + eapply IH; [|exact Ha]. eapply (pi_step v a _ tok l i En H Hi); cbn; auto.
    + eapply IH; [|exact Ha]. eapply (pi_step v a _ tok l i En H Hi); cbn; auto.
Qed.
Lemma refresh_inv v a a' : pre_inv v a [] -> refresh_added_tokens a v = Ok a' -> inv v a'.
Proof.
  intros [P1 P2 P3] H. unfold refresh_added_tokens in H. cbv zeta in H.
  assert (G : forall a', av_added a' = av_added a -> av_specials a' = av_specials a -> av_map a' = av_map a -> av_map_r a' = av_map_r a ->
    (forall t i, In (t, i) (av_trie_norm a' ++ av_trie_raw a') -> exists w tok, v = Some w /\ sfind t w = Some i /\ In tok (av_specials a ++ av_added a) /\ at_content tok = t) -> inv v a').
  { intros b E1 E2 E3 E4 HT. constructor; rewrite ?E1, ?E2, ?E3, ?E4; auto. intros x Hx Hx'. destruct (P1 x Hx Hx') as [G|[]]. exact G. }
  destruct v as [w|].
  - injection H as <-. apply G; try reflexivity. cbn [av_trie_norm av_trie_raw]. intros t i Hi. apply in_app_iff in Hi as [Hi|Hi]; apply known_in in Hi as (K1 & tok & K2 & K3 & _); exists w, tok; auto.
  - destruct (av_specials a ++ av_added a) eqn:E0; [|discriminate]. injection H as <-. apply G; try reflexivity. cbn. intros t i [].
Qed.
Lemma add_inv alias v a l a' n : inv v a \/ (a = new_added_vocab l) -> av_add_tokens alias a v l = Ok (a', n) -> inv v a'.
Proof.
  intros H Ha. unfold av_add_tokens in Ha. cbv zeta in Ha. apply bind_ok in Ha as (a2 & H2 & Ha). apply bind_ok in Ha as (a3 & H3 & Ha). injection Ha as <- _.
  eapply refresh_inv; [|exact H3]. eapply assign_inv; [|exact H2]. pose proof (register_ok l a) as HR. cbv zeta in HR. destruct HR as (R1 & R2 & R3 & R4 & R5 & R6 & R7 & _).
  constructor; rewrite ?R1, ?R2, ?R3.
  - intros x Hx Hx'. apply in_app_iff in Hx as [Hx|Hx].
    + destruct (R7 x Hx) as [G|(G & _)]; [|right; apply in_map; exact G]. destruct H as [H| ->]; [left; apply (iv_map _ _ H); [apply in_app_iff; auto | exact Hx'] | cbn in G; destruct G].
    + destruct H as [H| ->]; [left; apply (iv_map _ _ H); [apply in_app_iff; auto | exact Hx'] | cbn in Hx; right; apply in_map; exact Hx].
  - destruct H as [H| ->]; [apply (iv_back _ _ H) | cbn; discriminate].
  - destruct H as [H| ->]; [apply (iv_model _ _ H) | cbn; discriminate].
Qed.
Lemma inv_map_r v a m : grow (map snd (av_trie_norm a ++ av_trie_raw a)) (av_map_r a) m -> inv v a -> inv v (set_map_r a m).
Proof.
  intros G [I1 I2 I3 I4]. constructor; cbn; auto. intros t i Hi. specialize (I2 t i Hi). destruct (zfind i (av_map_r a)) as [x|] eqn:E; [rewrite (gr_keep _ _ _ G i x E); discriminate | congruence].
Qed.

Lemma same_av_r v a a' m m' : same_av v a a' -> same_map v m m' -> same_av v (set_map_r a m) (set_map_r a' m').
Proof. intros [S1 S2 S3 S4 S5 S6 S7] H. constructor; cbn; auto. Qed.

(** growing the map of reverse ids by blank entries *)
Lemma grow_same v trie ids m m' : covered v trie m -> ids = map snd trie -> grow ids m m' -> same_map v m m'.
Proof.
  intros Hc -> G i. destruct (zfind i m) as [x|] eqn:E; [left; rewrite (gr_keep _ _ _ G i x E), E; reflexivity|].
  destruct (zfind i m') as [y|] eqn:E'; [|left; congruence]. destruct (gr_new _ _ _ G i y E') as [H|[-> Hi]]; [congruence|]. right.
  apply in_map_iff in Hi as ([t j] & <- & Hj). cbn [snd] in *. destruct (Hc t j Hj) as [H|H]; [congruence|]. unfold look. rewrite E, E'. auto.
Qed.

(** ** Tokenizers that answer alike *)
Record alike (E : env) (t t' : tokenizer) : Prop := {
  al_trunc : tz_trunc t = tz_trunc t'; al_pad : tz_pad t = tz_pad t'; al_norm : tz_norm t = tz_norm t'; al_pre : tz_pre t = tz_pre t';
  al_dec : tz_dec t = tz_dec t'; al_post : tz_post t = tz_post t';
  al_vocab : option_map model_vocab (tz_model t) = option_map model_vocab (tz_model t');
  al_model : match tz_model t, tz_model t' with
             | None, None => True
             | Some (MWordPiece w), Some (MWordPiece w') => w = w'
             | Some (MBpe b c), Some (MBpe b' c') => b = b' /\ cache_ok E b c /\ cache_ok E b c'
             | _, _ => False
             end;
  al_av : match tz_av t, tz_av t' with
          | None, None => True
          | Some a, Some a' => same_av (option_map model_vocab (tz_model t)) a a' /\ inv (option_map model_vocab (tz_model t)) a /\ inv (option_map model_vocab (tz_model t)) a'
          | _, _ => False
          end }.

Definition nodup_ids (t : tokenizer) : Prop := forall w, option_map model_vocab (tz_model t) = Some w -> clean_ids w.

Lemma alike_trans E a b c : alike E a b -> alike E b c -> alike E a c.
Proof.
  intros [A1 A2 A3 A4 A5 A6 A7 A8 A9] [B1 B2 B3 B4 B5 B6 B7 B8 B9]. constructor; try congruence.
  - destruct (tz_model a) as [[]|], (tz_model b) as [[]|], (tz_model c) as [[]|]; try contradiction; try congruence; auto. destruct A8 as (-> & ? & ?), B8 as (-> & ? & ?). auto.
  - rewrite <- A7 in B9. destruct (tz_av a) as [x|], (tz_av b) as [y|], (tz_av c) as [z|]; try contradiction; auto. destruct A9 as (S1 & I1 & I2), B9 as (S2 & I3 & I4).
    split; [|auto]. destruct S1 as [P1 P2 P3 P4 P5 P6 P7], S2 as [Q1 Q2 Q3 Q4 Q5 Q6 Q7]. constructor; try congruence.
    intros i. destruct (P7 i) as [P|(P & P' & P'')], (Q7 i) as [Q|(Q & Q' & Q'')].
    + left. congruence.
    + right. unfold look in *. rewrite P. auto.
    + right. unfold look in *. rewrite <- Q. auto.
    + right. auto.
Qed.
Lemma alike_sym E a b : alike E a b -> alike E b a.
Proof.
  intros [A1 A2 A3 A4 A5 A6 A7 A8 A9]. constructor; try congruence.
  - destruct (tz_model a) as [[]|], (tz_model b) as [[]|]; try contradiction; try congruence; auto. destruct A8 as (-> & ? & ?). auto.
  - rewrite <- A7. destruct (tz_av a) as [x|], (tz_av b) as [y|]; try contradiction; auto. destruct A9 as (S1 & I1 & I2). split; [|auto]. destruct S1 as [P1 P2 P3 P4 P5 P6 P7]. constructor; try congruence.
    intros i. destruct (P7 i) as [P|(P & P' & P'')]; [left | right]; auto.
Qed.

Lemma failed_alike E t s : nodup_ids t -> alike E t t -> alike E t (set_av t (prepare_av E t s)).
Proof.
  intros Hn [A1 A2 A3 A4 A5 A6 A7 A8 A9]. set (v := option_map model_vocab (tz_model t)) in *. constructor; cbn [tz_trunc tz_pad tz_norm tz_pre tz_dec tz_post tz_model tz_av set_av]; auto.
  unfold prepare_av. destruct (tz_av t) as [a|]; [|exact I]. destruct A9 as ([S1 S2 S3 S4 S5 S6 S7] & I1 & _). pose proof (extract_map_grow E a (tz_norm t) s) as HG.
  split; [|split; [exact I1 | eapply inv_map_r; eassumption]]. constructor; cbn; auto. eapply grow_same; [apply inv_covered; [exact Hn | exact I1] | reflexivity | exact HG].
Qed.
Lemma alike_refl_l E a b : alike E a b -> alike E a a.
Proof. intros H. eapply alike_trans; [exact H | apply alike_sym; exact H]. Qed.

Lemma encode_alike E fuel t t' s b : nodup_ids t -> alike E t t' -> snd (encode E fuel t s b) = snd (encode E fuel t' s b) /\ alike E (fst (encode E fuel t s b)) (fst (encode E fuel t' s b)).
Proof.
  intros Hn H. pose proof H as [A1 A2 A3 A4 A5 A6 A7 A8 A9].
  set (v := option_map model_vocab (tz_model t)) in *.
  assert (HP : match prepare E t s, prepare E t' s with
               | Ok (a, p), Ok (a', p') => p = p' /\ match a, a' with None, None => True | Some x, Some x' => same_av v x x' /\ inv v x /\ inv v x' | _, _ => False end
               | Throw e, Throw e' => e = e' | Undef u, Undef u' => u = u' | Diverge, Diverge => True | _, _ => False end).
  { unfold prepare. rewrite <- A3, <- A4. destruct (new_pretok (new_nstring s)) as [p0| | |]; cbn [bind]; auto.
    destruct (tz_av t) as [a|], (tz_av t') as [a'|]; try contradiction.
    - destruct A9 as (S & I & I'). pose proof (extract_same E (tz_norm t) v a a' s S (inv_covered v a Hn I) (inv_covered v a' Hn I')) as HE.
      destruct (extract_and_normalize E a (tz_norm t) s) as [[m p]| | |] eqn:E1, (extract_and_normalize E a' (tz_norm t) s) as [[m' p']| | |] eqn:E2; cbn [bind same_res] in *; try contradiction; auto.
      destruct HE as [<- HE]. destruct (match tz_pre t with Some pt => pre_tokenize E pt p | None => Ok p end) as [p2| | |]; cbn [bind]; auto.
      split; [reflexivity|]. split; [apply same_av_r; assumption|]. split; eapply inv_map_r; try eassumption; eapply extract_grow; eassumption.
    - cbn [bind]. destruct (match tz_pre t with Some pt => pre_tokenize E pt p0 | None => Ok p0 end); cbn [bind]; auto. }
  assert (HFF : alike E (set_av t (prepare_av E t s)) (set_av t' (prepare_av E t' s))).
  { assert (Hn' : nodup_ids t') by (intros w Hw; apply Hn; rewrite <- Hw; exact A7).
    eapply alike_trans; [apply alike_sym, failed_alike; [exact Hn | eapply alike_refl_l; exact H]|]. eapply alike_trans; [exact H|]. apply failed_alike; [exact Hn' | eapply alike_refl_l, alike_sym; exact H]. }
  unfold encode. destruct (prepare E t s) as [[a p]| | |], (prepare E t' s) as [[a' p']| | |]; try contradiction; cbn [fst snd]; try (split; [congruence | exact HFF]).
  destruct HP as [<- HA]. cbv zeta. cbn [tz_model set_av].
  destruct (tz_model t) as [[w|bp c]|] eqn:Em, (tz_model t') as [[w'|bp' c']|] eqn:Em'; try contradiction.
  - subst w'. cbn [model_tokenize fst snd]. split.
    + destruct (wp_tokenize w p) as [p'| | |]; cbn [bind]; auto. destruct (into_encoding p' 0) as [e| | |]; cbn [bind]; auto. unfold do_post_process. cbn. rewrite A1, A2, A6. reflexivity.
    + constructor; cbn; auto.
  - destruct A8 as (<- & C1 & C2). cbn [model_tokenize]. destruct (bpe_tokenize_transparent E bp c p C1) as [T1 T2]. destruct (bpe_tokenize_transparent E bp c' p C2) as [T3 T4].
    destruct (bpe_tokenize E bp c p) as [c1 r1]. destruct (bpe_tokenize E bp c' p) as [c2 r2]. cbn [fst snd] in *. rewrite T1, T3. split.
    + destruct (plain_words E bp (pt_splits p)) as [l| | |]; cbn [bind]; auto. destruct (into_encoding _ 0) as [e| | |]; cbn [bind]; auto. unfold do_post_process. cbn. rewrite A1, A2, A6. reflexivity.
    + constructor; cbn; auto.
  - cbn [fst snd bind]. split.
    + destruct (into_encoding p 0) as [e| | |]; cbn [bind]; auto. unfold do_post_process. cbn. rewrite A1, A2, A6. reflexivity.
    + constructor; cbn; rewrite ?Em, ?Em'; auto.
Qed.

Lemma encode_self E fuel t s b : nodup_ids t -> alike E t t -> alike E t (fst (encode E fuel t s b)).
Proof.
  intros Hn H. pose proof H as [A1 A2 A3 A4 A5 A6 A7 A8 A9]. set (v := option_map model_vocab (tz_model t)) in *.
  assert (HP : match prepare E t s with Ok (a, p) => match tz_av t, a with None, None => True | Some x, Some x' => same_av v x x' /\ inv v x /\ inv v x' | _, _ => False end | _ => True end).
  { unfold prepare. destruct (new_pretok (new_nstring s)) as [p0| | |]; cbn [bind]; auto.
    destruct (tz_av t) as [a|].
    - destruct A9 as (S & I & I'). destruct (extract_and_normalize E a (tz_norm t) s) as [[m p]| | |] eqn:E1; cbn [bind]; auto.
      pose proof (extract_grow _ _ _ _ _ _ E1) as HG. destruct (match tz_pre t with Some pt => pre_tokenize E pt p | None => Ok p end); cbn [bind]; auto.
      split; [|split; [exact I | eapply inv_map_r; eassumption]]. destruct S as [S1 S2 S3 S4 S5 S6 S7]. constructor; cbn; auto. eapply grow_same; [apply inv_covered; [exact Hn | exact I] | reflexivity | exact HG].
    - cbn [bind]. destruct (match tz_pre t with Some pt => pre_tokenize E pt p0 | None => Ok p0 end); cbn [bind]; auto. }
  unfold encode. destruct (prepare E t s) as [[a p]| | |]; cbn [fst]; try (apply failed_alike; [exact Hn | exact H]). cbv zeta. cbn [tz_model set_av].
  destruct (tz_model t) as [[w|bp c]|] eqn:Em.
  - cbn [model_tokenize fst]. constructor; cbn; rewrite ?Em; auto.
  - cbn [model_tokenize]. destruct A8 as (_ & C1 & _). destruct (bpe_tokenize_transparent E bp c p C1) as [_ T2]. destruct (bpe_tokenize E bp c p) as [c1 r1]. cbn [fst snd] in *. constructor; cbn; rewrite ?Em; auto.
  - cbn [fst]. constructor; cbn; rewrite ?Em; auto.
Qed.

Lemma decode_alike E t t' ids b : alike E t t' -> decode t ids b = decode t' ids b.
Proof.
  intros [A1 A2 A3 A4 A5 A6 A7 A8 A9]. unfold decode. rewrite <- A5. assert (HD : decode_ids t b ids = decode_ids t' b ids); [|rewrite HD; reflexivity].
  induction ids as [|i ids IH]; [reflexivity|]. cbn [decode_ids]. rewrite IH. destruct (tz_av t) as [a|], (tz_av t') as [a'|]; try contradiction; auto.
  destruct A9 as ([S1 S2 S3 S4 S5 S6 S7] & I & I'). unfold is_special_token. rewrite <- S3.
  assert (HV : forall i, match tz_model t with None => Undef NullDeref | Some m => match model_id_to_token (model_vocab m) i with Some s => Ok s | None => Throw BadOptionalAccess end end =
                         match tz_model t' with None => Undef NullDeref | Some m => match model_id_to_token (model_vocab m) i with Some s => Ok s | None => Throw BadOptionalAccess end end).
  { intros j. destruct (tz_model t) as [m|], (tz_model t') as [m'|]; cbn in A7; try discriminate; auto. injection A7 as ->. reflexivity. }
  unfold av_id_to_token. rewrite <- (HV i). destruct (S7 i) as [H|(H1 & H2 & (w & H3 & H4))]; [rewrite H; reflexivity|].
  unfold look in *. destruct (tz_model t) as [m|]; [|discriminate]. injection H3 as <-. rewrite H4.
  destruct (zfind i (av_map_r a)), (zfind i (av_map_r a')); subst; reflexivity.
Qed.

Lemma add_alike E t t' l : alike E t t' ->
  match add_tokens false t l, add_tokens false t' l with
  | Ok (u, n), Ok (u', n') => n = n' /\ alike E u u'
  | Throw e, Throw e' => e = e' | Undef u, Undef u' => u = u' | Diverge, Diverge => True | _, _ => False end.
Proof.
  intros [A1 A2 A3 A4 A5 A6 A7 A8 A9]. unfold add_tokens. rewrite <- A7. destruct (tz_av t) as [a|], (tz_av t') as [a'|]; try contradiction; auto.
  destruct A9 as (S & I & I'). pose proof (add_same false _ (option_map model_vocab (tz_model t)) a a' l S) as HS.
  destruct (av_add_tokens false a _ l) as [[b n]| | |] eqn:E1, (av_add_tokens false a' _ l) as [[b' n']| | |] eqn:E2; cbn [bind] in *; try contradiction; auto.
  destruct HS as [<- HS]. split; [reflexivity|]. constructor; cbn; auto. split; [exact HS|]. split; eapply add_inv; try eassumption; auto.
Qed.

Lemma do_call_alike E fuel t t' c : nodup_ids t -> alike E t t' -> reply E fuel t c = reply E fuel t' c /\ alike E (fst (do_call E fuel t c)) (fst (do_call E fuel t' c)).
Proof.
  intros Hn H. unfold reply. destruct c as [s b|ids b|l|l]; cbn [do_call].
  - destruct (encode_alike E fuel t t' s b Hn H) as [H1 H2]. destruct (encode E fuel t s b), (encode E fuel t' s b). cbn [fst snd] in *. split; [congruence | exact H2].
  - cbn [fst snd]. split; [f_equal; apply (decode_alike E); exact H | exact H].
  - pose proof (add_alike E t t' l H) as HA. destruct (add_tokens false t l) as [[u n]| | |], (add_tokens false t' l) as [[u' n']| | |]; cbn [adding fst snd]; try contradiction; subst; auto.
    destruct HA as [<- HA]. auto.
  - unfold add_special_tokens. pose proof (add_alike E t t' l H) as HA. destruct (add_tokens false t l) as [[u n]| | |], (add_tokens false t' l) as [[u' n']| | |]; cbn [adding fst snd]; try contradiction; subst; auto.
    destruct HA as [<- HA]. auto.
Qed.
Lemma do_call_self E fuel t c : adds c = false -> nodup_ids t -> alike E t t -> alike E t (fst (do_call E fuel t c)).
Proof.
  intros Hc Hn H. destruct c as [s b|ids b|l|l]; try discriminate; cbn [do_call].
  - pose proof (encode_self E fuel t s b Hn H). destruct (encode E fuel t s b). exact H0.
  - exact H.
Qed.
Lemma alike_nodup E t t' : alike E t t' -> nodup_ids t -> nodup_ids t'.
Proof. intros H Hn w Hw. apply Hn. rewrite (al_vocab _ _ _ H). exact Hw. Qed.
Lemma alike_left E t t' : alike E t t' -> alike E t t.
Proof. intros H. eapply alike_trans; [exact H | apply alike_sym; exact H]. Qed.
Lemma do_call_nodup E fuel t c : alike E t t -> nodup_ids t -> nodup_ids (fst (do_call E fuel t c)).
Proof.
  intros H Hn. destruct (adds c) eqn:Ec; [|exact (alike_nodup E t _ (do_call_self E fuel t c Ec Hn H) Hn)].
  destruct c as [s b|ids b|l|l]; try discriminate; cbn [do_call]; unfold add_special_tokens; unfold add_tokens; (destruct (tz_av t) as [a|]; [|exact Hn]); destruct (av_add_tokens false a _ l) as [[b n]| | |]; exact Hn.
Qed.

Lemma after_alike E fuel h : forall t t', nodup_ids t -> alike E t t' -> alike E (after E fuel t h) (after E fuel t' (filter adds h)).
Proof.
  induction h as [|c h IH]; intros t t' Hn H; [exact H|]. cbn [filter]. unfold after. cbn [fold_left]. fold (after E fuel (fst (do_call E fuel t c)) h).
  destruct (adds c) eqn:Ec.
  - cbn [fold_left]. apply IH; [apply do_call_nodup; [eapply alike_left; exact H | exact Hn]|]. apply do_call_alike; assumption.
  - apply IH; [apply do_call_nodup; [eapply alike_left; exact H | exact Hn]|]. eapply alike_trans; [|exact H]. apply alike_sym. apply do_call_self; [exact Ec | exact Hn | eapply alike_left; exact H].
Qed.

Lemma constructed_alike E t : constructed t -> alike E t t.
Proof.
  intros (t0 & H1 & H2 & H3). unfold finish_construction in H3.
  assert (HM : forall m, tz_model t0 = Some m -> match m with MWordPiece w => w = w | MBpe b c => b = b /\ cache_ok E b c /\ cache_ok E b c end).
  { intros [w|b c] Hm; [reflexivity|]. rewrite (H2 b c Hm). split; [reflexivity|]. split; apply cache_ok_nil. }
  destruct (tz_av t0) as [a|] eqn:Ea.
  - apply bind_ok in H3 as ([t' n] & H3 & E'). injection E' as <-. unfold add_tokens in H3. rewrite Ea in H3. apply bind_ok in H3 as ([a' n'] & H3 & E'). injection E' as <- _.
    destruct (H1 a eq_refl) as (l & ->). cbn [new_added_vocab av_added] in H3. assert (HI : inv (option_map model_vocab (tz_model t0)) a') by (eapply add_inv; [right; reflexivity | exact H3]).
    constructor; cbn; auto.
    + destruct (tz_model t0) as [[w|b c]|]; auto. exact (HM _ eq_refl).
    + split; [|auto]. constructor; auto. apply same_refl.
  - injection H3 as <-. constructor; auto.
    + destruct (tz_model t0) as [[w|b c]|]; auto. exact (HM _ eq_refl).
    + rewrite Ea. exact I.
Qed.
