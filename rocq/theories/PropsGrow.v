(** C124: a WordPiece vocabulary with more entries. *)
From Verif Require Import Base BaseFacts Unicode Common Utils PostProcessor Decoder Normalizer PreTokenizer WordPiece Bpe AddedVocab Tokenizer Spec
  EncFacts TzSpec TzProofs NormSpec NormProofs PreSpec PreProofs AvSpec AvProofs ExtractProofs UnicodeProofs RuntimeProofs RefSpec WpSpec WpProofs PropsReference PropsPre RelevSpec PropsRelevant GrowSpec Env.
From Coq Require Import ZifyBool.
Import ListNotations.

Lemma candidate_more w w' u a k : more_entries w w' -> wp_candidate w' u a k = wp_candidate w u a k.
Proof. intros (_ & _ & H & _). unfold wp_candidate. rewrite H. reflexivity. Qed.
Lemma longest_more w w' u a : more_entries w w' -> forall n i k, wp_longest w' u a n = Some (i, k) -> (exists j, sfind (wp_candidate w u a k) (wp_vocab w) = Some j) -> wp_longest w u a n = Some (i, k).
Proof.
  intros H. induction n as [|n IH]; intros i k E HS; cbn [wp_longest] in *; [discriminate|]. rewrite (candidate_more _ _ _ _ _ H) in E. destruct (sfind (wp_candidate w u a (S n)) (wp_vocab w')) as [i'|] eqn:E'.
  - injection E as <- <-. destruct HS as (j & HS). rewrite HS. destruct H as (_ & _ & _ & H). apply H in HS. congruence.
  - destruct (sfind (wp_candidate w u a (S n)) (wp_vocab w)) as [j|] eqn:Ej; [destruct H as (_ & _ & _ & H); apply H in Ej; congruence|]. apply IH; assumption.
Qed.
Lemma loop_more w w' u : more_entries w w' -> forall fuel a ts, wp_loop fuel w' u a = Ok (Some ts) -> settled w (map tk_value ts) -> wp_loop fuel w u a = Ok (Some ts).
Proof.
  intros H. induction fuel as [|f IH]; intros a ts E HS; cbn [wp_loop] in *; [discriminate|]. destruct (a <? length u); [|exact E].
  destruct (wp_longest w' u a (length u - a)) as [[i k]|] eqn:EL; [|discriminate]. apply bind_ok in E as ([r|] & E1 & E); [|discriminate]. injection E as <-. cbn [map tk_value] in HS. inversion HS as [|? ? [_ H1] H2]; subst.
  rewrite (candidate_more _ _ _ _ _ H) in H1. rewrite (longest_more w w' u a H _ _ _ EL H1). rewrite (IH _ _ E1 H2). cbn [bind]. rewrite (candidate_more _ _ _ _ _ H). reflexivity.
Qed.
Lemma word_more w w' t ts : more_entries w w' -> wp_word w' t = Ok ts -> settled w (map tk_value ts) -> wp_word w t = Ok ts.
Proof.
  intros H E HS. unfold wp_word in *. cbv zeta in *. assert (HM := H). destruct HM as (HU & HX & _). rewrite HX in E. destruct (wp_max w <? _)%Z.
  - injection E as <-. inversion HS as [|? ? [K _] _]; subst. unfold wp_unk_token in K. cbn [tk_value] in K. congruence.
  - apply bind_ok in E as ([r|] & E1 & E).
    + injection E as <-. rewrite (loop_more _ _ _ H _ _ _ E1 HS). reflexivity.
    + injection E as <-. inversion HS as [|? ? [K _] _]; subst. unfold wp_unk_token in K. cbn [tk_value] in K. congruence.
Qed.
Lemma rows_tokens ns ty l : forall k e, into_rows ns ty k l = Ok e -> en_tokens e = flat_map (fun x => map tk_value (sp_tokens x)) l.
Proof.
  induction l as [|x l IH]; intros k e H; cbn [into_rows] in H; [injection H as <-; reflexivity|]. apply bind_ok in H as (b & _ & H). apply bind_ok in H as (r & Hr & H). injection H as <-.
  cbn [flat_map]. rewrite <- (IH _ _ Hr). reflexivity.
Qed.
Lemma tokenize_more w w' p p' : more_entries w w' -> wp_tokenize w' p = Ok p' -> settled w (flat_map (fun x => map tk_value (sp_tokens x)) (pt_splits p')) -> wp_tokenize w p = Ok p'.
Proof.
  intros H E HS. unfold wp_tokenize in *. apply bind_ok in E as (l & E1 & E). injection E as <-. cbn [pt_splits] in HS.
  assert (K : mapM (fun s => ts <- wp_word w (sp_text s) ;; Ok (mkSplit (sp_text s) (sp_off s) ts)) (pt_splits p) = Ok l); [|rewrite K; reflexivity].
  revert l E1 HS. induction (pt_splits p) as [|x q IH]; intros l E1 HS; cbn [mapM] in *; [exact E1|].
  apply bind_ok in E1 as (y & Ey & E1). apply bind_ok in E1 as (r & Er & E1). injection E1 as <-. apply bind_ok in Ey as (ts & Et & Ey). injection Ey as <-. cbn [flat_map sp_tokens] in HS. unfold settled in HS. apply Forall_app in HS as [H1 H2].
  rewrite (word_more _ _ _ _ H Et H1). cbn [bind]. rewrite (IH _ Er H2). reflexivity.
Qed.

(** [t'] is [t] with more vocabulary entries. If no new entry and no unknown token comes out of a text, nothing has changed for it. *)
Theorem C124_more_entries : forall E fuel t w w' s r', tz_model t = Some (MWordPiece w) -> more_entries w w' -> let t' := set_model t (Some (MWordPiece w')) in
  snd (encode E fuel (bare t') s true) = Ok r' -> settled w (en_tokens r') ->
  forall add, snd (encode E fuel t' s add) = snd (encode E fuel t s add).
Proof.
  intros E fuel t w w' s r' Hm H t' HE HS add. rewrite encode_bare in HE. rewrite !encode_text.
  assert (K : text_encoding E t s = text_encoding E t' s); [|rewrite K; reflexivity].
  rewrite HE. unfold text_encoding in *. change (prepare E t' s) with (prepare E t s) in HE. destruct (prepare E t s) as [[av p]| | |]; try discriminate. cbn [bind] in *.
  unfold t' in HE. cbn [set_model tz_model] in HE. rewrite Hm. cbn [model_tokenize snd] in *. apply bind_ok in HE as (p' & E1 & HE). unfold into_encoding in HE. rewrite (rows_tokens _ _ _ _ _ HE) in HS.
  rewrite (tokenize_more _ _ _ _ H E1 HS). exact HE.
Qed.
Print Assumptions C124_more_entries.

(** *** Every piece of text the model is given comes from the text or from its normalization *)
Definition comes_from (E : env) (norm : option normalizer) (s : wstr) (b : bytes) : Prop :=
  exists y, forallb valid_cp y = true /\ b = utf8_encs y /\
  forall z, occurs z y -> ~ has_replacement z -> occurs z s \/ exists x n, stretch x s /\ run_norm E norm x = Ok n /\ occurs z (ns_text n).
Lemma stretch_trans x y z : stretch x y -> stretch y z -> stretch x z.
Proof. intros (p & q & ->) (p' & q' & ->). exists (p' ++ p), (q ++ q'). rewrite !app_assoc. reflexivity. Qed.
Lemma occurs_stretch z x y : occurs z x -> stretch x y -> occurs z y.
Proof. intros (a & H & ->) H2. exists a. split; [eapply stretch_trans; eassumption | reflexivity]. Qed.
Lemma encs_app x y : utf8_encs (x ++ y) = utf8_encs x ++ utf8_encs y.
Proof. unfold utf8_encs. apply flat_map_app. Qed.
Lemma no_fffd x : ~ has_replacement (utf8_encs x) -> ~ In 0xFFFD%N x.
Proof. intros H HI. apply H. apply in_split in HI as (p & q & ->). exists (utf8_encs p), (utf8_encs q). rewrite encs_app. reflexivity. Qed.
Definition edge (l : wstr) : Prop := l = [] \/ l = [0xFFFD%N].
Lemma stretch_lead pre x q : edge pre -> ~ In 0xFFFD%N x -> stretch x (pre ++ q) -> stretch x q.
Proof.
  intros [-> | ->] Hx (p & r & H); [exists p, r; exact H|]. cbn [app] in H. destruct p as [|c p].
  - destruct x as [|c x]; [exists [], q; reflexivity|]. cbn [app] in H. injection H as <- _. destruct Hx. left. reflexivity.
  - cbn [app] in H. injection H as _ ->. exists p, r. reflexivity.
Qed.
Lemma stretch_trail post x q : edge post -> ~ In 0xFFFD%N x -> stretch x (q ++ post) -> stretch x q.
Proof.
  intros [-> | ->] Hx (p & r & H); [rewrite app_nil_r in H; exists p, r; exact H|].
  destruct r as [|c0 r0]; [|destruct (exists_last (l := c0 :: r0)) as (r & c & Er); [discriminate|]; rewrite Er in H; rewrite !app_assoc in H; apply app_inj_tail in H as [-> _]; exists p, r; rewrite app_assoc; reflexivity].
  rewrite app_nil_r in H. destruct x as [|c0 x0]; [exists q, []; rewrite app_nil_r; reflexivity|]. destruct (exists_last (l := c0 :: x0)) as (x & c & Ex); [discriminate|]. rewrite Ex in *. rewrite app_assoc in H. apply app_inj_tail in H as [_ H]. subst c. destruct Hx. apply in_app_iff. right. left. reflexivity.
Qed.
Lemma units_of_trail l q : is_trail l = true -> to_utf8 (l :: q) = utf8_encs [0xFFFD%N] ++ to_utf8 q.
Proof. intros H. rewrite (to_utf8_trail _ _ H). reflexivity. Qed.
(** a slice of a text, as a text: whole characters, perhaps with half a character at either end *)
Lemma slice_text y a n : forallb valid_cp y = true -> exists pre q post, edge pre /\ edge post /\ stretch q y /\ forallb valid_cp q = true /\ to_utf8 (firstn n (skipn a (flat_map utf16_enc y))) = utf8_encs (pre ++ q ++ post).
Proof.
  intros V. set (u := flat_map utf16_enc y).
  assert (HF : forall z m, forallb valid_cp z = true -> exists q post, edge post /\ stretch q z /\ forallb valid_cp q = true /\ to_utf8 (firstn m (flat_map utf16_enc z)) = utf8_encs (q ++ post)).
  { intros z m Vz. destruct (Nat.le_gt_cases m (length (flat_map utf16_enc z))) as [Hm|Hm].
    - destruct (cut_units z m Vz Hm) as [(x & r & -> & E2)|(x & c & r & h & l & -> & E2 & L1 & L2 & E')]; rewrite forallb_app in Vz; apply andb_prop in Vz as [Vx _].
      + exists x, []. split; [left; reflexivity|]. split; [exists [], r; reflexivity|]. split; [exact Vx|]. rewrite flat_map_app, firstn_app, firstn_all2 by lia. replace (m - length (flat_map utf16_enc x)) with 0 by lia. cbn [firstn]. rewrite !app_nil_r. apply to_utf8_encs. exact Vx.
      + exists x, [0xFFFD%N]. split; [right; reflexivity|]. split; [exists [], (c :: r); reflexivity|]. split; [exact Vx|]. rewrite flat_map_app, firstn_app, firstn_all2 by lia. replace (m - length (flat_map utf16_enc x)) with 1 by lia. cbn [flat_map]. rewrite E2. cbn [app firstn]. rewrite (to_utf8_lead _ _ L1), encs_app, (to_utf8_encs _ Vx). reflexivity.
    - exists z, []. split; [left; reflexivity|]. split; [exists [], []; rewrite app_nil_r; reflexivity|]. split; [exact Vz|]. rewrite firstn_all2 by lia. rewrite app_nil_r. apply to_utf8_encs. exact Vz. }
  destruct (Nat.le_gt_cases a (length u)) as [Ha|Ha].
  - destruct (cut_units y a V Ha) as [(p & q & -> & E)|(p & c & q & h & l & -> & E & L1 & L2 & E')]; rewrite forallb_app in V; apply andb_prop in V as [Vp Vq].
    + assert (Eu : skipn a u = flat_map utf16_enc q) by (unfold u; rewrite flat_map_app, skipn_app, skipn_all2 by lia; rewrite <- E, Nat.sub_diag; reflexivity). rewrite Eu.
      destruct (HF q n Vq) as (x & post & H1 & H2 & H3 & H4). exists [], x, post. split; [left; reflexivity|]. split; [exact H1|]. split; [apply (stretch_trans _ _ _ H2); exists p, []; rewrite app_nil_r; reflexivity|]. split; [exact H3 | exact H4].
    + cbn [forallb] in Vq. apply andb_prop in Vq as [_ Vq].
      assert (Eu : skipn a u = l :: flat_map utf16_enc q). { unfold u. rewrite flat_map_app, skipn_app, skipn_all2 by lia. replace (a - length (flat_map utf16_enc p)) with 1 by lia. cbn [flat_map]. rewrite E. reflexivity. }
      rewrite Eu. destruct n as [|n]; [exists [], [], []; repeat split; try (left; reflexivity); exists p, (c :: q); reflexivity|]. cbn [firstn].
      destruct (HF q n Vq) as (x & post & H1 & H2 & H3 & H4). exists [0xFFFD%N], x, post. split; [right; reflexivity|]. split; [exact H1|]. split; [apply (stretch_trans _ _ _ H2); exists (p ++ [c]), []; rewrite app_nil_r, <- app_assoc; reflexivity|]. split; [exact H3|]. rewrite (units_of_trail _ _ L2), H4, (encs_app [_]). reflexivity.
  - rewrite skipn_all2 by lia. rewrite firstn_nil. exists [], [], []. split; [left; reflexivity|]. split; [left; reflexivity|]. split; [exists [], y; reflexivity|]. split; reflexivity.
Qed.
Lemma edge_valid l : edge l -> forallb valid_cp l = true.
Proof. intros [-> | ->]; reflexivity. Qed.
Lemma slice_comes E norm s b a n : comes_from E norm s b -> comes_from E norm s (to_utf8 (firstn n (skipn a (from_utf8 b)))).
Proof.
  intros (y & V & -> & H). rewrite (from_utf8_encs y V). destruct (slice_text y a n V) as (pre & q & post & E1 & E2 & Hq & Vq & ->). exists (pre ++ q ++ post). split; [|split; [reflexivity|]].
  - rewrite !forallb_app, Vq, (edge_valid _ E1), (edge_valid _ E2). reflexivity.
  - intros z (x & Hx & Ez) HR. apply H; [|exact HR]. subst z. pose proof (no_fffd x HR) as HN. exists x. split; [|reflexivity]. apply (stretch_lead _ _ _ E1 HN) in Hx. apply (stretch_trail _ _ _ E2 HN) in Hx. eapply stretch_trans; eassumption.
Qed.
Lemma own_comes E norm s b : forallb valid_cp b = true -> stretch b s -> comes_from E norm s (utf8_encs b).
Proof. intros V H. exists b. split; [exact V|]. split; [reflexivity|]. intros z Hz _. left. eapply occurs_stretch; eassumption. Qed.
Lemma normal_comes E norm s x n b : forallb valid_cp b = true -> stretch x s -> run_norm E norm x = Ok n -> stretch b (ns_text n) -> comes_from E norm s (utf8_encs b).
Proof. intros V Hx Hn H. exists b. split; [exact V|]. split; [reflexivity|]. intros z Hz _. right. exists x, n. split; [exact Hx|]. split; [exact Hn|]. eapply occurs_stretch; eassumption. Qed.

Definition all_come E norm s (l : list split) : Prop := Forall (fun x => comes_from E norm s (sp_text x)) l.
Lemma split_all_comes E norm s fn b l : forall l', all_come E norm s l -> split_all fn b l = Ok l' -> all_come E norm s l'.
Proof.
  induction l as [|x l IH]; intros l' HA H; cbn [split_all] in H; [injection H as <-; constructor|]. inversion HA as [|? ? H1 H2]; subst.
  apply bind_ok in H as (here & Hh & H). apply bind_ok in H as (rest & Hr & H). injection H as <-. apply Forall_app. split; [|apply IH; assumption].
  destruct (is_nil (sp_tokens x)); [|injection Hh as <-; constructor; [exact H1 | constructor]].
  unfold split_normalized in Hh. cbv zeta in Hh. apply bind_ok in Hh as (ms & _ & Hh). injection Hh as <-. apply Forall_map. apply Forall_forall. intros [[a z] f] _. cbn [fst sp_text]. apply slice_comes. exact H1.
Qed.
Lemma pre_comes E norm s : forall t, no_byte_level t -> forall p p', all_come E norm s (pt_splits p) -> pre_tokenize E t p = Ok p' -> all_come E norm s (pt_splits p').
Proof.
  fix IH 1. intros [|pat b inv|aps rx|l] Ht p p' HA H.
  - cbn [pre_tokenize] in H. unfold bert_pre_tokenize, pt_split in H. apply bind_ok in H as (p1 & H1 & H). apply bind_ok in H1 as (l1 & H1 & E1). injection E1 as <-.
    apply bind_ok in H as (l2 & H2 & E2). injection E2 as <-. cbn [pt_splits] in *. eapply split_all_comes; [|exact H2]. eapply split_all_comes; [exact HA | exact H1].
  - cbn [pre_tokenize] in H. unfold split_pre_tokenize, pt_split in H. apply bind_ok in H as (l1 & H1 & E1). injection E1 as <-. eapply split_all_comes; [exact HA | exact H1].
  - destruct Ht.
  - cbn [pre_tokenize] in H. cbn [no_byte_level] in Ht. revert p HA H. induction l as [|q r IHr]; intros p HA H; [injection H as <-; exact HA|].
    destruct Ht as [Hq Hr]. apply bind_ok in H as (p1 & H1 & H). exact (IHr Hr p1 (IH q Hq p p1 HA H1) H).
Qed.
Lemma substr_stretch t a b w : substr_range t a b = Ok w -> stretch w t.
Proof.
  unfold substr_range. destruct (a <=? length t); [|discriminate]. intros [= <-]. destruct (b <? a).
  - exists (firstn a t), []. rewrite app_nil_r, firstn_skipn. reflexivity.
  - exists (firstn a t), (skipn (b - a) (skipn a t)). rewrite (firstn_skipn (b - a)), firstn_skipn. reflexivity.
Qed.
Lemma norm_stretch text base segs : forall l, norm_splits text base segs = Ok l -> Forall (fun x => exists w, stretch w text /\ forallb valid_cp w = true /\ sp_text x = utf8_encs w) l.
Proof.
  induction segs as [|[o [a b]] segs IH]; intros l H; cbn [norm_splits] in H; [injection H as <-; constructor|].
  apply bind_ok in H as (w & Hw & H). apply bind_ok in H as (v & Hv & H). apply bind_ok in H as (rest & Hr & H). injection H as <-. constructor; [|apply IH; exact Hr]. cbn [sp_text].
  apply convert_to_string_ok in Hv as [V ->]. exists w. split; [eapply substr_stretch; exact Hw | auto].
Qed.
Lemma normalize_comes E norm s trie l : Forall (fun x => exists w, stretch w s /\ forallb valid_cp w = true /\ sp_text x = utf8_encs w) l ->
  forall ns m ending r, normalize_splits E norm trie ns m ending l = Ok r -> all_come E norm s (snd r).
Proof.
  induction 1 as [|x l (w & Hw & V & Ex) Hl IH]; intros ns m ending r H; cbn [normalize_splits] in H; [injection H as <-; constructor|].
  destruct (sp_tokens x).
  - rewrite Ex, (convert_roundtrip w V) in H. cbn [bind] in H. cbv zeta in H. apply bind_ok in H as (sub & Hs & H). apply bind_ok in H as (ns' & _ & H). apply bind_ok in H as (sen & _ & H). apply bind_ok in H as ([m' ms] & _ & H).
    apply bind_ok in H as (here & Hh & H). apply bind_ok in H as ([[ns2 m2] rest] & Hr & H). injection H as <-. cbn [snd]. apply Forall_app. split; [|exact (IH _ _ _ _ Hr)].
    apply norm_stretch in Hh. eapply Forall_impl; [|exact Hh]. intros y (w' & Hw' & V' & ->). eapply normal_comes; [exact V' | exact Hw | exact Hs | exact Hw'].
  - cbv zeta in H. apply bind_ok in H as ([[ns2 m2] rest] & Hr & H). injection H as <-. cbn [snd]. constructor; [|exact (IH _ _ _ _ Hr)]. cbn [sp_text]. rewrite Ex. apply own_comes; assumption.
Qed.
Lemma extract_comes E norm a s m p : extract_and_normalize E a norm s = Ok (m, p) -> all_come E norm s (pt_splits p).
Proof.
  unfold extract_and_normalize, new_pretok. rewrite fresh_numbered. set (N1 := numbered_ns (unit_sizes s) [] s). change (ns_text N1) with s. intros H. apply bind_ok in H as (p0 & H0 & H). apply bind_ok in H0 as (sen & Ec & H0). injection H0 as <-. cbn [pt_norm pt_splits] in H. change (ns_text N1) with s in H. rewrite Ec in H. cbn [bind] in H.
  apply convert_to_string_ok in Ec as [V ->]. apply bind_ok in H as ([m1 ms] & _ & H). apply bind_ok in H as (raw & Hr & H). cbv zeta in H. apply bind_ok in H as ([[ns m2] sp2] & H2 & H). injection H as <- <-. cbn [pt_splits].
  assert (HS : Forall (fun x => exists w, stretch w s /\ forallb valid_cp w = true /\ sp_text x = utf8_encs w) (match raw with [] => [mkSplit (utf8_encs s) (0, length s) []] | _ => raw end)).
  { apply raw_stretch in Hr. destruct raw; [|exact Hr]. constructor; [|constructor]. exists s. split; [exists [], []; rewrite app_nil_r; reflexivity | auto]. }
  pose proof (normalize_comes _ _ _ _ _ HS _ _ _ _ H2) as HN. cbn [snd] in HN. destruct sp2 as [|c r].
  - eapply Forall_impl; [|exact HS]. intros x (w & Hw & Vw & ->). apply own_comes; assumption.
  - exact HN.
Qed.

(** *** The lookups of WordPiece *)
Lemma to_utf8_nil u : to_utf8 u = [] -> u = [].
Proof.
  destruct u as [|x r]; [reflexivity|]. intros H. exfalso. unfold to_utf8 in H. cbn [utf16_cps] in H.
  assert (K : forall c l, utf8_of_cp c ++ l <> []). { intros c l. unfold utf8_of_cp, utf8_enc. destruct (is_surrogate c); repeat (destruct (_ <? _)%N); discriminate. }
  destruct (is_lead x); [destruct r as [|y r']; [|destruct (is_trail y)]|]; cbn [flat_map fst] in H; eapply K; exact H.
Qed.
Lemma comes_relevant E norm s b : comes_from E norm s b -> ~ absent E norm s b.
Proof.
  intros (y & _ & -> & H) (A1 & A2 & A3). destruct (H (utf8_encs y)) as [K|(x & n & K1 & K2 & K3)]; [exists y; split; [exists [], []; rewrite app_nil_r; reflexivity | reflexivity] | exact A3 | exact (A1 K) | exact (A2 x n K1 K2 K3)].
Qed.
Lemma option_eq_dec (x y : option Z) : x = y \/ x <> y.
Proof. destruct x as [i|], y as [j|]; [destruct (Z.eq_dec i j); [left | right]; congruence | right; discriminate | right; discriminate | left; reflexivity]. Qed.
Lemma lookup_same E norm s w w' b a k : irrelevant_entries E norm s w w' -> comes_from E norm s b -> a + k <= length (from_utf8 b) -> 0 < k ->
  wp_candidate w' (from_utf8 b) a k = wp_candidate w (from_utf8 b) a k /\ sfind (wp_candidate w (from_utf8 b) a k) (wp_vocab w') = sfind (wp_candidate w (from_utf8 b) a k) (wp_vocab w).
Proof.
  intros (_ & _ & HP & _ & H) HC Hk Hk0. unfold wp_candidate. rewrite HP. split; [reflexivity|]. set (x := to_utf8 (usub (from_utf8 b) a k)).
  assert (HX : comes_from E norm s x) by (apply slice_comes; exact HC).
  assert (Hne : x <> []). { intros E0. apply to_utf8_nil in E0. apply (f_equal (@length _)) in E0. unfold usub in E0. rewrite firstn_length, skipn_length in E0. cbn in E0. lia. }
  destruct (0 <? a).
  - destruct (option_eq_dec (sfind (wp_prefix w ++ x) (wp_vocab w')) (sfind (wp_prefix w ++ x) (wp_vocab w))) as [D|D]; [exact D|]. exfalso. apply H in D as [_ D]. exact (comes_relevant _ _ _ _ HX (D x Hne eq_refl)).
  - destruct (option_eq_dec (sfind x (wp_vocab w')) (sfind x (wp_vocab w))) as [D|D]; [exact D|]. exfalso. apply H in D as [D _]. exact (comes_relevant _ _ _ _ HX (D Hne)).
Qed.

Lemma longest_same E norm s w w' b a : irrelevant_entries E norm s w w' -> comes_from E norm s b -> forall k, a + k <= length (from_utf8 b) -> wp_longest w' (from_utf8 b) a k = wp_longest w (from_utf8 b) a k.
Proof.
  intros H HC. induction k as [|k IH]; intros Hk; [reflexivity|]. cbn [wp_longest]. destruct (lookup_same _ _ _ _ _ _ a (S k) H HC Hk) as [-> ->]; [lia|]. rewrite IH by lia. reflexivity.
Qed.
Lemma longest_range w u a : forall n i k, wp_longest w u a n = Some (i, k) -> 0 < k <= n.
Proof. induction n as [|n IH]; intros i k H; cbn [wp_longest] in H; [discriminate|]. destruct (sfind _ _); [injection H as _ <-; lia|]. apply IH in H. lia. Qed.
Lemma loop_same E norm s w w' b : irrelevant_entries E norm s w w' -> comes_from E norm s b -> forall fuel a, wp_loop fuel w' (from_utf8 b) a = wp_loop fuel w (from_utf8 b) a.
Proof.
  intros H HC. induction fuel as [|f IH]; intros a; [reflexivity|]. cbn [wp_loop]. destruct (Nat.ltb_spec a (length (from_utf8 b))) as [Ha|]; [|reflexivity].
  rewrite (longest_same _ _ _ _ _ _ a H HC) by lia. destruct (wp_longest w (from_utf8 b) a _) as [[i k]|] eqn:EL; [|reflexivity]. apply longest_range in EL. rewrite IH. destruct (lookup_same _ _ _ _ _ _ a k H HC) as [-> _]; [lia | lia | reflexivity].
Qed.
Lemma word_same E norm s w w' b : irrelevant_entries E norm s w w' -> comes_from E norm s b -> wp_word w' b = wp_word w b.
Proof.
  intros H HC. unfold wp_word. cbv zeta. rewrite (loop_same _ _ _ _ _ _ H HC). destruct H as (HU & HX & _ & HI & _). unfold wp_unk_token. rewrite HU, HX, HI. reflexivity.
Qed.

(** Two WordPiece vocabularies that differ only on entries that stand nowhere in the text give the same result, whatever it is. *)
Theorem C124_irrelevant_entries : forall E fuel t w w' s, tz_model t = Some (MWordPiece w) -> (forall p, tz_pre t = Some p -> no_byte_level p) ->
  irrelevant_entries E (tz_norm t) s w w' -> forall add, snd (encode E fuel (set_model t (Some (MWordPiece w'))) s add) = snd (encode E fuel t s add).
Proof.
  intros E fuel t w w' s Hm Hp H add. rewrite !encode_text. assert (K : text_encoding E (set_model t (Some (MWordPiece w'))) s = text_encoding E t s); [|rewrite K; reflexivity].
  unfold text_encoding. change (prepare E (set_model t (Some (MWordPiece w'))) s) with (prepare E t s). destruct (prepare E t s) as [[av p]| | |] eqn:EP; try reflexivity. cbn [bind set_model tz_model]. rewrite Hm. cbn [model_tokenize snd].
  assert (HA : all_come E (tz_norm t) s (pt_splits p)).
  { unfold prepare in EP. apply bind_ok in EP as (p0 & EP0 & EP). apply bind_ok in EP as ([av1 p1] & EX & EP). apply bind_ok in EP as (p3 & EPre & EP). injection EP as _ <-.
    assert (HX : all_come E (tz_norm t) s (pt_splits p1)).
    { destruct (tz_av t) as [a|]; [apply bind_ok in EX as ([m p2] & EX & E1); injection E1 as _ <-; apply extract_comes in EX; exact EX|]. injection EX as _ <-. unfold new_pretok in EP0. rewrite fresh_numbered in EP0. change (ns_text (numbered_ns (unit_sizes s) [] s)) with s in EP0. apply bind_ok in EP0 as (b & Hb & EP0). injection EP0 as <-. apply convert_to_string_ok in Hb as [V ->].
      constructor; [|constructor]. cbn [sp_text]. apply own_comes; [exact V | exists [], []; rewrite app_nil_r; reflexivity]. }
    destruct (tz_pre t) as [q|]; [|injection EPre as <-; exact HX]. eapply pre_comes; [apply Hp; reflexivity | exact HX | exact EPre]. }
  assert (K : wp_tokenize w' p = wp_tokenize w p); [|rewrite K; reflexivity].
  unfold wp_tokenize. assert (K : mapM (fun x => ts <- wp_word w' (sp_text x) ;; Ok (mkSplit (sp_text x) (sp_off x) ts)) (pt_splits p) = mapM (fun x => ts <- wp_word w (sp_text x) ;; Ok (mkSplit (sp_text x) (sp_off x) ts)) (pt_splits p)); [|rewrite K; reflexivity].
  induction HA as [|x l Hx Hl IH]; [reflexivity|]. cbn [mapM]. rewrite (word_same _ _ _ _ _ _ H Hx), IH. reflexivity.
Qed.
Print Assumptions C124_irrelevant_entries.

(** *** Witnesses *)
Definition grow_vocab : smap Z := [(str "[UNK]", 0); (str "a", 1); (str "##bc", 2)]%Z.
Definition grow_w (more : smap Z) : wordpiece := mkWp (grow_vocab ++ more) (str "[UNK]") 100 (str "##").
Definition grow_t (more : smap Z) : tokenizer := mkTz None None (Some (new_added_vocab [])) None (Some TBert) (Some (MWordPiece (grow_w more))) None None.
Example C124_case : more_entries (grow_w []) (grow_w [(str "abd", 3)]%Z) /\
  (exists r, snd (encode test_env 10 (bare (grow_t [(str "abd", 3)]%Z)) (str "a abc") true) = Ok r /\ settled (grow_w []) (en_tokens r) /\ en_tokens r = [str "a"; str "a"; str "##bc"]) /\
  irrelevant_entries test_env None (str "a abc xy") (grow_w []) (grow_w [(str "zebra", 3); (str "##za", 4)]%Z) /\
  (exists r, snd (encode test_env 10 (grow_t []) (str "a abc xy") true) = Ok r /\ en_ids r = [1; 1; 2; 0]%Z).
Proof.
  split; [|split; [|split]].
  - split; [reflexivity|]. split; [reflexivity|]. split; [reflexivity|]. intros x i H. cbn [grow_w wp_vocab grow_vocab app sfind find] in *. unfold sfind in *. cbn [find fst] in *.
    destruct (leqb x (str "[UNK]")); [exact H|]. destruct (leqb x (str "a")); [exact H|]. destruct (leqb x (str "##bc")); [exact H | discriminate].
  - eexists. split; [vm_compute; reflexivity|]. split; [|reflexivity]. repeat (apply Forall_cons; [split; [vm_compute; discriminate | eexists; vm_compute; reflexivity]|]). apply Forall_nil.
  - assert (N : forall c, (forall d, In d c -> d <> 0xEF%N) -> ~ has_replacement c). { intros c Hc (p & q & ->). apply (Hc 0xEF%N); [apply in_app_iff; right; left; reflexivity | reflexivity]. }
    split; [reflexivity|]. split; [reflexivity|]. split; [reflexivity|]. split; [reflexivity|].
    intros x Hx. assert (HX : x = str "zebra" \/ x = str "##za").
    { unfold differ_on, grow_w, sfind in Hx. cbn [wp_vocab grow_vocab app find fst] in Hx. destruct (leqb x (str "[UNK]")); [congruence|]. destruct (leqb x (str "a")); [congruence|]. destruct (leqb x (str "##bc")); [congruence|].
      destruct (leqb x (str "zebra")) eqn:E1; [left; apply leqb_eq; exact E1|]. destruct (leqb x (str "##za")) eqn:E2; [right; apply leqb_eq; exact E2 | congruence]. }
    destruct HX as [-> | ->]; split; intros.
    + apply absent_letter; [vm_compute; intuition discriminate | reflexivity | apply N; vm_compute; intuition (subst; discriminate)].
    + discriminate.
    + apply absent_letter; [vm_compute; intuition discriminate | reflexivity | apply N; vm_compute; intuition (subst; discriminate)].
    + cbn [wp_prefix grow_w str app] in H0. apply app_inv_head with (l := [35; 35]%N) in H0. subst z. apply absent_letter; [vm_compute; intuition discriminate | reflexivity | apply N; vm_compute; intuition (subst; discriminate)].
  - eexists. split; [vm_compute; reflexivity | reflexivity].
Qed.

(** More entries can make a word unknown: [abc] is [a, ##bc], but once [ab] is an entry the rest [##c] is not. *)
Theorem C124_unknown_refuted : more_entries (grow_w []) (grow_w [(str "ab", 3)]%Z) /\
  (exists r, snd (encode test_env 10 (grow_t []) (str "abc") true) = Ok r /\ en_tokens r = [str "a"; str "##bc"]) /\
  (exists r, snd (encode test_env 10 (grow_t [(str "ab", 3)]%Z) (str "abc") true) = Ok r /\ en_tokens r = [str "[UNK]"]).
Proof.
  split; [|split].
  - split; [reflexivity|]. split; [reflexivity|]. split; [reflexivity|]. intros x i H. cbn [grow_w wp_vocab grow_vocab app] in *. unfold sfind in *. cbn [find fst] in *.
    destruct (leqb x (str "[UNK]")); [exact H|]. destruct (leqb x (str "a")); [exact H|]. destruct (leqb x (str "##bc")); [exact H | discriminate].
  - eexists. split; [vm_compute; reflexivity | reflexivity].
  - eexists. split; [vm_compute; reflexivity | reflexivity].
Qed.
Print Assumptions C124_unknown_refuted.
