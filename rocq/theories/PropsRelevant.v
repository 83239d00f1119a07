(** C123: added tokens that do not occur in a text do not matter for it. *)
From Verif Require Import Base BaseFacts Unicode UnicodeProofs Common Utils PostProcessor Decoder Normalizer PreTokenizer WordPiece Bpe AddedVocab Tokenizer Spec
  NormSpec NormProofs PreSpec PreProofs AvSpec AvProofs ExtractProofs TzSpec TzProofs HistSpec HistProofs RuntimeProofs PropsAdded PropsEncode PropsHistory PropsLifetime RelevSpec Env.
From Coq Require Import ZifyBool.
Import ListNotations.

Lemma convert_to_string_ok w b : convert_to_string w = Ok b -> forallb valid_cp w = true /\ b = utf8_encs w.
Proof. unfold convert_to_string. destruct (forallb valid_cp w); [intros [= <-]; auto | discriminate]. Qed.
Lemma convert_roundtrip w : forallb valid_cp w = true -> convert_from_string (utf8_encs w) = Ok w.
Proof. intros H. apply convert_from_string_iff. auto. Qed.
(** *** Stretches of units and stretches of characters *)
Lemma cut_units : forall y a, forallb valid_cp y = true -> a <= length (flat_map utf16_enc y) ->
  (exists p q, y = p ++ q /\ length (flat_map utf16_enc p) = a) \/
  (exists p c q h l, y = p ++ c :: q /\ utf16_enc c = [h; l] /\ is_lead h = true /\ is_trail l = true /\ length (flat_map utf16_enc p) + 1 = a).
Proof.
  induction y as [|c y IH]; intros a V H; cbn [flat_map] in H.
  - left. exists [], []. cbn in H. split; [reflexivity | cbn; lia].
  - apply andb_prop in V as [Vc V]. destruct a as [|a]; [left; exists [], (c :: y); auto|]. rewrite app_length in H.
    assert (HC : (exists x, utf16_enc c = [x]) \/ exists h l, utf16_enc c = [h; l] /\ is_lead h = true /\ is_trail l = true).
    { unfold utf16_enc. destruct (N.ltb_spec c 0x10000); [left; eauto | right]. eexists. eexists. split; [reflexivity|]. unfold valid_cp, is_surrogate, is_lead, is_trail in *. split; lia. }
    destruct HC as [(x & Ex)|(h & l & Ex & L1 & L2)]; rewrite Ex in H; cbn [length] in H.
    + destruct (IH a V) as [(p & q & -> & E)|(p & d & q & h & l & -> & E & L1 & L2 & E')]; [lia | left; exists (c :: p), q; cbn [flat_map app]; rewrite Ex; cbn; split; [reflexivity | lia]|].
      right. exists (c :: p), d, q, h, l. cbn [flat_map app]. rewrite Ex. cbn [app length]. repeat split; try assumption. lia.
    + destruct a as [|a]; [right; exists [], c, y, h, l; repeat split; assumption|].
      destruct (IH a V) as [(p & q & -> & E)|(p & d & q & h' & l' & -> & E & L1' & L2' & E')]; [lia | left; exists (c :: p), q; cbn [flat_map app]; rewrite Ex; cbn; split; [reflexivity | lia]|].
      right. exists (c :: p), d, q, h', l'. cbn [flat_map app]. rewrite Ex. cbn [app length]. repeat split; try assumption. lia.
Qed.
Lemma to_utf8_trail l r : is_trail l = true -> to_utf8 (l :: r) = [0xEF; 0xBF; 0xBD]%N ++ to_utf8 r.
Proof.
  intros H. unfold to_utf8. cbn [utf16_cps]. replace (is_lead l) with false by (unfold is_lead, is_trail in *; lia). cbn [flat_map fst]. f_equal. unfold utf8_of_cp. replace (is_surrogate l) with true by (unfold is_surrogate, is_trail in *; lia). reflexivity.
Qed.
Lemma to_utf8_lead z h : is_lead h = true -> to_utf8 (z ++ [h]) = to_utf8 z ++ [0xEF; 0xBF; 0xBD]%N.
Proof.
  intros H. rewrite to_utf8_app.
  - f_equal. unfold to_utf8. cbn [utf16_cps]. rewrite H. cbn [flat_map fst]. unfold utf8_of_cp. replace (is_surrogate h) with true by (unfold is_surrogate, is_lead in *; lia). reflexivity.
  - destruct (rev z); [trivial|]. replace (is_trail h) with false by (unfold is_lead, is_trail in *; lia). apply andb_false_r.
Qed.
Lemma slice_stretch y a b : forallb valid_cp y = true -> a <= b -> b <= length (flat_map utf16_enc y) -> ~ has_replacement (to_utf8 (slice (flat_map utf16_enc y) a b)) -> occurs (to_utf8 (slice (flat_map utf16_enc y) a b)) y.
Proof.
  intros V Hab Hb HR. unfold slice in *. set (u := flat_map utf16_enc y) in *.
  destruct (cut_units y a V) as [(p & q & -> & E)|(p & c & q & h & l & -> & E & L1 & L2 & E')]; [fold u; lia| |].
  - assert (Eu : skipn a u = flat_map utf16_enc q) by (unfold u; rewrite flat_map_app, skipn_app, skipn_all2 by lia; rewrite <- E, Nat.sub_diag; reflexivity).
    rewrite Eu in *. rewrite forallb_app in V. apply andb_prop in V as [Vp Vq].
    assert (HL : b - a <= length (flat_map utf16_enc q)). { rewrite <- Eu, skipn_length. lia. }
    destruct (cut_units q (b - a) Vq HL) as [(x & r & -> & E2)|(x & c & r & h & l & -> & E2 & L1 & L2 & E')].
    + exists x. split; [exists p, r; reflexivity|]. rewrite forallb_app in Vq. apply andb_prop in Vq as [Vx _]. rewrite flat_map_app, firstn_app, firstn_all2 by lia. replace (b - a - length (flat_map utf16_enc x)) with 0 by lia. cbn [firstn]. rewrite app_nil_r. apply to_utf8_encs. exact Vx.
    + exfalso. apply HR. rewrite flat_map_app, firstn_app, firstn_all2 by lia. replace (b - a - length (flat_map utf16_enc x)) with 1 by lia. cbn [flat_map]. rewrite E2. cbn [app firstn]. rewrite (to_utf8_lead _ _ L1). exists (to_utf8 (flat_map utf16_enc x)), []. rewrite app_nil_r. reflexivity.
  - assert (Eu : skipn a u = l :: flat_map utf16_enc q). { unfold u. rewrite flat_map_app, skipn_app, skipn_all2 by lia. replace (a - length (flat_map utf16_enc p)) with 1 by lia. cbn [flat_map]. rewrite E. reflexivity. }
    rewrite Eu in *. destruct (b - a) as [|n] eqn:En.
    + exists []. split; [exists p, (c :: q); reflexivity | reflexivity].
    + exfalso. apply HR. cbn [firstn]. rewrite (to_utf8_trail _ _ L2). exists [], (to_utf8 (firstn n (flat_map utf16_enc q))). reflexivity.
Qed.

(** *** Two added vocabularies that agree on a text *)
Definition same_on (u : ustr) (t t' : list (bytes * Z)) (m m' : zmap added_token) : Prop :=
  forall a b, a <= b -> b <= length u -> let x := to_utf8 (slice u a b) in sfind x (word_ids t) = sfind x (word_ids t') /\ forall k, sfind x (word_ids t) = Some k -> three (look m k) = three (look m' k).
Lemma raw_same u t t' m m' : same_on u t t' m m' -> forall todo i cur, i + todo = length u -> cur <= i ->
  raw_matches (word_ids t) u todo i cur = raw_matches (word_ids t') u todo i cur /\ agree (map snd (raw_matches (word_ids t) u todo i cur)) m m'.
Proof.
  intros H. induction todo as [|n IH]; intros i cur Hi Hc; cbn [raw_matches].
  - destruct (Nat.eqb_spec i cur); [split; [reflexivity | intros k []]|]. rewrite usub_slice. destruct (H cur i) as [H1 H2]; [lia | lia|]. cbv zeta in H1, H2. rewrite <- H1. split; [reflexivity|].
    destruct (sfind _ (word_ids t)) as [k|]; [|intros k []]. intros j [<-|[]]. apply H2. reflexivity.
  - rewrite usub_slice. destruct (H cur i) as [H1 H2]; [lia | lia|]. cbv zeta in H1, H2. rewrite <- H1. cbv zeta. destruct (sfind _ (word_ids t)) as [k|].
    + destruct (IH (S i) (if (nth i u 0 =? 32)%N then S i else i)) as [I1 I2]; [lia | destruct (_ =? _)%N; lia|]. rewrite I1. split; [reflexivity|]. cbn [map]. intros j [<-|Hj]; [apply H2; reflexivity|]. apply I2. rewrite I1. exact Hj.
    + apply IH; [lia | destruct (_ =? _)%N; lia].
Qed.
Lemma find_same m m' sen t t' : same_on (from_utf8 sen) t t' m m' -> without_map (av_find_matches m sen t) = without_map (av_find_matches m' sen t').
Proof. intros H. unfold av_find_matches. destruct (raw_same _ _ _ _ _ H (length (from_utf8 sen)) 0 0) as [H1 H2]; [lia | lia|]. cbv zeta. rewrite <- H1. apply resolve_agree. exact H2. Qed.
Lemma same_grow u t t' m m' n n' i1 i2 : same_on u t t' m m' -> grow i1 m n -> grow i2 m' n' -> same_on u t t' n n'.
Proof. intros H G G' a b Ha Hb. destruct (H a b Ha Hb) as [H1 H2]. split; [exact H1|]. intros k Hk. rewrite (gr_look _ _ _ G), (gr_look _ _ _ G'). apply H2. exact Hk. Qed.

Lemma normalize_same E norm t t' l : forall ns m m' ending,
  (forall s w sub, In s l -> sp_tokens s = [] -> convert_from_string (sp_text s) = Ok w -> run_norm E norm w = Ok sub -> forallb valid_cp (ns_text sub) = true -> same_on (flat_map utf16_enc (ns_text sub)) t t' m m') ->
  ('(ns', _, r) <- normalize_splits E norm t ns m ending l ;; Ok (ns', r)) = ('(ns', _, r) <- normalize_splits E norm t' ns m' ending l ;; Ok (ns', r)).
Proof.
  induction l as [|s l IH]; intros ns m m' ending H; [reflexivity|]. cbn [normalize_splits]. destruct (sp_tokens s) eqn:Es.
  - destruct (convert_from_string (sp_text s)) as [w| | |] eqn:Ew; cbn [bind]; try reflexivity. cbv zeta.
    destruct (match norm with Some f => normalize E f (new_nstring w) | None => Ok (new_nstring w) end) as [sub| | |] eqn:En; cbn [bind]; try reflexivity.
    destruct (transform_range ns _ sub) as [ns'| | |]; cbn [bind]; try reflexivity. destruct (convert_to_string (ns_text sub)) as [sen| | |] eqn:Ec; cbn [bind]; try reflexivity.
    apply convert_to_string_ok in Ec as [V ->].
    pose proof (find_same m m' (utf8_encs (ns_text sub)) t t') as HF. rewrite from_utf8_encs in HF by exact V. specialize (HF (H s w sub (or_introl eq_refl) Es Ew En V)). unfold without_map in HF.
    destruct (av_find_matches m _ t) as [[m1 ms]| | |] eqn:E1, (av_find_matches m' _ t') as [[m2 ms']| | |] eqn:E2; cbn [bind] in *; try congruence.
    injection HF as <-. destruct (norm_splits (ns_text sub) ending ms) as [here| | |]; cbn [bind]; try reflexivity.
    specialize (IH ns' m1 m2 (ending + length (ns_text sub))).
    assert (IH' := IH (fun s' w' sub' Hs' A B C D => same_grow _ _ _ _ _ _ _ _ _ (H s' w' sub' (or_intror Hs') A B C D) (find_grow _ _ _ _ _ E1) (find_grow _ _ _ _ _ E2))). clear IH.
    destruct (normalize_splits E norm t ns' m1 _ l) as [[[? ?] ?]| | |], (normalize_splits E norm t' ns' m2 _ l) as [[[? ?] ?]| | |]; cbn [bind] in *; congruence.
  - cbv zeta. specialize (IH ns m m' (ending + length (sp_text s)) (fun s' w' sub' Hs' A B C D => H s' w' sub' (or_intror Hs') A B C D)).
    destruct (normalize_splits E norm t ns m _ l) as [[[? ?] ?]| | |], (normalize_splits E norm t' ns m' _ l) as [[[? ?] ?]| | |]; cbn [bind] in *; congruence.
Qed.
Lemma raw_stretch s segs : forall l, raw_splits s segs = Ok l -> Forall (fun x => exists w, stretch w s /\ forallb valid_cp w = true /\ sp_text x = utf8_encs w) l.
Proof.
  induction segs as [|[o [a b]] segs IH]; intros l H; cbn [raw_splits] in H; [injection H as <-; constructor|].
  apply bind_ok in H as (w & Hw & H). apply bind_ok in H as (v & Hv & H). apply bind_ok in H as (rest & Hr & H). injection H as <-. constructor; [|apply IH; exact Hr]. cbn [sp_text].
  apply convert_to_string_ok in Hv as [V ->]. exists w. split; [|split; [exact V | reflexivity]]. unfold substr_range in Hw. destruct (a <=? length s); [|discriminate]. injection Hw as <-. destruct (b <? a).
  - exists (firstn a s), []. rewrite app_nil_r, firstn_skipn. reflexivity.
  - exists (firstn a s), (skipn (b - a) (skipn a s)). rewrite (firstn_skipn (b - a)), firstn_skipn. reflexivity.
Qed.
Lemma extract_same E norm a a' s :
  (forallb valid_cp s = true -> same_on (flat_map utf16_enc s) (av_trie_raw a) (av_trie_raw a') (av_map_r a) (av_map_r a')) ->
  (forall x y, stretch x s -> run_norm E norm x = Ok y -> forallb valid_cp (ns_text y) = true -> same_on (flat_map utf16_enc (ns_text y)) (av_trie_norm a) (av_trie_norm a') (av_map_r a) (av_map_r a')) ->
  without_map (extract_and_normalize E a norm s) = without_map (extract_and_normalize E a' norm s).
Proof.
  intros Hr Hn. unfold extract_and_normalize, new_pretok. rewrite fresh_numbered. set (N1 := numbered_ns (unit_sizes s) [] s). change (ns_text N1) with s. destruct (convert_to_string s) as [sen| | |] eqn:Ec; cbn [bind]; try reflexivity. cbn [pt_norm pt_splits]. change (ns_text N1) with s. rewrite Ec. cbn [bind].
  apply convert_to_string_ok in Ec as [V ->].
  pose proof (find_same (av_map_r a) (av_map_r a') (utf8_encs s) (av_trie_raw a) (av_trie_raw a')) as HF. rewrite from_utf8_encs in HF by exact V. specialize (HF (Hr V)). unfold without_map in HF.
  destruct (av_find_matches (av_map_r a) _ (av_trie_raw a)) as [[m1 ms]| | |] eqn:E1, (av_find_matches (av_map_r a') _ (av_trie_raw a')) as [[m2 ms']| | |] eqn:E2; cbn [bind without_map] in *; try congruence.
  injection HF as <-. destruct (raw_splits s ms) as [raw| | |] eqn:Er; cbn [bind]; try reflexivity. cbv zeta. match goal with |- context [normalize_splits E norm (av_trie_norm a) ?N m1 0 ?L] => set (N0 := N) in *; set (splits1 := L) in * end.
  assert (HS : Forall (fun x => exists w, stretch w s /\ forallb valid_cp w = true /\ sp_text x = utf8_encs w) splits1).
  { apply raw_stretch in Er. unfold splits1. destruct raw; [|exact Er]. constructor; [|constructor]. exists s. split; [exists [], []; rewrite app_nil_r; reflexivity | auto]. }
  assert (HN' : ('(ns', _, r) <- normalize_splits E norm (av_trie_norm a) N0 m1 0 splits1 ;; Ok (ns', r)) = ('(ns', _, r) <- normalize_splits E norm (av_trie_norm a') N0 m2 0 splits1 ;; Ok (ns', r))).
  { apply normalize_same. intros x w sub Hx A B C D. eapply same_grow; [apply (Hn w sub); [|exact C | exact D] | exact (find_grow _ _ _ _ _ E1) | exact (find_grow _ _ _ _ _ E2)].
    destruct (proj1 (Forall_forall _ _) HS x Hx) as (w' & P & Q & R). rewrite R, convert_roundtrip in B by exact Q. injection B as <-. exact P. }
  unfold without_map. destruct (normalize_splits E norm (av_trie_norm a) N0 m1 0 splits1) as [[[? ?] ?]| | |], (normalize_splits E norm (av_trie_norm a') N0 m2 0 splits1) as [[[? ?] ?]| | |]; cbn [bind] in *; try congruence. injection HN' as -> ->. reflexivity.
Qed.
Lemma encode_same E fuel t a a' s add : tz_av t = Some a ->
  (forallb valid_cp s = true -> same_on (flat_map utf16_enc s) (av_trie_raw a) (av_trie_raw a') (av_map_r a) (av_map_r a')) ->
  (forall x y, stretch x s -> run_norm E (tz_norm t) x = Ok y -> forallb valid_cp (ns_text y) = true -> same_on (flat_map utf16_enc (ns_text y)) (av_trie_norm a) (av_trie_norm a') (av_map_r a) (av_map_r a')) ->
  snd (encode E fuel (set_av t (Some a')) s add) = snd (encode E fuel t s add).
Proof.
  intros Ha H1 H2. rewrite !encode_text. unfold text_encoding, prepare. cbn [set_av tz_av tz_norm tz_pre tz_model]. rewrite Ha.
  pose proof (extract_same E (tz_norm t) a a' s H1 H2) as HE. unfold without_map in HE.
  destruct (new_pretok (new_nstring s)) as [p0| | |]; cbn [bind]; try reflexivity.
  destruct (extract_and_normalize E a (tz_norm t) s) as [[m p]| | |], (extract_and_normalize E a' (tz_norm t) s) as [[m' p']| | |]; cbn [bind] in *; try congruence.
  injection HE as <-. destruct (match tz_pre t with Some pt => pre_tokenize E pt p | None => Ok p end); reflexivity.
Qed.

(** *** Additions *)
Lemma assign_elsewhere v l : dense v -> v <> [] -> forall a a', ids_ok v a -> assign_ids false a (Some v) l = Ok a' ->
  forall x k, sfind x v = Some k -> x = [] \/ ~ In x (map at_content l) -> zfind k (av_map_r a') = zfind k (av_map_r a).
Proof.
  intros Hd Hne. induction l as [|t l IH]; intros a a' HI H x k Hx Hn; cbn [assign_ids] in H; [injection H as <-; reflexivity|]. cbn [map In] in Hn.
  destruct (is_nil (at_content t)) eqn:En; [eapply IH; try eassumption; tauto|].
  apply is_nil_false in En. destruct (choose_id_ok v a (at_content t) Hd Hne HI) as (i & Hi & C1 & C2 & C3). rewrite Hi in H. cbn [bind] in H. cbv zeta in H.
  assert (HS : forall added, ids_ok v (mkAv added (av_specials a) (av_special_set a) (sset (at_content t) i (av_map a)) (zset i t (av_map_r a)) (av_trie_norm a) (av_trie_raw a))) by (intros added; eapply (step_ok v a _ t i); eauto).
  assert (Hk : k <> i). { intros ->. destruct (sfind (at_content t) v) as [j|] eqn:Ej; [subst j; assert (at_content t = x) by (eapply dense_inj; eassumption); destruct Hn as [Hn|Hn]; [congruence | apply Hn; left; assumption] | pose proof (dense_range _ _ _ Hd Hx); lia]. }
  destruct (smem (at_content t) (av_special_set a)); (rewrite (IH _ _ (HS _) H x k Hx) by tauto; cbn [av_map_r]; rewrite zfind_zset; destruct (Z.eqb_spec k i); [congruence | reflexivity]).
Qed.
Lemma word_ids_known v trie x : (forall t i, In (t, i) trie -> sfind t v = Some i) -> forall k, sfind x (word_ids trie) = Some k <-> In (x, k) trie.
Proof.
  intros H k. split; [apply word_ids_in|]. intros Hk. destruct (word_ids_some _ _ _ Hk) as (k' & E). pose proof (word_ids_in _ _ _ E) as E'. apply H in Hk. apply H in E'. congruence.
Qed.
Lemma same_lookup {A} (x y : option A) : (forall k, x = Some k <-> y = Some k) -> x = y.
Proof. intros H. destruct x as [a|]; [symmetry; apply H; reflexivity|]. destruct y as [b|]; [|reflexivity]. apply H. reflexivity. Qed.

Theorem C123_irrelevant_tokens : forall E fuel t m ops av l t' n s, tz_av t = Some av -> tz_model t = Some m -> dense (model_vocab m) -> model_vocab m <> [] -> history (model_vocab m) ops av ->
  Forall (fun tok => at_content tok <> [] -> absent E (tz_norm t) s (at_content tok)) l -> add_tokens false t l = Ok (t', n) ->
  forall add, snd (encode E fuel t' s add) = snd (encode E fuel t s add).
Proof.
  intros E fuel t m ops av l t' n s Hav Hm Hd Hne Hh Hl H add. set (v := model_vocab m) in *. pose proof (history_ok _ _ _ Hd Hne Hh) as HO.
  unfold add_tokens in H. rewrite Hav, Hm in H. cbn [option_map] in H. apply bind_ok in H as ([av' n'] & H & E1). injection E1 as <- <-. fold v in H.
  destruct (add_tokens_ok v av l false Hd Hne (ho_ids _ _ _ HO)) as (av'' & HA & _); [discriminate|]. rewrite HA in H. injection H as <- _. rename av'' into av'.
  pose proof (history_ok _ _ _ Hd Hne (h_add _ _ _ _ _ _ Hh HA)) as HO'.
  unfold av_add_tokens in HA. cbv zeta in HA. apply bind_ok in HA as (a2 & H2 & HA). apply bind_ok in HA as (a3 & H3 & HA). injection HA as <-.
  pose proof (register_ok l av) as HR. cbv zeta in HR. set (a1 := fold_left register_special l av) in *. destruct HR as (R1 & R2 & R3 & _ & _ & _ & R7 & _ & R9).
  assert (HI : ids_ok v a1) by (eapply ids_ok_ext; [exact R2 | exact R3 | exact (ho_ids _ _ _ HO)]).
  destruct (assign_ids_ok v Hd Hne l a1 false HI) as (a2' & HA & _ & _ & _ & S5 & _ & S7); [discriminate|]. rewrite HA in H2. injection H2 as <-. rename a2' into a2.
  cbn [refresh_added_tokens] in H3. injection H3 as <-.
  assert (HK : forall x b k, x = [] \/ ~ In x (map at_content l) -> In (x, k) (known_tokens v b (av_specials a2 ++ av_added a2)) <-> In (x, k) (known_tokens v b (av_specials av ++ av_added av))).
  { intros x b k Hx. rewrite !known_in. apply and_iff_compat_l. rewrite S5, S7, R1. split; intros (tok & Hi & Hc & Hb); exists tok; (split; [|auto]).
    - apply in_app_iff in Hi as [Hi|Hi]; [destruct (R7 _ Hi) as [Hi'|(Hi' & _ & Hz)]; [apply in_app_iff; auto|]|].
      + exfalso. destruct Hx as [Hx|Hx]; [congruence|]. apply Hx. apply in_map_iff. eauto.
      + apply in_app_iff in Hi as [Hi|Hi]; [apply in_app_iff; auto|]. apply filter_In in Hi as [Hi Hf]. exfalso. apply andb_prop in Hf as [Hf _]. apply negb_true_iff, is_nil_false in Hf.
        destruct Hx as [Hx|Hx]; [congruence|]. apply Hx. apply in_map_iff. eauto.
    - apply in_app_iff in Hi as [Hi|Hi]; apply in_app_iff; [left; apply R9; exact Hi | right; apply in_app_iff; left; exact Hi]. }
  assert (HM : forall x k, sfind x v = Some k -> x = [] \/ ~ In x (map at_content l) -> look (av_map_r av) k = look (av_map_r a2) k).
  { intros x k Hk Hx. unfold look. rewrite (assign_elsewhere v l Hd Hne a1 a2 HI HA x k Hk Hx), R3. reflexivity. }
  assert (HS : forall b u, (forall x, x <> [] -> In x (map at_content l) -> forall i j, i <= j -> j <= length u -> x <> to_utf8 (slice u i j)) ->
    same_on u (known_tokens v b (av_specials av ++ av_added av)) (known_tokens v b (av_specials a2 ++ av_added a2)) (av_map_r av) (av_map_r a2)).
  { intros b u Hu i j Hi Hj. cbv zeta. set (x := to_utf8 (slice u i j)).
    assert (Hx : x = [] \/ ~ In x (map at_content l)). { destruct x as [|c r] eqn:Ex; [left; reflexivity|]. right. intros HIn. apply (Hu (c :: r) ltac:(discriminate) HIn i j Hi Hj). rewrite <- Ex. reflexivity. }
    assert (W : forall l' t0 k, In (t0, k) (known_tokens v b l') -> sfind t0 v = Some k) by (intros l' t0 k HIn; apply known_in in HIn as [HIn _]; exact HIn).
    split.
    - apply same_lookup. intros k. rewrite !(word_ids_known v) by apply W. symmetry. apply HK. exact Hx.
    - intros k Hk. f_equal. apply (HM x); [|exact Hx]. apply (word_ids_known v) in Hk; [|apply W]. exact (W _ _ _ Hk). }
  apply encode_same with (a := av); [exact Hav | |]; cbn [av_trie_raw av_trie_norm av_map_r].
  - intros V. rewrite (ho_raw _ _ _ HO). apply HS. intros x Hx Hi i j Hij Hj E1. apply in_map_iff in Hi as (tok & <- & Hi).
    destruct (proj1 (Forall_forall _ _) Hl tok Hi Hx) as (A1 & _ & A3). apply A1. rewrite E1 in A3 |- *. apply slice_stretch; assumption.
  - intros x y Hxs Hy V. rewrite (ho_norm _ _ _ HO). apply HS. intros z Hz Hi i j Hij Hj E1. apply in_map_iff in Hi as (tok & <- & Hi).
    destruct (proj1 (Forall_forall _ _) Hl tok Hi Hz) as (_ & A2 & A3). apply (A2 x y Hxs Hy). rewrite E1 in A3 |- *. apply slice_stretch; assumption.
Qed.
Print Assumptions C123_irrelevant_tokens.

Lemma adds_absent E fuel t0 m0 s add : dense (model_vocab m0) -> model_vocab m0 <> [] -> forall k ops t, living E t0 m0 ops t -> Forall (fun c => adds c = true) k ->
  Forall (fun tok => at_content tok <> [] -> absent E (tz_norm t0) s (at_content tok)) (given k) -> snd (encode E fuel (after E fuel t k) s add) = snd (encode E fuel t s add).
Proof.
  intros Hd Hne. induction k as [|c k IH]; intros ops t HL HA Hg; [reflexivity|].
  change (given (c :: k)) with (match c with CallAddTokens l | CallAddSpecialTokens l => l | _ => [] end ++ given k) in Hg. apply Forall_app in Hg as [G1 G2]. inversion HA as [|? ? HA1 HA2]; subst.
  unfold after. cbn [fold_left]. change (fold_left _ k ?z) with (after E fuel z k). pose proof (living_call E fuel t0 m0 ops t c Hd Hne HL) as HL'. rewrite (IH _ _ HL' HA2 G2).
  destruct (li_model _ _ _ _ _ HL) as (m & Hm & Hs). destruct (li_av _ _ _ _ _ HL) as (av & Hav & Hh). pose proof (same_model_vocab _ _ _ Hs) as Ev.
  assert (En : tz_norm t = tz_norm t0) by apply (li_setup _ _ _ _ _ HL).
  assert (K : forall toks, Forall (fun tok => at_content tok <> [] -> absent E (tz_norm t0) s (at_content tok)) toks -> exists t' n, add_tokens false t toks = Ok (t', n) /\ snd (encode E fuel t' s add) = snd (encode E fuel t s add)).
  { intros toks G. destruct (living_add E t0 m0 ops t toks Hd Hne HL) as (t' & n & Ha & _). exists t', n. split; [exact Ha|].
    eapply C123_irrelevant_tokens; [exact Hav | exact Hm | rewrite Ev; exact Hd | rewrite Ev; exact Hne | rewrite Ev; exact Hh | rewrite En; exact G | exact Ha]. }
  destruct c as [|?|toks|toks]; try discriminate; cbn [do_call]; unfold add_special_tokens; destruct (K toks G1) as (t' & n & -> & HK); exact HK.
Qed.

(** Whatever calls were made: as long as none of the tokens they added occurs in the text, its encoding is what it was in the beginning. *)
Theorem C123_lifetime : forall E fuel t0 m0 l t, dense (model_vocab m0) -> model_vocab m0 <> [] ->
  tz_av t0 = Some (new_added_vocab l) -> tz_model t0 = Some m0 -> (forall b c, m0 = MBpe b c -> c = []) -> finish_construction t0 = Ok t ->
  forall h s, Forall (fun tok => at_content tok <> [] -> absent E (tz_norm t0) s (at_content tok)) (given h) ->
  forall add, snd (encode E fuel (after E fuel t h) s add) = snd (encode E fuel t s add).
Proof.
  intros E fuel t0 m0 l t Hd Hne Ha Hm Hc HF h s Hg add.
  assert (Hcon : constructed t).
  { exists t0. split; [intros a Ha'; rewrite Ha in Ha'; injection Ha' as <-; eauto|]. split; [|exact HF]. intros b c Hb. rewrite Hm in Hb. injection Hb as ->. eapply Hc. reflexivity. }
  pose proof (living_start E t0 m0 l t Hd Ha Hm Hc HF) as HL.
  assert (HN : NoDup (map snd (tz_vocab t))). { unfold tz_vocab. destruct (li_model _ _ _ _ _ HL) as (m & -> & Hs). rewrite (same_model_vocab _ _ _ Hs). apply Hd. }
  pose proof (C67_history_independent E fuel t h (CallEncode s add) Hcon (or_introl HN)) as HI. unfold reply in HI. cbn [do_call] in HI.
  destruct (encode E fuel (after E fuel t h) s add) as [u1 r1]. destruct (encode E fuel (after E fuel t (filter adds h)) s add) as [u2 r2] eqn:E2. cbn [snd] in HI |- *. injection HI as ->.
  change r2 with (snd (u2, r2)). rewrite <- E2. clear u1 u2 r2 E2.
  assert (Hg' : Forall (fun tok => at_content tok <> [] -> absent E (tz_norm t0) s (at_content tok)) (given (filter adds h))).
  { apply Forall_forall. intros tok Hi. apply (proj1 (Forall_forall _ _) Hg tok). unfold given in *. apply in_flat_map in Hi as (c & Hi & Hk). apply in_flat_map. exists c. split; [apply filter_In in Hi; apply Hi | exact Hk]. }
  apply (adds_absent E fuel t0 m0 s add Hd Hne _ l t HL); [apply Forall_forall; intros c Hi; apply filter_In in Hi; apply Hi | exact Hg'].
Qed.
Print Assumptions C123_lifetime.

(** If no added token at all occurs in the text, it is encoded as by the tokenizer with none. *)
Theorem C123_no_added_tokens : forall E fuel t m ops av s, tz_av t = Some av -> tz_model t = Some m -> dense (model_vocab m) -> model_vocab m <> [] -> history (model_vocab m) ops av ->
  Forall (fun tok => absent E (tz_norm t) s (at_content tok)) ops ->
  forall add, snd (encode E fuel t s add) = snd (encode E fuel (set_av t (Some (new_added_vocab []))) s add).
Proof.
  intros E fuel t m ops av s Hav Hm Hd Hne Hh Hl add. pose proof (history_ok _ _ _ Hd Hne Hh) as HO. symmetry.
  assert (HS : forall trie u, (forall x i, In (x, i) trie -> exists tok, In tok ops /\ at_content tok = x) ->
    (forall tok, In tok ops -> forall i j, i <= j -> j <= length u -> at_content tok <> to_utf8 (slice u i j)) -> same_on u trie [] (av_map_r av) []).
  { intros trie u Ht Hu i j Hi Hj. cbv zeta. set (x := to_utf8 (slice u i j)).
    assert (EN : sfind x (word_ids trie) = None). { destruct (sfind x (word_ids trie)) as [k|] eqn:Ek; [|reflexivity]. apply word_ids_in in Ek. destruct (Ht _ _ Ek) as (tok & Hi1 & Hi2). destruct (Hu tok Hi1 i j Hi Hj Hi2). }
    rewrite EN. split; [reflexivity | discriminate]. }
  apply encode_same with (a := av); [exact Hav | |]; cbn [av_trie_raw av_trie_norm av_map_r new_added_vocab].
  - intros V. apply HS; [intros x i Hi; destruct (trie_model _ _ _ x i HO) as (_ & K); [apply in_app_iff; right; exact Hi | exact K]|].
    intros tok Hi i j Hij Hj E1. destruct (proj1 (Forall_forall _ _) Hl tok Hi) as (A1 & _ & A3). apply A1. rewrite E1 in A3 |- *. apply slice_stretch; assumption.
  - intros x y Hxs Hy V. apply HS; [intros z i Hi; destruct (trie_model _ _ _ z i HO) as (_ & K); [apply in_app_iff; left; exact Hi | exact K]|].
    intros tok Hi i j Hij Hj E1. destruct (proj1 (Forall_forall _ _) Hl tok Hi) as (_ & A2 & A3). apply (A2 x y Hxs Hy). rewrite E1 in A3 |- *. apply slice_stretch; assumption.
Qed.
Print Assumptions C123_no_added_tokens.

(** A token [play] of the vocabulary is added; the text does not contain it. *)
Lemma absent_letter E s c r : ~ In c s -> (c < 128)%N -> ~ has_replacement (c :: r) -> absent E None s (c :: r).
Proof.
  intros Hc Hlt HR.
  assert (K : forall w, (forall d, In d w -> In d s) -> ~ occurs (c :: r) w).
  { intros w Hw (x & (p & q & ->) & Ex). destruct x as [|d x]; [discriminate|]. cbn [utf8_encs flat_map] in Ex. unfold utf8_enc in Ex.
    assert (Ed : In d s) by (apply Hw, in_app_iff; right; left; reflexivity).
    destruct (N.ltb_spec d 128); [cbn [app] in Ex; injection Ex as Ex _; congruence|]. repeat (destruct (_ <? _)%N); cbn [app] in Ex; apply (f_equal (hd 0%N)) in Ex; cbn [hd] in Ex; lia. }
  split; [apply K; auto|]. split; [|exact HR]. intros x y (p & q & ->) Hy. unfold run_norm in Hy. injection Hy as <-. rewrite fresh_numbered. cbn [ns_text numbered_ns]. apply K. intros d Hd. rewrite !in_app_iff. auto.
Qed.
Example C123_case : exists t, finish_construction hist_t0 = Ok t /\
  let h := [CallAddTokens [special "play"]; CallEncode (str "play") true] in let s := str "[CLS] using" in
  Forall (fun tok => at_content tok <> [] -> absent test_env (tz_norm hist_t0) s (at_content tok)) (given h) /\
  (exists r, snd (encode test_env 10 t s true) = Ok r /\ snd (encode test_env 10 (after test_env 10 t h) s true) = Ok r /\ en_ids r = [1; 0]%Z) /\
  (exists r r', snd (encode test_env 10 t (str "playing") true) = Ok r /\ en_ids r = [2; 3]%Z /\ snd (encode test_env 10 (after test_env 10 t h) (str "playing") true) = Ok r' /\ en_ids r' = [2; 0]%Z).
Proof.
  destruct C67_case as (t & Ht & _). exists t. split; [exact Ht|]. cbv zeta.
  assert (Et : Ok t = finish_construction hist_t0) by (symmetry; exact Ht). vm_compute in Et. injection Et as ->. clear Ht.
  split; [|split].
  - cbn [given flat_map app]. constructor; [|constructor]. intros _. apply absent_letter.
    + vm_compute. intuition discriminate.
    + reflexivity.
    + intros (p & q & E0). apply (f_equal (fun z => In 0xEF%N z)) in E0. assert (H : In 0xEF%N (p ++ [0xEF; 0xBF; 0xBD]%N ++ q)) by (apply in_app_iff; right; left; reflexivity). rewrite <- E0 in H. vm_compute in H. intuition discriminate.
  - eexists. split; [vm_compute; reflexivity|]. split; [vm_compute; reflexivity | reflexivity].
  - eexists. eexists. split; [vm_compute; reflexivity|]. split; [reflexivity|]. split; [vm_compute; reflexivity | reflexivity].
Qed.

(** The exception: U+FFFD as an added token is found inside every character above U+FFFF, and the text can no longer be encoded. *)
Definition fffd_vocab : smap Z := [(str "[UNK]", 0); ([0xEF; 0xBF; 0xBD]%N, 1)]%Z.
Definition fffd_t : tokenizer := mkTz None None (Some (new_added_vocab [])) None (Some TBert) (Some (MWordPiece (mkWp fffd_vocab (str "[UNK]") 100 (str "##")))) None None.
Theorem C123_replacement_refuted : dense fffd_vocab /\ ~ occurs [0xEF; 0xBF; 0xBD]%N [0x1F600]%N /\ exists t', add_tokens false fffd_t [mkAt 0 [0xEF; 0xBF; 0xBD]%N false false false false false] = Ok (t', 1%Z) /\
  (exists r, snd (encode test_env 10 fffd_t [0x1F600]%N true) = Ok r /\ en_ids r = [0]%Z) /\ snd (encode test_env 10 t' [0x1F600]%N true) = Undef OobIndex.
Proof.
  split; [|split].
  - split; [|split]; repeat constructor; cbn; intuition (discriminate || lia).
  - intros (x & (p & q & E1) & E2). destruct x as [|c x]; [discriminate|]. assert (Hc : In c [0x1F600%N]) by (rewrite E1; apply in_app_iff; right; left; reflexivity). destruct Hc as [<-|[]]. discriminate.
  - eexists. split; [vm_compute; reflexivity|]. split; [|vm_compute; reflexivity]. eexists. split; [vm_compute; reflexivity | reflexivity].
Qed.
Print Assumptions C123_replacement_refuted.
