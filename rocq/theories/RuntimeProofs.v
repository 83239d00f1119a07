(** Lemmas for PropsRuntime.v: what encode sees of the added vocabulary. *)
From Verif Require Import Base BaseFacts Unicode UnicodeProofs Common Utils PostProcessor Decoder Normalizer PreTokenizer WordPiece Bpe AddedVocab Tokenizer Spec
  NormSpec NormProofs PreSpec PreProofs AvSpec AvProofs ExtractProofs TzSpec TzProofs HistSpec HistProofs.
From Coq Require Import ZifyBool.

(** ** Extraction only looks at the reverse map for ids of the tries *)
(** and only at three flags of the token found there *)
Definition three (t : added_token) : bool * bool * bool := (at_single_word t, at_lstrip t, at_rstrip t).
Definition agree (ids : list Z) (m m' : zmap added_token) : Prop := forall i, In i ids -> three (look m i) = three (look m' i).
Definition without_map {A} (r : res (zmap added_token * A)) : res A := '(_, a) <- r ;; Ok a.

Lemma agree_grow ids ids1 ids2 m m' n n' : agree ids m m' -> grow ids1 m n -> grow ids2 m' n' -> agree ids n n'.
Proof. intros H G G' i Hi. rewrite (gr_look _ _ _ G), (gr_look _ _ _ G'). apply H, Hi. Qed.

Lemma resolve_agree sentence total l : forall start m m', agree (map snd l) m m' ->
  without_map (resolve_matches sentence total start m l) = without_map (resolve_matches sentence total start m' l).
Proof.
  induction l as [|[[a b] k] l IH]; intros start m m' Hs; [reflexivity|]. cbn [resolve_matches].
  assert (E1 : forall mm, match zfind k mm with Some t => (t, mm) | None => (default_added_token, mm ++ [(k, default_added_token)]) end = (look mm k, touch mm k)).
  { intros mm. unfold look, touch. destruct (zfind k mm); reflexivity. }
  rewrite !E1. pose proof (Hs k (or_introl eq_refl)) as H3. unfold three in H3. injection H3 as F1 F2 F3. rewrite <- F1, <- F2, <- F3.
  assert (Hs' : agree (map snd l) (touch m k) (touch m' k)). { intros i Hi. rewrite !touch_look. apply Hs. right. exact Hi. }
  set (tok := look m k). destruct (if at_single_word tok then _ else Ok true) as [keep| | |]; cbn [bind]; try reflexivity.
  destruct keep; cbn [negb]; [|apply IH; exact Hs'].
  destruct (if at_lstrip tok then _ else Ok a) as [a'| | |]; cbn [bind]; try reflexivity. destruct (if at_rstrip tok then _ else Ok b) as [b'| | |]; cbn [bind]; try reflexivity.
  specialize (IH b' _ _ Hs'). unfold without_map in *. destruct (resolve_matches sentence total b' (touch m k) l) as [[m1 r1]| | |], (resolve_matches sentence total b' (touch m' k) l) as [[m2 r2]| | |]; cbn [bind] in *; congruence.
Qed.
Lemma find_agree m m' sentence trie : agree (map snd trie) m m' -> without_map (av_find_matches m sentence trie) = without_map (av_find_matches m' sentence trie).
Proof.
  intros H. apply resolve_agree. intros i Hi. apply H. apply in_map_iff in Hi as (x & <- & Hx).
  destruct (proj1 (Forall_forall _ _) (raw_ids (word_ids trie) _ _ 0 0) x Hx) as (t & Ht). apply word_ids_in in Ht. apply in_map_iff. exists (t, snd x). auto.
Qed.
Lemma normalize_agree E norm trie l : forall ns m m' ending, agree (map snd trie) m m' ->
  ('(ns', _, r) <- normalize_splits E norm trie ns m ending l ;; Ok (ns', r)) = ('(ns', _, r) <- normalize_splits E norm trie ns m' ending l ;; Ok (ns', r)).
Proof.
  induction l as [|s l IH]; intros ns m m' ending H; [reflexivity|]. cbn [normalize_splits]. destruct (sp_tokens s).
  - destruct (convert_from_string (sp_text s)) as [w| | |]; cbn [bind]; try reflexivity. cbv zeta.
    destruct (match norm with Some f => normalize E f (new_nstring w) | None => Ok (new_nstring w) end) as [sub| | |]; cbn [bind]; try reflexivity.
    destruct (transform_range ns _ sub) as [ns'| | |]; cbn [bind]; try reflexivity. destruct (convert_to_string (ns_text sub)) as [sen| | |]; cbn [bind]; try reflexivity.
    pose proof (find_agree m m' sen trie H) as HF. unfold without_map in HF.
    destruct (av_find_matches m sen trie) as [[m1 ms]| | |] eqn:E1, (av_find_matches m' sen trie) as [[m2 ms']| | |] eqn:E2; cbn [bind] in *; try congruence.
    injection HF as <-. destruct (norm_splits (ns_text sub) ending ms) as [here| | |]; cbn [bind]; try reflexivity.
    specialize (IH ns' m1 m2 (ending + length (ns_text sub)) (agree_grow _ _ _ _ _ _ _ H (find_grow _ _ _ _ _ E1) (find_grow _ _ _ _ _ E2))).
    destruct (normalize_splits E norm trie ns' m1 _ l) as [[[? ?] ?]| | |], (normalize_splits E norm trie ns' m2 _ l) as [[[? ?] ?]| | |]; cbn [bind] in *; congruence.
  - cbv zeta. specialize (IH ns m m' (ending + length (sp_text s)) H).
    destruct (normalize_splits E norm trie ns m _ l) as [[[? ?] ?]| | |], (normalize_splits E norm trie ns m' _ l) as [[[? ?] ?]| | |]; cbn [bind] in *; congruence.
Qed.
Lemma extract_agree E norm a a' s : av_trie_raw a' = av_trie_raw a -> av_trie_norm a' = av_trie_norm a ->
  agree (map snd (av_trie_norm a ++ av_trie_raw a)) (av_map_r a) (av_map_r a') -> without_map (extract_and_normalize E a norm s) = without_map (extract_and_normalize E a' norm s).
Proof.
  intros S1 S2 H. rewrite map_app in H. assert (Hn : agree (map snd (av_trie_norm a)) (av_map_r a) (av_map_r a')) by (intros i Hi; apply H, in_app_iff; auto).
  assert (Hr : agree (map snd (av_trie_raw a)) (av_map_r a) (av_map_r a')) by (intros i Hi; apply H, in_app_iff; auto).
  unfold extract_and_normalize. rewrite S1, S2. destruct (new_pretok (new_nstring s)) as [p| | |]; cbn [bind]; try reflexivity.
  destruct (convert_to_string (ns_text (pt_norm p))) as [sen| | |]; cbn [bind]; try reflexivity. pose proof (find_agree _ _ sen _ Hr) as HF. unfold without_map in HF.
  destruct (av_find_matches (av_map_r a) sen (av_trie_raw a)) as [[m1 ms]| | |] eqn:E1, (av_find_matches (av_map_r a') sen (av_trie_raw a)) as [[m2 ms']| | |] eqn:E2; cbn [bind without_map] in *; try congruence.
  injection HF as <-. destruct (raw_splits (ns_text (pt_norm p)) ms) as [raw| | |]; cbn [bind]; try reflexivity. cbv zeta. set (splits1 := match raw with [] => pt_splits p | _ => raw end).
  pose proof (normalize_agree E norm (av_trie_norm a) splits1 (pt_norm p) m1 m2 0 (agree_grow _ _ _ _ _ _ _ Hn (find_grow _ _ _ _ _ E1) (find_grow _ _ _ _ _ E2))) as HN. unfold without_map.
  destruct (normalize_splits E norm (av_trie_norm a) (pt_norm p) m1 0 splits1) as [[[? ?] ?]| | |], (normalize_splits E norm (av_trie_norm a) (pt_norm p) m2 0 splits1) as [[[? ?] ?]| | |]; cbn [bind] in *; try congruence. injection HN as -> ->. reflexivity.
Qed.

(** encode of two tokenizers that differ only in the added vocabulary *)
Lemma encode_agree E fuel t a a' s add : tz_av t = Some a -> av_trie_raw a' = av_trie_raw a -> av_trie_norm a' = av_trie_norm a ->
  agree (map snd (av_trie_norm a ++ av_trie_raw a)) (av_map_r a) (av_map_r a') -> snd (encode E fuel (set_av t (Some a')) s add) = snd (encode E fuel t s add).
Proof.
  intros Ha S1 S2 H. rewrite !encode_text. unfold text_encoding, prepare. cbn [set_av tz_av tz_norm tz_pre tz_model]. rewrite Ha.
  pose proof (extract_agree E (tz_norm t) a a' s S1 S2 H) as HE. unfold without_map in HE.
  destruct (new_pretok (new_nstring s)) as [p0| | |]; cbn [bind]; try reflexivity.
  destruct (extract_and_normalize E a (tz_norm t) s) as [[m p]| | |], (extract_and_normalize E a' (tz_norm t) s) as [[m' p']| | |]; cbn [bind] in *; try congruence.
  injection HE as <-. destruct (match tz_pre t with Some pt => pre_tokenize E pt p | None => Ok p end); reflexivity.
Qed.

(** ** Adding tokens the model does not know *)
Lemma register_specials l : forall a, exists ex, av_specials (fold_left register_special l a) = av_specials a ++ ex /\ incl ex l.
Proof.
  induction l as [|t l IH]; intros a; [exists []; split; [rewrite app_nil_r; reflexivity | intros x []]|]. cbn [fold_left]. destruct (IH (register_special a t)) as (ex & H1 & H2). rewrite H1. unfold register_special.
  destruct (_ && _).
  - exists (t :: ex). split; [cbn [av_specials]; rewrite <- app_assoc; reflexivity|]. intros x [->|Hx]; [left; reflexivity | right; apply H2, Hx].
  - exists ex. split; [reflexivity|]. intros x Hx. right. apply H2, Hx.
Qed.
Lemma known_app v b l1 l2 : known_tokens v b (l1 ++ l2) = known_tokens v b l1 ++ known_tokens v b l2.
Proof. induction l1 as [|t l1 IH]; [reflexivity|]. cbn [app known_tokens]. destruct (token_to_id v (at_content t)); [|exact IH]. destruct (Bool.eqb _ _); [cbn; f_equal|]; exact IH. Qed.
Lemma known_none v b l : Forall (fun t => sfind (at_content t) v = None) l -> known_tokens v b l = [].
Proof. induction 1 as [|t l H _ IH]; [reflexivity|]. cbn [known_tokens]. unfold token_to_id. rewrite H. exact IH. Qed.

Lemma assign_outside v l : dense v -> v <> [] -> Forall (fun t => sfind (at_content t) v = None) l -> forall a a', ids_ok v a -> assign_ids false a (Some v) l = Ok a' ->
  ids_ok v a' /\ av_specials a' = av_specials a /\ (exists ex, av_added a' = av_added a ++ ex /\ incl ex l) /\
  forall i, (i < Z.of_nat (length v))%Z -> zfind i (av_map_r a') = zfind i (av_map_r a).
Proof.
  intros Hd Hne Hl. induction Hl as [|t l Ht Hl IH]; intros a a' HI H; cbn [assign_ids] in H.
  - injection H as <-. split; [exact HI|]. split; [reflexivity|]. split; [exists []; rewrite app_nil_r; split; [reflexivity | intros x []] | reflexivity].
  - destruct (is_nil (at_content t)) eqn:En.
    { destruct (IH a a' HI H) as (K1 & K2 & (ex & K3 & K4) & K5). repeat (split; [assumption|]). split; [exists ex; split; [exact K3 | intros x Hx; right; apply K4, Hx] | exact K5]. }
    apply is_nil_false in En. destruct (choose_id_ok v a (at_content t) Hd Hne HI) as (i & Hi & C1 & C2 & C3). rewrite Hi in H. cbn [bind] in H. cbv zeta in H. rewrite Ht in C2.
    assert (Hout : (Z.of_nat (length v) <= i)%Z) by exact C2.
    assert (HS : forall added, ids_ok v (mkAv added (av_specials a) (av_special_set a) (sset (at_content t) i (av_map a)) (zset i t (av_map_r a)) (av_trie_norm a) (av_trie_raw a))) by (intros added; eapply (step_ok v a _ t i); eauto; cbn; rewrite Ht; exact Hout).
    destruct (smem (at_content t) (av_special_set a)).
    + destruct (IH _ _ (HS _) H) as (K1 & K2 & (ex & K3 & K4) & K5). cbn [av_specials av_added av_map_r] in *. repeat (split; [assumption|]). split; [exists ex; split; [exact K3 | intros x Hx; right; apply K4, Hx]|].
      intros j Hj. rewrite K5 by exact Hj. rewrite zfind_zset. destruct (Z.eqb_spec j i); [lia | reflexivity].
    + destruct (IH _ _ (HS _) H) as (K1 & K2 & (ex & K3 & K4) & K5). cbn [av_specials av_added av_map_r] in *. repeat (split; [assumption|]). split.
      * exists (t :: ex). rewrite K3, <- app_assoc. split; [reflexivity|]. intros x [->|Hx]; [left; reflexivity | right; apply K4, Hx].
      * intros j Hj. rewrite K5 by exact Hj. rewrite zfind_zset. destruct (Z.eqb_spec j i); [lia | reflexivity].
Qed.

(** ** A text that is one added token *)
Lemma utf16_widths x : Forall (fun u => u < 65536)%N x -> list_sum (map (fun p => cp_width (fst p)) (utf16_cps x)) = length x.
Proof.
  remember (length x) as n eqn:Hn. assert (Hl : length x <= n) by lia. rewrite Hn. clear Hn. revert x Hl. induction n as [|n IH]; intros x Hl H.
  - destruct x; [reflexivity | cbn in Hl; lia].
  - destruct x as [|a x]; [reflexivity|]. inversion H as [|? ? Ha Hx]; subst. cbn [length] in Hl. cbn [utf16_cps].
    assert (Wa : cp_width a = 1) by (unfold cp_width; replace (a <? 65536)%N with true by lia; reflexivity). destruct (is_lead a) eqn:El.
    + destruct x as [|y x]; [cbn [map list_sum fold_right fst]; rewrite Wa; reflexivity|]. destruct (is_trail y) eqn:Et.
      * cbn [map fst]. change (list_sum (?p :: ?q)) with (p + list_sum q). inversion Hx; subst. cbn [length] in *. rewrite IH by (assumption || lia).
        assert (Wp : cp_width (pair_cp a y) = 2). { unfold cp_width, pair_cp. replace (_ <? 65536)%N with false; [reflexivity|]. symmetry. apply N.ltb_ge. unfold is_lead, is_trail in *. lia. }
        rewrite Wp. reflexivity.
      * cbn [map fst]. change (list_sum (?p :: ?q)) with (p + list_sum q). rewrite IH by (assumption || (cbn [length] in *; lia)). rewrite Wa. reflexivity.
    + cbn [map fst]. change (list_sum (?p :: ?q)) with (p + list_sum q). rewrite IH by (assumption || lia). rewrite Wa. reflexivity.
Qed.
Lemma utf16_cps_range x p : Forall (fun u => u < 65536)%N x -> In p (utf16_cps x) -> (fst p <= 0x10FFFF)%N.
Proof.
  remember (length x) as n eqn:Hn. assert (Hl : length x <= n) by lia. clear Hn. revert x Hl. induction n as [|n IH]; intros x Hl H Hp.
  - destruct x; [destruct Hp | cbn in Hl; lia].
  - destruct x as [|a x]; [destruct Hp|]. inversion H as [|? ? Ha Hx]; subst. cbn [length] in Hl. cbn [utf16_cps] in Hp. destruct (is_lead a) eqn:El.
    + destruct x as [|y x]; [destruct Hp as [<-|[]]; cbn; lia|]. destruct (is_trail y) eqn:Et.
      * destruct Hp as [<-|Hp]; [cbn [fst]; unfold pair_cp, is_lead, is_trail in *; lia|]. inversion Hx; subst. cbn [length] in *. apply (IH x); [lia | assumption | exact Hp].
      * destruct Hp as [<-|Hp]; [cbn; lia|]. apply (IH (y :: x)); [cbn [length] in *; lia | assumption | exact Hp].
    + destruct Hp as [<-|Hp]; [cbn; lia|]. apply (IH x); [lia | assumption | exact Hp].
Qed.
Lemma to_utf8_length x cs : Forall (fun u => u < 65536)%N x -> forallb valid_cp cs = true -> to_utf8 x = utf8_encs cs -> length x = units cs.
Proof.
  intros Hx Hv H. set (fixed := map (fun p => if is_surrogate (fst p) then 0xFFFD%N else fst p) (utf16_cps x)).
  assert (Hf : to_utf8 x = utf8_encs fixed). { unfold to_utf8, fixed, utf8_encs. rewrite flat_map_concat_map, (flat_map_concat_map utf8_enc), map_map. f_equal. apply map_ext. intros p. unfold utf8_of_cp. destruct (is_surrogate (fst p)); reflexivity. }
  assert (Hfv : forallb valid_cp fixed = true).
  { apply forallb_forall. intros c Hc. unfold fixed in Hc. apply in_map_iff in Hc as (p & <- & Hp). pose proof (utf16_cps_range x p Hx Hp). unfold valid_cp. destruct (is_surrogate (fst p)) eqn:Es; [reflexivity|]. rewrite Es. cbn [negb andb]. lia. }
  assert (E : fixed = cs). { rewrite Hf in H. apply (f_equal utf8_dec) in H. rewrite !utf8_dec_encs in H by assumption. clear - H. revert cs H. induction fixed as [|c f IH]; intros [|d cs] H; try discriminate; [reflexivity|]. cbn in H. injection H as -> H. f_equal. apply IH, H. }
  rewrite <- E. rewrite <- (utf16_widths x Hx). unfold fixed. clear. induction (utf16_cps x) as [|p l IH]; [reflexivity|]. cbn [map]. rewrite units_cons. change (list_sum (?p :: ?q)) with (p + list_sum q). rewrite IH. f_equal.
  unfold cp_width. destruct (is_surrogate (fst p)) eqn:Es; [|reflexivity]. unfold is_surrogate in Es. replace (fst p <? 65536)%N with true by lia. reflexivity.
Qed.
Lemma utf16_units cs : forallb valid_cp cs = true -> Forall (fun u => u < 65536)%N (flat_map utf16_enc cs).
Proof.
  intros H. induction cs as [|c cs IH]; [constructor|]. cbn [forallb] in H. apply andb_prop in H as [Hc H]. cbn [flat_map]. apply Forall_app. split; [|apply IH, H]. apply valid_cp_spec in Hc. unfold utf16_enc.
  destruct (N.ltb_spec c 65536); [constructor; [assumption | constructor]|]. assert ((c - 65536) / 1024 < 1024)%N by (apply N.div_lt_upper_bound; lia). assert ((c - 65536) mod 1024 < 1024)%N by (apply N.mod_lt; lia). constructor; [lia | constructor; [lia | constructor]].
Qed.

Lemma raw_whole ids u id : u <> [] -> ~ In 32%N u -> sfind (to_utf8 u) ids = Some id -> (forall k, k < length u -> sfind (to_utf8 (firstn k u)) ids = None) ->
  raw_matches ids u (length u) 0 0 = [(0, length u, id)].
Proof.
  intros Hne Hsp Hhit Hmiss. assert (G : forall d k, k + d = length u -> raw_matches ids u d k 0 = [(0, length u, id)]).
  { induction d as [|d IH]; intros k Hk; cbn [raw_matches].
    - assert (k = length u) as -> by lia. destruct (Nat.eqb_spec (length u) 0); [destruct u; [congruence | cbn in *; lia]|]. unfold usub. cbn [skipn]. rewrite Nat.sub_0_r, firstn_all, Hhit. reflexivity.
    - unfold usub. cbn [skipn]. rewrite Nat.sub_0_r, Hmiss by lia. replace (nth k u 0 =? 32)%N with false; [apply IH; lia|].
      symmetry. apply N.eqb_neq. intros E. apply Hsp. rewrite <- E. apply nth_In. lia. }
  apply G. reflexivity.
Qed.

(** extraction of a text that is exactly one raw added token *)
Lemma extract_whole E av norm cs id tok : cs <> [] -> forallb valid_cp cs = true -> ~ In 32%N cs -> zfind id (av_map_r av) = Some tok -> plain_token tok ->
  In (utf8_encs cs, id) (av_trie_raw av) -> (forall id', In (utf8_encs cs, id') (av_trie_raw av) -> id' = id) ->
  (forall k id', k < units cs -> ~ In (to_utf8 (firstn k (flat_map utf16_enc cs)), id') (av_trie_raw av)) ->
  exists off n, extract_and_normalize E av norm cs = Ok (av_map_r av, mkPt (new_nstring cs) [mkSplit (utf8_encs cs) (0, n) [mkTok id (utf8_encs cs) off]]).
Proof.
  intros Hne Hv Hsp Hid (P1 & P2 & P3) Hin Huniq Hmiss. unfold extract_and_normalize. rewrite fresh_numbered. unfold new_pretok. cbn [ns_text numbered_ns]. unfold convert_to_string at 1. rewrite Hv. cbn [bind pt_norm pt_splits].
  cbn [ns_text numbered_ns]. unfold convert_to_string at 1. rewrite Hv. cbn [bind]. unfold av_find_matches. rewrite from_utf8_encs by exact Hv.
  assert (Hu : flat_map utf16_enc cs <> []). { intros E0. apply Hne, units_0. unfold units. rewrite E0. reflexivity. }
  assert (HW : forall t, sfind t (word_ids (av_trie_raw av)) = None \/ exists i, sfind t (word_ids (av_trie_raw av)) = Some i /\ In (t, i) (av_trie_raw av)).
  { intros t. destruct (sfind t (word_ids (av_trie_raw av))) as [i|] eqn:Ei; [right; exists i; split; [reflexivity | apply word_ids_in; exact Ei] | left; reflexivity]. }
  rewrite (raw_whole _ _ id).
  - cbn [resolve_matches]. rewrite Hid, P1. cbn [bind negb]. rewrite P2, P3. cbn [bind]. rewrite Nat.eqb_refl. cbn [bind app Nat.ltb Nat.leb]. cbn [raw_splits].
    fold (units cs). rewrite substr_all by apply length_units. cbn [bind]. unfold convert_to_string at 1. rewrite Hv. cbn [bind raw_splits normalize_splits sp_tokens sp_text sp_off].
    do 2 eexists. reflexivity.
  - exact Hu.
  - intros H. apply in_flat_map in H as (c & Hc & H). pose proof (proj1 (forallb_forall _ _) Hv c Hc) as Hvc. apply valid_cp_spec in Hvc. unfold utf16_enc in H. destruct (N.ltb_spec c 65536); [destruct H as [->|[]]; contradiction|]. destruct H as [H|[H|[]]]; lia.
  - rewrite to_utf8_encs by exact Hv. destruct (HW (utf8_encs cs)) as [H|(i & H & Hi)]; [|rewrite H; f_equal; apply Huniq, Hi]. exfalso.
    destruct (word_ids_some _ _ _ Hin) as (k' & Hk'). congruence.
  - intros k Hk. destruct (HW (to_utf8 (firstn k (flat_map utf16_enc cs)))) as [H|(i & _ & Hi)]; [exact H|]. destruct (Hmiss k i Hk Hi).
Qed.
