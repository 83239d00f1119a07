(** C141: every outcome of encode, whatever the normalizer. Specification: EverySpec.v. *)
From Verif Require Import Base BaseFacts Unicode UnicodeProofs Common Utils PostProcessor Decoder Normalizer PreTokenizer WordPiece Bpe AddedVocab Tokenizer Config ConfigSpec Spec PostSpec
  NormSpec NormProofs DecSpec PreSpec PreProofs AvSpec AvProofs ExtractProofs TzSpec TzProofs WpSpec WpProofs OffSpec OffProofs RefSpec RefProofs TextProofs BpeSpec BpeProofs BpeWord UnkSpec
  BpeRefSpec PropsBpe PropsUnknown PropsReference PropsBpeText Env CutSpec PropsCut DropSpec StripSpec PropsStrip AccentSpec PropsAccent BertSpec PropsBertOffsets PropsLlama PropsByteDec FormSpec PropsForm UncasedSpec PropsNorm PropsDeleted PropsUncased EraseSpec PropsErase WholeSpec PropsWhole
  HistSpec LenSpec FullSpec PropsConfig PropsAdded PropsLifetime PropsText OutSpec HistProofs PropsFinish PropsFull PropsOffsets RelevSpec PropsRelevant PropsBertConfig TotalSpec PropsTotal
  MixSpec PartsSpec PropsMixed PropsParts TextsSpec PropsTexts BoundSpec PropsBound PropsBoundAt EverySpec.
From Verif Require Import BpeRefSpec.
From Coq Require Import ZifyBool ZifyNat ZifyN.
Import ListNotations.

(** *** How often the original position changes in a table *)
Definition same_pair (a b : nat * nat) : bool := (fst a =? fst b) && (snd a =? snd b).
Lemma same_pair_eq a b : same_pair a b = true <-> a = b.
Proof. unfold same_pair. destruct a as [a1 a2], b as [b1 b2]. cbn [fst snd]. split; [intros H; f_equal; lia | intros [= -> ->]; lia]. Qed.
Fixpoint turns (prev : nat * nat) (l : list (nat * nat)) : nat :=
  match l with [] => 0 | x :: r => (if same_pair prev x then 0 else 1) + turns x r end.
Definition changes (l : list (nat * nat)) : nat := match l with [] => 0 | x :: r => turns x r end.
Lemma turns_triangle a b l : turns a l <= (if same_pair a b then 0 else 1) + turns b l.
Proof.
  destruct l as [|x r]; cbn [turns]; [lia|]. destruct (same_pair a b) eqn:E1; [apply same_pair_eq in E1; subst; lia|]. destruct (same_pair a x); lia.
Qed.
(** leaving out elements does not add changes *)
Inductive thinned : list (nat * nat) -> list (nat * nat) -> Prop :=
| th_nil : thinned [] []
| th_skip x l m : thinned l m -> thinned (x :: l) m
| th_keep x l m : thinned l m -> thinned (x :: l) (x :: m).
Lemma turns_thinned l m : thinned l m -> forall p, turns p m <= turns p l.
Proof.
  induction 1 as [|x l m _ IH|x l m _ IH]; intros p; cbn [turns]; [lia | | specialize (IH x); lia]. pose proof (IH x). pose proof (turns_triangle p x m). lia.
Qed.
Lemma changes_thinned l m : thinned l m -> changes m <= changes l.
Proof.
  induction 1 as [|x l m H IH|x l m H IH]; cbn [changes]; [lia | | exact (turns_thinned _ _ H x)]. destruct l as [|y l]; [inversion H; subst; cbn; lia|]. cbn [changes turns] in *. lia.
Qed.
Lemma thinned_refl l : thinned l l.
Proof. induction l; [constructor | constructor 3; assumption]. Qed.
Lemma thinned_app a b c d : thinned a b -> thinned c d -> thinned (a ++ c) (b ++ d).
Proof. induction 1; cbn [app]; intros; [assumption | constructor 2; auto | constructor 3; auto]. Qed.
Lemma thinned_none l : thinned l [].
Proof. induction l; [constructor | constructor 2; assumption]. Qed.
Lemma changes_erase (l : list (nat * nat)) a b m : verase l a b = Ok m -> changes m <= changes l.
Proof.
  unfold verase. intros H. destruct ((a <=? b) && (b <=? length l)) eqn:E1; [|discriminate]. injection H as <-. apply changes_thinned.
  rewrite <- (firstn_skipn a l) at 1. apply thinned_app; [apply thinned_refl|]. replace (skipn b l) with (skipn (b - a) (skipn a l)) by (rewrite skipn_skipn'; f_equal; lia).
  rewrite <- (firstn_skipn (b - a) (skipn a l)) at 1. change (skipn (b - a) (skipn a l)) with ([] ++ skipn (b - a) (skipn a l)) at 2. apply thinned_app; [apply thinned_none | apply thinned_refl].
Qed.
Lemma turns_repeat x n l : turns x (repeat x n ++ l) = turns x l.
Proof. induction n as [|n IH]; cbn [repeat app turns]; [reflexivity|]. rewrite (proj2 (same_pair_eq x x) eq_refl), IH. reflexivity. Qed.
Lemma turns_split p a x n r : turns p (a ++ repeat x n ++ x :: r) = turns p (a ++ x :: r).
Proof.
  revert p. induction a as [|y a IH]; intros p; cbn [app turns]; [|rewrite IH; reflexivity]. destruct n as [|n]; [reflexivity|]. cbn [repeat app turns].
  rewrite turns_repeat. cbn [turns]. rewrite (proj2 (same_pair_eq x x) eq_refl). reflexivity.
Qed.
(** copies inserted next to their original do not add changes *)
Lemma changes_insert (l : list (nat * nat)) k x n m : vat l k = Ok x -> vinsert l k (repeat x n) = Ok m -> changes m = changes l.
Proof.
  intros Hx H. unfold vinsert in H. destruct (k <=? length l) eqn:E1; [|discriminate]. injection H as <-. unfold vat in Hx. destruct (nth_error l k) as [y|] eqn:E2; [|discriminate]. injection Hx as ->.
  apply nth_error_split in E2 as (a & r & -> & <-). rewrite firstn_app, skipn_app, firstn_all, skipn_all, Nat.sub_diag. cbn [firstn skipn]. rewrite app_nil_r. change ([] ++ x :: r) with (x :: r).
  destruct a as [|y a]; cbn [app changes]; [|apply turns_split]. destruct n as [|n]; [reflexivity|]. cbn [repeat app changes]. rewrite turns_repeat. cbn [turns]. rewrite (proj2 (same_pair_eq x x) eq_refl). reflexivity.
Qed.
Lemma changes_transform ns i op ns' : transform ns i op = Ok ns' -> changes (ns_offsets ns') <= changes (ns_offsets ns).
Proof.
  unfold transform. intros H. apply bind_ok in H as ([start limit] & _ & H). destruct op as [| | | |n|n].
  - apply bind_ok in H as (o & Ho & H). apply bind_ok in H as (r & _ & H). injection H as <-. cbn [ns_offsets]. exact (changes_erase _ _ _ _ Ho).
  - apply bind_ok in H as (o & Ho & H). apply bind_ok in H as (o' & Ho' & H). apply bind_ok in H as (r1 & _ & H). apply bind_ok in H as (r2 & _ & H). injection H as <-. cbn [ns_offsets]. rewrite (changes_insert _ _ o 2 _ Ho Ho'). lia.
  - apply bind_ok in H as (r1 & _ & H). apply bind_ok in H as (r2 & _ & H). injection H as <-. cbn [ns_offsets]. lia.
  - apply bind_ok in H as (r1 & _ & H). injection H as <-. cbn [ns_offsets]. lia.
  - apply bind_ok in H as (r1 & _ & H). apply bind_ok in H as (r2 & _ & H). apply bind_ok in H as (o & Ho & H). apply bind_ok in H as (o' & Ho' & H). injection H as <-. cbn [ns_offsets]. rewrite (changes_insert _ _ _ _ _ Ho Ho'). lia.
  - apply bind_ok in H as (r1 & _ & H). apply bind_ok in H as (r2 & _ & H). apply bind_ok in H as (o & Ho & H). destruct n as [|n]; [discriminate|]. apply bind_ok in H as (o' & Ho' & H). injection H as <-. cbn [ns_offsets]. rewrite (changes_insert _ _ _ _ _ Ho Ho'). lia.
Qed.

(** no normalizer adds changes *)
Definition calm (f : nstring -> res nstring) : Prop := forall ns ns', f ns = Ok ns' -> changes (ns_offsets ns') <= changes (ns_offsets ns).
Lemma calm_grow l : forall multi, calm (fun ns => apply_grow ns l multi).
Proof. induction l as [|i r IH]; intros multi ns ns' H; cbn [apply_grow] in H; [injection H as <-; lia|]. apply bind_ok in H as (n1 & H1 & H). apply changes_transform in H1. apply IH in H. lia. Qed.
Lemma calm_nf E f : calm (normalize_nf E f).
Proof. intros ns ns' H. unfold normalize_nf in H. destruct (e_norm E f _) as [z|]; [|discriminate]. apply bind_ok in H as (n1 & H1 & H). injection H as <-. cbn [set_text ns_offsets]. exact (calm_grow _ _ _ _ H1). Qed.
Lemma calm_clean E l : forall i ns ns' t, clean_loop E ns i l = Ok (ns', t) -> changes (ns_offsets ns') <= changes (ns_offsets ns).
Proof.
  induction l as [|c r IH]; intros i ns ns' t H; cbn [clean_loop] in H; [injection H as <- <-; lia|]. destruct (removed_by_clean E c); apply bind_ok in H as (x & H1 & H).
  - apply changes_transform in H1. apply IH in H. lia.
  - destruct x as [n1 t1]. injection H as <- <-. exact (IH _ _ _ _ H1).
Qed.
Lemma calm_pad l : forall multi, calm (fun ns => apply_pad ns l multi).
Proof. induction l as [|i r IH]; intros multi ns ns' H; cbn [apply_pad] in H; [injection H as <-; lia|]. apply bind_ok in H as (n1 & H1 & H). apply changes_transform in H1. apply IH in H. lia. Qed.
Lemma calm_shrink l : forall multi, calm (fun ns => apply_shrink ns l multi).
Proof. induction l as [|i r IH]; intros multi ns ns' H; cbn [apply_shrink] in H; [injection H as <-; lia|]. apply bind_ok in H as (n1 & H1 & H). apply changes_transform in H1. apply IH in H. lia. Qed.
Lemma calm_replace l nb wl : forall multi, calm (fun ns => apply_replace ns l nb wl multi).
Proof. induction l as [|i r IH]; intros multi ns ns' H; cbn [apply_replace] in H; [injection H as <-; lia|]. apply bind_ok in H as (n1 & H1 & H). apply changes_transform in H1. apply IH in H. lia. Qed.
Lemma calm_bert E cl ch st lo : calm (bert_normalize E cl ch st lo).
Proof.
  intros ns ns' H. unfold bert_normalize in H. apply bind_ok in H as (n1 & H1 & H). apply bind_ok in H as (n2 & H2 & H). apply bind_ok in H as (n3 & H3 & H).
  assert (B1 : changes (ns_offsets n1) <= changes (ns_offsets ns)) by (destruct cl; [|injection H1 as <-; lia]; unfold do_clean_text in H1; apply bind_ok in H1 as ([m t] & H1 & Hm); injection Hm as <-; exact (calm_clean _ _ _ _ _ _ H1)).
  assert (B2 : changes (ns_offsets n2) <= changes (ns_offsets n1)).
  { destruct ch; [|injection H2 as <-; lia]. unfold do_handle_chinese_chars in H2. apply bind_ok in H2 as (m & H2 & Hm). apply bind_ok in Hm as (t & _ & Hm). injection Hm as <-. exact (calm_pad _ _ _ _ H2). }
  assert (B3 : changes (ns_offsets n3) <= changes (ns_offsets n2)).
  { destruct (st || lo); [|injection H3 as <-; lia]. unfold do_strip_accents in H3. apply bind_ok in H3 as (m & H3 & Hm). apply bind_ok in Hm as (m2 & H4 & Hm). injection Hm as <-. cbn [set_text ns_offsets]. apply calm_nf in H3. apply calm_shrink in H4. lia. }
  destruct lo; [unfold do_lowercase in H|]; injection H as <-; cbn [set_text ns_offsets]; lia.
Qed.
Lemma calm_normalize E : forall f, calm (normalize E f).
Proof.
  fix IH 1. intros f. destruct f as [cl ch st lo|f|p|p c|l r| |l]; cbn [normalize].
  - apply calm_bert.
  - apply calm_nf.
  - intros ns ns' H. unfold prepend_normalize in H. apply bind_ok in H as (q & _ & H). apply bind_ok in H as (n1 & H1 & H). injection H as <-. cbn [set_text ns_offsets]. exact (changes_transform _ _ _ _ H1).
  - intros ns ns' H. unfold replace_normalize in H. apply bind_ok in H as (q & _ & H). destruct (negb _); [discriminate|]. apply bind_ok in H as (c' & _ & H). apply bind_ok in H as ([t ids] & _ & H). apply bind_ok in H as (n1 & H1 & H). injection H as <-. cbn [set_text ns_offsets]. exact (calm_replace _ _ _ _ _ _ H1).
  - intros ns ns' H. unfold strip_normalize in H. injection H as <-. cbn [set_text ns_offsets]. lia.
  - intros ns ns' H. unfold strip_accents_normalize in H. injection H as <-. cbn [set_text ns_offsets]. lia.
  - induction l as [|q r IHr]; intros ns ns' H; [injection H as <-; lia|]. apply bind_ok in H as (n1 & H1 & H). apply (IH q) in H1. apply IHr in H. lia.
Qed.

(** *** In a fresh table there are as many changes as units, less one; renumbering counts them *)
Lemma turns_numbered u : forall todo i idx p, turns p (snd (ns_tables u todo i idx)) <= todo.
Proof.
  induction todo as [|k IH]; intros i idx p; cbn [ns_tables snd turns]; [lia|]. specialize (IH (S i) (idx + length (utf8_of_cp (char32_at u i))) (i, S i)).
  destruct (ns_tables u k (S i) _) as [r o] eqn:Et. cbn [snd] in *. destruct (length (utf8_of_cp (char32_at u i))) as [|n] eqn:En; cbn [repeat app turns].
  - pose proof (turns_triangle p (i, S i) o). destruct (same_pair p (i, S i)); lia.
  - rewrite turns_repeat. destruct (same_pair p (i, S i)); lia.
Qed.
Lemma changes_fresh s : s <> [] -> forallb valid_cp s = true -> changes (ns_offsets (new_nstring s)) < units s.
Proof.
  intros Hne Hv. unfold new_nstring. assert (Hu : length (from_utf32 s) = units s) by (rewrite <- unit_sizes_length; apply valid_unit_sizes; exact Hv). rewrite Hu. destruct (units s) as [|k] eqn:Eu; [apply units_0 in Eu; congruence|].
  cbn [ns_tables]. destruct (ns_tables (from_utf32 s) k 1 _) as [r o] eqn:Et. cbn [ns_offsets]. pose proof (turns_numbered (from_utf32 s) k 1 (0 + length (utf8_of_cp (char32_at (from_utf32 s) 0))) (0, 1)) as HT. rewrite Et in HT. cbn [snd] in HT.
  destruct (length (utf8_of_cp (char32_at (from_utf32 s) 0))) as [|n] eqn:En; cbn [repeat app changes].
  - destruct o as [|x o]; cbn [changes]; [lia|]. cbn [turns] in HT. lia.
  - rewrite turns_repeat. lia.
Qed.
Lemma rebase_counted : forall l prev k, Forall (fun o : nat * nat => fst o <= k + turns prev l) (rebase_offsets prev (k, S k) l).
Proof.
  induction l as [|x r IH]; intros prev k; cbn [rebase_offsets turns]; [constructor|]. unfold same_pair. destruct ((fst prev =? fst x) && (snd prev =? snd x)) eqn:Ex.
  - assert (x = prev) by (symmetry; apply same_pair_eq; exact Ex). subst x. constructor; [cbn [fst]; lia|]. exact (IH prev k).
  - cbn [snd]. replace (S k + 1) with (S (S k)) by lia. constructor; [cbn [fst]; lia|]. eapply Forall_impl; [|exact (IH x (S k))]. cbn beta. intros a Ha. lia.
Qed.
Lemma renumbered_low O0 O k : renumbered O0 O -> changes O0 < k -> Forall (fun o => fst o < k) O.
Proof.
  unfold renumbered. intros -> Hc. destruct O0 as [|o r]; [constructor|]. cbn [changes] in Hc. constructor; [cbn; lia|]. eapply Forall_impl; [|exact (rebase_counted r o 0)]. cbn beta. intros a Ha. lia.
Qed.

(** *** The outcomes of a tokenizer without added tokens *)
Lemma place_low (e bytes : list nat) j k m : UncasedSpec.place e bytes j = Some k -> Forall (fun x => x < m) bytes -> k < m.
Proof. unfold UncasedSpec.place. destruct (j <? length e); [|discriminate]. intros H HF. exact (proj1 (Forall_forall _ _) HF k (nth_error_In _ _ H)). Qed.
Lemma again_low s : s <> [] -> Forall (fun x => x < units s) (map fst (again s)).
Proof.
  intros Hne. rewrite again_fst, bytes_length. assert (Hu : 0 < units s) by (pose proof (proj1 (units_0 s)); destruct (units s); [exfalso; auto | lia]). apply Forall_forall. intros x Hx. apply repeat_spec in Hx. lia.
Qed.
Lemma norm_fails E t s (o : res nstring) : forallb valid_cp s = true -> s <> [] -> tz_av t = Some (new_added_vocab []) -> run_norm E (tz_norm t) s = o -> (forall x, o <> Ok x) -> forall fuel add, same_failure o (snd (encode E fuel t s add)).
Proof.
  intros Hv Hne Hav HN Ho fuel add. rewrite encode_stages, encode_bare. unfold text_encoding, prepare. unfold new_pretok at 1. assert (Ht : ns_text (new_nstring s) = s) by (apply (fresh_packed s)). rewrite Ht. unfold convert_to_string at 1. rewrite Hv. cbn [bind]. rewrite Hav.
  unfold extract_and_normalize. rewrite fresh_numbered. unfold new_pretok. cbn [ns_text numbered_ns]. unfold convert_to_string at 1. rewrite Hv. cbn [bind pt_norm pt_splits].
  cbn [ns_text numbered_ns]. unfold convert_to_string at 1. rewrite Hv. cbn [bind].
  assert (HX : forall u, no_added_token (av_trie_raw (new_added_vocab [])) u) by (intros u a b i _ _ []).
  rewrite find_none by apply HX. rewrite from_utf8_encs by exact Hv. fold (units s).
  assert (Hu : 0 < units s) by (pose proof (proj1 (units_0 s)); destruct (units s); [exfalso; auto | lia]).
  replace (0 =? units s) with false by lia. cbn [bind raw_splits]. rewrite substr_all by apply length_units. cbn [bind]. unfold convert_to_string at 1. rewrite Hv. cbn [bind normalize_splits sp_tokens sp_text sp_off fst snd].
  rewrite (proj2 (convert_from_string_iff _ s)) by (split; [reflexivity | exact Hv]). cbn [bind]. fold (run_norm E (tz_norm t) s). rewrite HN.
  destruct o as [x| | |]; cbn [bind same_failure]; auto. exact (Ho x eq_refl).
Qed.
Lemma wp_every E t w s add : tz_av t = Some (new_added_vocab []) -> tz_model t = Some (MWordPiece w) -> s <> [] -> forallb valid_cp s = true -> (forall p, tz_pre t = Some p -> cuttable E p) ->
  (exists ws l core, norm_words E (tz_norm t) (tz_pre t) s ws /\ map snd l = ws /\ Forall (fun p => fst p < units s) l /\ snd (encode E 0 (bare t) s add) = Ok core /\ flat_parallel core /\ rows_of_words (word_tokens w) 0 l (rows core)) \/
  ((exists ws, norm_words E (tz_norm t) (tz_pre t) s ws /\ ws <> []) /\ forall fuel, snd (encode E fuel t s add) = Undef OobIndex) \/
  ((exists n, normalized_to E (tz_norm t) s n /\ forallb valid_cp n = false) /\ forall fuel, snd (encode E fuel t s add) = Throw RangeError) \/
  (forall fuel, same_failure (run_norm E (tz_norm t) s) (snd (encode E fuel t s add))).
Proof.
  intros Hav Hm Hne Hv Hpre. destruct (run_norm E (tz_norm t) s) as [[n R O0]| | |] eqn:HN; [| right; right; right; intros fuel; apply (norm_fails E t s _ Hv Hne Hav HN); discriminate..].
  set (O := match O0 with [] => [] | o :: r => (0, 1) :: rebase_offsets o (0, 1) r end). assert (HO : renumbered O0 O) by reflexivity. clearbody O.
  assert (HT : normalized_to E (tz_norm t) s n) by (eexists; split; [exact HN | reflexivity]).
  destruct (valid_dec n) as [Hvn|Hvn]; [|right; right; left; split; [exists n; auto | intros fuel; exact (encode_invalid E s n R O0 O t Hne Hv HO Hav HN fuel add Hvn)]].
  assert (HL : Forall (fun x => x < units s) (map fst (O ++ again s))).
  { rewrite map_app. apply Forall_app. split; [|exact (again_low s Hne)]. rewrite Forall_map. apply (renumbered_low O0 O); [exact HO|]. pose proof (changes_fresh s Hne Hv) as HF. unfold run_norm in HN. destruct (tz_norm t) as [f|].
    - apply calm_normalize in HN. cbn [ns_offsets] in HN. lia.
    - injection HN as HN. rewrite HN in HF. exact HF. }
  destruct (C95_words E (tz_pre t) (text_cut s n) Hpre (cut_valid s n Hv Hvn)) as (ws & HW & _). pose proof (fun fuel => wp_any E s n R O0 O t Hne Hv HO Hav HN Hvn fuel w ws add Hm HW) as HA. cbn zeta in HA.
  assert (HNW : norm_words E (tz_norm t) (tz_pre t) s (map snd ws)) by (exists n, ws; auto).
  destruct (places_cases (UncasedSpec.place (map snd R) (map fst (O ++ again s))) ws) as [(ks & K1 & K2)|HX].
  - left. destruct (HA 0) as [HA0 _]. destruct (HA0 ks K1) as (core & C1 & C2 & C3 & C4). exists (map snd ws), (combine ks (map snd ws)), core. split; [exact HNW|]. assert (Hlen : length ks = length ws) by (symmetry; exact (Forall2_len _ _ _ K1)). split; [|split; [|auto]].
    + clear - Hlen. revert ks Hlen. induction ws as [|[a x] ws IH]; intros [|k ks] H; try discriminate; [reflexivity|]. cbn [map combine snd]. f_equal. apply IH. cbn [length] in H. lia.
    + clear - K1 HL. induction K1 as [|[a x] k ws ks Hk _ IH]; [constructor|]. cbn [map combine fst snd] in *. constructor; [exact (place_low _ _ _ _ _ Hk HL) | exact IH].
  - right. left. split; [exists (map snd ws); split; [exact HNW|]; destruct ws; [inversion HX | discriminate]|]. intros fuel. exact (proj2 (HA fuel) HX).
Qed.
Lemma bpe_every E t vocab merges d unk pre suf fu bf ig b c s add : pq_ok E -> new_bpe vocab merges d unk pre suf fu bf ig = Ok b -> tz_av t = Some (new_added_vocab []) -> tz_model t = Some (MBpe b c) -> reach_cache E b c ->
  s <> [] -> forallb valid_cp s = true -> (forall p, tz_pre t = Some p -> cuttable E p) ->
  (exists ws l core, norm_words E (tz_norm t) (tz_pre t) s ws /\ Forall (encodable b) ws /\ map snd l = ws /\ Forall (fun p => fst p < units s) l /\ snd (encode E 0 (bare t) s add) = Ok core /\ flat_parallel core /\ rows_of_words (bpe_tokens b) 0 l (rows core)) \/
  ((exists ws, norm_words E (tz_norm t) (tz_pre t) s ws /\ ws <> []) /\ forall fuel, snd (encode E fuel t s add) = Undef OobIndex) \/
  ((exists n, normalized_to E (tz_norm t) s n /\ forallb valid_cp n = false) /\ forall fuel, snd (encode E fuel t s add) = Throw RangeError) \/
  (forall fuel, same_failure (run_norm E (tz_norm t) s) (snd (encode E fuel t s add))).
Proof.
  intros Hq Hb Hav Hm Hr Hne Hv Hpre. destruct (run_norm E (tz_norm t) s) as [[n R O0]| | |] eqn:HN; [| right; right; right; intros fuel; apply (norm_fails E t s _ Hv Hne Hav HN); discriminate..].
  set (O := match O0 with [] => [] | o :: r => (0, 1) :: rebase_offsets o (0, 1) r end). assert (HO : renumbered O0 O) by reflexivity. clearbody O.
  assert (HT : normalized_to E (tz_norm t) s n) by (eexists; split; [exact HN | reflexivity]).
  destruct (valid_dec n) as [Hvn|Hvn]; [|right; right; left; split; [exists n; auto | intros fuel; exact (encode_invalid E s n R O0 O t Hne Hv HO Hav HN fuel add Hvn)]].
  assert (HL : Forall (fun x => x < units s) (map fst (O ++ again s))).
  { rewrite map_app. apply Forall_app. split; [|exact (again_low s Hne)]. rewrite Forall_map. apply (renumbered_low O0 O); [exact HO|]. pose proof (changes_fresh s Hne Hv) as HF. unfold run_norm in HN. destruct (tz_norm t) as [f|].
    - apply calm_normalize in HN. cbn [ns_offsets] in HN. lia.
    - injection HN as HN. rewrite HN in HF. exact HF. }
  destruct (C95_words E (tz_pre t) (text_cut s n) Hpre (cut_valid s n Hv Hvn)) as (ws & HW & _). pose proof (fun fuel => bpe_any E s n R O0 O t Hne Hv HO Hav HN Hvn fuel vocab merges d unk pre suf fu bf ig b c ws add Hq Hb Hm Hr HW) as HA. cbn zeta in HA.
  assert (HNW : norm_words E (tz_norm t) (tz_pre t) s (map snd ws)) by (exists n, ws; auto).
  assert (HD : Forall (fun p => encodable b (snd p)) ws \/ Exists (fun p => ~ encodable b (snd p)) ws).
  { clear. induction ws as [|p ws IH]; [left; constructor|]. destruct (encodable_dec b (snd p)) as [Hp|Hp]; [|right; left; exact Hp]. destruct IH as [IH|IH]; [left; constructor; assumption | right; right; exact IH]. }
  assert (HBad : Exists (fun p => UncasedSpec.place (map snd R) (map fst (O ++ again s)) (fst p) = None \/ ~ encodable b (snd p)) ws -> (exists ws, norm_words E (tz_norm t) (tz_pre t) s ws /\ ws <> []) /\ forall fuel, snd (encode E fuel t s add) = Undef OobIndex).
  { intros HX. split; [exists (map snd ws); split; [exact HNW|]; destruct ws; [inversion HX | discriminate]|]. intros fuel. exact (proj2 (HA fuel) HX). }
  destruct (places_cases (UncasedSpec.place (map snd R) (map fst (O ++ again s))) ws) as [(ks & K1 & K2)|HX]; [destruct HD as [HD|HD]|].
  - left. destruct (HA 0) as [HA0 _]. destruct (HA0 ks K1 HD) as (core & C1 & C2 & C3 & C4). exists (map snd ws), (combine ks (map snd ws)), core. split; [exact HNW|]. assert (Hlen : length ks = length ws) by (symmetry; exact (Forall2_len _ _ _ K1)). split; [rewrite Forall_map; exact HD|]. split; [|split; [|auto]].
    + clear - Hlen. revert ks Hlen. induction ws as [|[a x] ws IH]; intros [|k ks] H; try discriminate; [reflexivity|]. cbn [map combine snd]. f_equal. apply IH. cbn [length] in H. lia.
    + clear - K1 HL. induction K1 as [|[a x] k ws ks Hk _ IH]; [constructor|]. cbn [map combine fst snd] in *. constructor; [exact (place_low _ _ _ _ _ Hk HL) | exact IH].
  - right. left. apply HBad. revert HD. apply Exists_impl. auto.
  - right. left. apply HBad. revert HX. apply Exists_impl. auto.
Qed.

(** *** The configuration and the history *)
Theorem C141_wordpiece : forall load parse path cfg text c t0 w toks E fuel0,
  source load path cfg (Some text) -> parse text = Some (render c) -> config_ok c -> build c = Ok t0 ->
  cf_model c = Some (CWordPiece w) -> dense (wp_vocab w) -> wp_vocab w <> [] -> (forall p, cf_pre c = Some p -> cuttable E p) ->
  cf_added c = Some toks -> Forall (fun x => at_special x = true) toks -> sane t0 -> (forall p, cf_post c = Some p -> specials_ok p) ->
  exists t, construct load parse path cfg = Ok t /\
  forall h s add, s <> [] -> forallb valid_cp s = true -> Forall (fun tok => absent E (cf_norm c) s (at_content tok)) (toks ++ given h) ->
  let outcome fuel := snd (encode E fuel (HistSpec.after E fuel0 t h) s add) in
  (exists ws l rs, norm_words E (cf_norm c) (cf_pre c) s ws /\ map snd l = ws /\ Forall (fun p => fst p < units s) l /\ rows_of_words (word_tokens w) 0 l rs /\
     ((Z.of_nat (length rs) < 2 ^ 31)%Z -> (forall k, k <= length rs -> (Z.of_nat (tz_post_length t0 add k) < 2 ^ 31)%Z) ->
      exists r, (forall fuel, length rs + 2 <= fuel -> outcome fuel = Ok r) /\ parallel r /\ finished t0 add rs (rows r))) \/
  ((exists ws, norm_words E (cf_norm c) (cf_pre c) s ws /\ ws <> []) /\ forall fuel, outcome fuel = Undef OobIndex) \/
  ((exists n, normalized_to E (cf_norm c) s n /\ forallb valid_cp n = false) /\ forall fuel, outcome fuel = Throw RangeError) \/
  (forall fuel, same_failure (run_norm E (cf_norm c) s) (outcome fuel)).
Proof.
  intros load parse path cfg text c t0 w toks E fuel0 Hs Hp Hok Hb Hm Hd Hne Hpre Ha Hspec Hsane Hsp.
  destruct (wp_setup load parse path cfg text c t0 w toks E fuel0 Hs Hp Hok Hb Hm Hd Hne Ha Hspec) as (t & Hc & Hu). exists t. split; [exact Hc|].
  intros h s add Hs0 Hv Habs outcome. destruct (Hu h) as (av & A1 & A2 & SN & SP & M1 & S). unfold outcome. remember (HistSpec.after E fuel0 t h) as u eqn:Eu. clear outcome Hu.
  rewrite <- SN in Habs. pose proof (fun fuel => C123_no_added_tokens E fuel u (MWordPiece w) (toks ++ given h) av s A1 M1 Hd Hne A2 Habs add) as HE. set (v := set_av u (Some (new_added_vocab []))) in *.
  assert (Sv : same_setup t0 v) by exact S. assert (Hpre' : forall p, tz_pre v = Some p -> cuttable E p) by (cbn [v set_av tz_pre]; rewrite SP; exact Hpre). rewrite <- SN, <- SP.
  destruct (wp_every E v w s add eq_refl M1 Hs0 Hv Hpre') as [(ws & l & core & L1 & L2 & L3 & L4 & L5 & L6)|[[L1 L2]|[[L1 L2]|L1]]].
  - left. exists ws, l, (rows core). split; [exact L1|]. split; [exact L2|]. split; [exact L3|]. split; [exact L6|]. intros B1 B2. destruct (bound_total E v t0 c s add core Hb Hok Sv Hsane Hsp L4 L5 B1 B2) as (r & R1 & R2). exists r. split; [intros fuel Hf; rewrite HE; exact (R1 fuel Hf) | exact R2].
  - right. left. split; [exact L1|]. intros fuel. rewrite HE. apply L2.
  - right. right. left. split; [exact L1|]. intros fuel. rewrite HE. apply L2.
  - right. right. right. intros fuel. rewrite HE. apply L1.
Qed.
Print Assumptions C141_wordpiece.
Theorem C141_bpe : forall load parse path cfg text c t0 vocab merges d unk pre suf fu bf ig b toks E fuel0,
  source load path cfg (Some text) -> parse text = Some (render c) -> config_ok c -> build c = Ok t0 -> pq_ok E ->
  cf_model c = Some (CBpe vocab merges d unk pre suf fu bf ig) -> new_bpe vocab merges d unk pre suf fu bf ig = Ok b -> dense vocab -> vocab <> [] -> (forall p, cf_pre c = Some p -> cuttable E p) ->
  cf_added c = Some toks -> Forall (fun x => at_special x = true) toks -> sane t0 -> (forall p, cf_post c = Some p -> specials_ok p) ->
  exists t, construct load parse path cfg = Ok t /\
  forall h s add, s <> [] -> forallb valid_cp s = true -> Forall (fun tok => absent E (cf_norm c) s (at_content tok)) (toks ++ given h) ->
  let outcome fuel := snd (encode E fuel (HistSpec.after E fuel0 t h) s add) in
  (exists ws l rs, norm_words E (cf_norm c) (cf_pre c) s ws /\ Forall (encodable b) ws /\ map snd l = ws /\ Forall (fun p => fst p < units s) l /\ rows_of_words (bpe_tokens b) 0 l rs /\
     ((Z.of_nat (length rs) < 2 ^ 31)%Z -> (forall k, k <= length rs -> (Z.of_nat (tz_post_length t0 add k) < 2 ^ 31)%Z) ->
      exists r, (forall fuel, length rs + 2 <= fuel -> outcome fuel = Ok r) /\ parallel r /\ finished t0 add rs (rows r))) \/
  ((exists ws, norm_words E (cf_norm c) (cf_pre c) s ws /\ ws <> []) /\ forall fuel, outcome fuel = Undef OobIndex) \/
  ((exists n, normalized_to E (cf_norm c) s n /\ forallb valid_cp n = false) /\ forall fuel, outcome fuel = Throw RangeError) \/
  (forall fuel, same_failure (run_norm E (cf_norm c) s) (outcome fuel)).
Proof.
  intros load parse path cfg text c t0 vocab merges d unk pre suf fu bf ig b toks E fuel0 Hs Hp Hok Hb Hq Hm Hbp Hd Hne Hpre Ha Hspec Hsane Hsp.
  destruct (bpe_setup load parse path cfg text c t0 vocab merges d unk pre suf fu bf ig b toks E fuel0 Hs Hp Hok Hb Hm Hbp Hd Hne Ha Hspec) as (t & Hc & Hu). exists t. split; [exact Hc|].
  intros h s add Hs0 Hv Habs outcome. destruct (Hu h) as (av & c' & A1 & A2 & SN & SP & M1 & M2 & S). unfold outcome. remember (HistSpec.after E fuel0 t h) as u eqn:Eu. clear outcome Hu.
  assert (Hvo : model_vocab (MBpe b c') = vocab) by (apply new_bpe_vocab in Hbp as (_ & Ev & _); exact Ev). rewrite <- Hvo in Hd, Hne, A2.
  rewrite <- SN in Habs. pose proof (fun fuel => C123_no_added_tokens E fuel u (MBpe b c') (toks ++ given h) av s A1 M1 Hd Hne A2 Habs add) as HE. set (v := set_av u (Some (new_added_vocab []))) in *.
  assert (Sv : same_setup t0 v) by exact S. assert (Hpre' : forall p, tz_pre v = Some p -> cuttable E p) by (cbn [v set_av tz_pre]; rewrite SP; exact Hpre). rewrite <- SN, <- SP.
  destruct (bpe_every E v vocab merges d unk pre suf fu bf ig b c' s add Hq Hbp eq_refl M1 M2 Hs0 Hv Hpre') as [(ws & l & core & L1 & L0 & L2 & L3 & L4 & L5 & L6)|[[L1 L2]|[[L1 L2]|L1]]].
  - left. exists ws, l, (rows core). split; [exact L1|]. split; [exact L0|]. split; [exact L2|]. split; [exact L3|]. split; [exact L6|]. intros B1 B2. destruct (bound_total E v t0 c s add core Hb Hok Sv Hsane Hsp L4 L5 B1 B2) as (r & R1 & R2). exists r. split; [intros fuel Hf; rewrite HE; exact (R1 fuel Hf) | exact R2].
  - right. left. split; [exact L1|]. intros fuel. rewrite HE. apply L2.
  - right. right. left. split; [exact L1|]. intros fuel. rewrite HE. apply L2.
  - right. right. right. intros fuel. rewrite HE. apply L1.
Qed.
Print Assumptions C141_bpe.
(** The words are determined by the text, the normalizer and the pre-tokenizer. *)
Theorem C141_determined : forall E norm pre s ws ws', norm_words E norm pre s ws -> norm_words E norm pre s ws' -> ws = ws'.
Proof.
  intros E norm pre s ws ws' (n & l & (x & X1 & X2) & _ & H1 & ->) (n' & l' & (x' & X1' & X2') & _ & H2 & ->). assert (x = x') by congruence. subst x'. f_equal. assert (HN : ns_text x = n) by exact X2. assert (HN' : ns_text x = n') by exact X2'. clear X2 X2'. subst n n'.
  unfold words_of in *. destruct pre as [p|]; [|congruence]. exact (PropsCut.cuts_fun E p _ _ _ H1 H2).
Qed.
Print Assumptions C141_determined.

(** The small tokenizer of C112 with a normalizer of three steps, on an emoji followed by "PLAY": the prepended "play" is reported to be the first unit of the text, and the end of the next word lies beyond the text. *)
Definition every_config : config :=
  mkConfig (cf_trunc base_config) (cf_pad base_config) (cf_added base_config) (Some (NSequence [NStrip true true; NBert true true true true; NPrepend (str "play ")])) (cf_pre base_config) (cf_model base_config) (cf_dec base_config) (cf_post base_config).
Definition every_text : wstr := [0x1F600]%N ++ str "PLAY".
Example C141_case : Forall (fun tok => absent test_env (cf_norm every_config) every_text (at_content tok)) (base_tokens ++ given base_history) /\
  norm_words test_env (cf_norm every_config) (cf_pre every_config) every_text [str "play"; [0x1F600]%N ++ str "play"] /\
  exists t, construct (fun _ => None) (fun _ => Some (render every_config)) [] (str "{}") = Ok t /\
  exists r, snd (encode test_env 20 (HistSpec.after test_env 10 t base_history) every_text true) = Ok r /\ en_tokens r = map str ["[CLS]"; "play"; "[UNK]"; "[SEP]"] /\ en_offsets r = [(0, 0); (0, 4); (4, 10); (0, 0)].
Proof.
  split; [|split].
  - apply Forall_forall. intros tok Ht. apply absentb_ok. assert (HA : forallb (fun tok => absentb test_env (cf_norm every_config) every_text (at_content tok)) (base_tokens ++ given base_history) = true) by (vm_compute; reflexivity). rewrite forallb_forall in HA. exact (HA tok Ht).
  - exists (str "play " ++ [0x1F600]%N ++ str "play"), [(0, str "play"); (5, [0x1F600]%N ++ str "play")]. split; [eexists; split; [vm_compute; reflexivity | reflexivity]|]. split; [reflexivity|]. split; [|reflexivity].
    exists [[(0, str "play"); (5, [0x1F600]%N ++ str "play")]]. split; [|reflexivity]. constructor; [|constructor].
    apply (bs_word _ _ 0 (str "play") ([32; 0x1F600]%N ++ str "play") [(5, [0x1F600]%N ++ str "play")]); [discriminate | repeat (constructor; [split; reflexivity|]); constructor | left; reflexivity|]. apply bs_space; [reflexivity|].
    apply (bs_word _ _ 5 ([0x1F600]%N ++ str "play") [] []); [discriminate | repeat (constructor; [split; reflexivity|]); constructor | exact I | constructor].
  - eexists. split; [vm_compute; reflexivity|]. eexists. split; [vm_compute; reflexivity|]. split; reflexivity.
Qed.
(** The other three outcomes: a Chinese character drives the last word out of the table; a library that lower-cases to a surrogate; a library that does not decompose. *)
Example C141_bad_cases : exists t, construct (fun _ => None) (fun _ => Some (render every_config)) [] (str "{}") = Ok t /\
  snd (encode test_env 20 (HistSpec.after test_env 10 t base_history) ([0x4E2D; 32]%N ++ str "PLAY") true) = Undef OobIndex /\
  (exists n, normalized_to surrogate_env (cf_norm every_config) (str "a") n /\ forallb valid_cp n = false) /\ snd (encode surrogate_env 20 t (str "a") true) = Throw RangeError /\
  run_norm broken_env (cf_norm every_config) (str "a") = Throw RuntimeError /\ snd (encode broken_env 20 t (str "a") true) = Throw RuntimeError.
Proof.
  eexists. split; [vm_compute; reflexivity|]. split; [vm_compute; reflexivity|]. split; [|split; [vm_compute; reflexivity|split; vm_compute; reflexivity]].
  eexists. split; [eexists; split; [vm_compute; reflexivity | reflexivity] | reflexivity].
Qed.
