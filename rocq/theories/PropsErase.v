(** C134: BERT tokenizers on texts with characters to delete. Specification: EraseSpec.v. *)
From Verif Require Import Base BaseFacts Unicode UnicodeProofs Common Utils PostProcessor Decoder Normalizer PreTokenizer WordPiece Bpe AddedVocab Tokenizer Spec
  NormSpec NormProofs DecSpec PreSpec PreProofs AvSpec AvProofs ExtractProofs TzSpec TzProofs WpSpec WpProofs OffSpec OffProofs RefSpec RefProofs TextProofs BpeSpec BpeProofs BpeWord UnkSpec
  BpeRefSpec PropsBpe PropsUnknown PropsReference PropsBpeText Env CutSpec PropsCut DropSpec StripSpec PropsStrip AccentSpec PropsAccent BertSpec PropsBertOffsets PropsLlama PropsByteDec FormSpec PropsForm UncasedSpec PropsNorm PropsDeleted PropsUncased EraseSpec.
From Coq Require Import ZifyBool ZifyNat ZifyN.
Import ListNotations.

Definition spanned (ks : list nat) : list (nat * nat) := map (fun k => (k, S k)) ks.
Lemma spanned_app a b : spanned (a ++ b) = spanned a ++ spanned b. Proof. apply map_app. Qed.
Lemma spanned_firstn a l : firstn a (spanned l) = spanned (firstn a l). Proof. apply firstn_map. Qed.
Lemma spanned_skipn a l : skipn a (spanned l) = spanned (skipn a l). Proof. apply skipn_map. Qed.
Lemma erase_exact W l : forall ns gone k b ks, worn ns W gone k b -> Sorted.StronglySorted lt l -> Forall (fun i => b <= i) l -> deletions_fit W gone k l -> ns_offsets ns = spanned ks ->
  exists ns' , apply_erase ns l = Ok ns' /\ map snd (ns_ranges ns') = entries_left (map snd (ns_ranges ns)) l /\ ns_offsets ns' = spanned (bytes_left W k l ks) /\ length (ns_ranges ns') + length l = length (ns_ranges ns) /\
    length (ns_offsets ns') + list_sum (map snd (ns_ranges ns)) = length (ns_offsets ns) + list_sum (map snd (ns_ranges ns')).
Proof.
  induction l as [|i l IH]; intros ns gone k b ks HT HS HF HD HK; [exists ns; cbn; repeat split; auto; lia|].
  inversion HS as [|? ? HS' Hlt]; subst. pose proof (Forall_inv HF) as Hi. cbn beta in Hi. cbn [deletions_fit] in HD. destruct HD as (D1 & D2 & D3).
  destruct (erase_worn ns W gone k b i HT Hi) as [H1 _]. destruct (H1 (conj D1 D2)) as (n1 & E1 & W1). destruct HT as [Ho Hr]. pose proof (sum_firstn_S W (i + k) D1) as HSum.
  assert (Hri : nth_error (ns_ranges ns) i = Some (list_sum (firstn (i + k) W), nth (i + k) W 0)) by (rewrite (Hr i Hi); replace (i + k <? length W) with true by lia; reflexivity).
  assert (Hlen : i < length (ns_ranges ns)) by (apply nth_error_Some; congruence).
  assert (En : n1 = mkNs (ns_text ns) (firstn i (ns_ranges ns) ++ skipn (S i) (ns_ranges ns)) (firstn (list_sum (firstn (i + k) W)) (ns_offsets ns) ++ skipn (list_sum (firstn (i + k) W) + nth (i + k) W 0) (ns_offsets ns))).
  { unfold transform, vat in E1. rewrite Hri in E1. cbn [bind] in E1. unfold verase at 1 in E1. replace (list_sum (firstn (i + k) W) <=? list_sum (firstn (i + k) W) + nth (i + k) W 0) with true in E1 by lia.
    replace (list_sum (firstn (i + k) W) + nth (i + k) W 0 <=? length (ns_offsets ns)) with true in E1 by lia. cbn [andb bind] in E1. rewrite verase1 in E1 by exact Hlen. cbn [bind] in E1. congruence. }
  assert (K1 : ns_offsets n1 = spanned (firstn (list_sum (firstn (i + k) W)) ks ++ skipn (list_sum (firstn (i + k) W) + nth (i + k) W 0) ks)) by (rewrite En; cbn [ns_offsets]; rewrite HK, spanned_app, spanned_firstn, spanned_skipn; reflexivity).
  destruct (IH n1 _ _ _ _ W1 HS' Hlt D3 K1) as (ns' & A1 & A2 & A3 & A4 & A5). exists ns'. cbn [apply_erase]. rewrite E1. cbn [bind]. split; [exact A1|].
  assert (R1 : map snd (ns_ranges n1) = firstn i (map snd (ns_ranges ns)) ++ skipn (S i) (map snd (ns_ranges ns))) by (rewrite En; cbn [ns_ranges]; rewrite map_app, firstn_map, skipn_map; reflexivity).
  split; [rewrite A2, R1; reflexivity|]. split; [exact A3|].
  assert (L1 : length (ns_ranges n1) + 1 = length (ns_ranges ns)) by (rewrite En; cbn [ns_ranges]; rewrite app_length, firstn_length, skipn_length; lia). split; [cbn [length]; lia|].
  assert (L2 : length (ns_offsets n1) + nth (i + k) W 0 = length (ns_offsets ns)) by (rewrite En; cbn [ns_offsets]; rewrite app_length, firstn_length, skipn_length; lia).
  assert (L3 : list_sum (map snd (ns_ranges n1)) + nth (i + k) W 0 = list_sum (map snd (ns_ranges ns))).
  { rewrite R1. apply nth_error_split in Hri as (a & c & E0 & <-). rewrite E0, map_app. cbn [map snd]. rewrite firstn_app, skipn_app, !map_length, Nat.sub_diag. replace (S (length a) - length a) with 1 by lia.
    rewrite (firstn_all2 (map snd a)), (skipn_all2 (map snd a)) by (rewrite map_length; lia). cbn [firstn skipn]. rewrite app_nil_r. cbn [app]. rewrite !list_sum_app. change (list_sum (nth (length a + k) W 0 :: map snd c)) with (nth (length a + k) W 0 + list_sum (map snd c)). lia. }
  lia.
Qed.
Lemma widths_bytes s : forallb valid_cp s = true -> widths s = unit_bytes s.
Proof. intros Hv. rewrite <- unit_sizes_bytes by exact Hv. reflexivity. Qed.
Lemma units_of_blocks : forall z k, tab_offsets (numbered k z) = spanned (units_of_bytes z k).
Proof.
  induction z as [|n z IH]; intros k; [reflexivity|]. cbn [numbered tab_offsets flat_map fst snd units_of_bytes]. fold (tab_offsets (numbered (S k) z)). rewrite spanned_app, IH. f_equal. induction n as [|n IHn]; [reflexivity|]. cbn [repeat spanned map]. fold (spanned (repeat k n)). rewrite IHn. reflexivity.
Qed.
Lemma rebase_ranked : forall l p c, rebase_offsets (p, S p) (c, S c) (spanned l) = spanned (ranked_from p c l).
Proof.
  induction l as [|x l IH]; intros p c; [reflexivity|]. cbn [spanned map rebase_offsets ranked_from fst snd]. fold (spanned l). destruct (Nat.eqb_spec p x) as [->|H].
  - rewrite Nat.eqb_refl. cbn [andb]. rewrite IH. reflexivity.
  - cbn [andb]. rewrite Nat.add_1_r, IH. reflexivity.
Qed.
Lemma renumbered_ranked l : renumbered (spanned l) (spanned (ranked l)).
Proof. unfold renumbered. destruct l as [|x l]; [reflexivity|]. cbn [spanned map ranked]. fold (spanned l) (spanned (ranked_from x 0 l)). rewrite rebase_ranked. reflexivity. Qed.
Lemma spanned_fst l : map fst (spanned l) = l. Proof. unfold spanned. rewrite map_map. apply map_id. Qed.
Lemma cleaned_valid E s : forallb valid_cp s = true -> forallb valid_cp (cleaned E s) = true.
Proof.
  intros Hv. unfold cleaned. apply forallb_forall. intros c Hc. apply in_map_iff in Hc as (x & <- & Hx). destruct (blank E x); [reflexivity|]. apply filter_In in Hx. apply (proj1 (forallb_forall _ _) Hv). apply Hx.
Qed.
Lemma positions_count f s : forall i, length (positions f s i) + length (filter (fun c => negb (f c)) s) = length s.
Proof. induction s as [|c s IH]; intros i; [reflexivity|]. cbn [positions filter]. specialize (IH (S i)). destruct (f c); cbn [negb length]; lia. Qed.
(** After the cleaning *)
Lemma clean_exact E s : s <> [] -> forallb valid_cp s = true -> deletions_fit (unit_bytes s) 0 0 (doomed E s) ->
  exists n1, do_clean_text E (new_nstring s) = Ok n1 /\ ns_text n1 = cleaned E s /\ map snd (ns_ranges n1) = entries_left (unit_bytes s) (doomed E s) /\ ns_offsets n1 = spanned (bytes_left (unit_bytes s) 0 (doomed E s) (units_of_bytes (unit_bytes s) 0)) /\
    length (cleaned E s) <= length (ns_ranges n1) /\ length (ns_offsets n1) = list_sum (map snd (ns_ranges n1)) /\ units (cleaned E s) <= length (ns_ranges n1).
Proof.
  intros Hne Hv Hd. assert (Ht : ns_text (new_nstring s) = s) by (apply (fresh_packed s)). assert (HN : new_nstring s = numbered_ns (unit_bytes s) [] s) by (rewrite fresh_numbered, unit_sizes_bytes by exact Hv; reflexivity).
  pose proof (fresh_worn s) as HW. rewrite widths_bytes in HW by exact Hv.
  assert (HO : ns_offsets (new_nstring s) = spanned (units_of_bytes (unit_bytes s) 0)) by (rewrite HN; cbn [numbered_ns ns_offsets]; rewrite app_nil_r; apply units_of_blocks).
  assert (HR : map snd (ns_ranges (new_nstring s)) = unit_bytes s) by (rewrite HN; cbn [numbered_ns ns_ranges]; rewrite map_snd_ranges, numbered_snd; reflexivity).
  destruct (erase_exact (unit_bytes s) (doomed E s) (new_nstring s) 0 0 0 (units_of_bytes (unit_bytes s) 0) HW (positions_sorted _ _ 0)) as (n1 & A1 & A2 & A3 & A4 & A5); [apply Forall_forall; intros; lia | exact Hd | exact HO|].
  exists (set_text n1 (cleaned E s)). split; [|split; [reflexivity|]].
  { unfold do_clean_text. rewrite Ht, clean_erase. replace (positions (removed_by_clean E) s 0) with (doomed E s) by (apply positions_ext; intros; symmetry; apply unwanted_ok). rewrite A1. cbn [bind]. rewrite cleaned_ok. reflexivity. }
  cbn [set_text ns_ranges ns_offsets]. rewrite A2, HR. split; [reflexivity|]. split; [exact A3|]. pose proof (positions_count (unwanted E) s 0) as HC. fold (doomed E s) in HC.
  assert (HL : length (ns_ranges (new_nstring s)) = length (unit_bytes s)) by (rewrite <- HR, map_length; reflexivity).
  assert (Hs : length s <= length (unit_bytes s)) by (unfold unit_bytes; clear; induction s as [|c s IH]; cbn [flat_map length]; [lia|]; rewrite app_length; destruct (c <? 0x10000)%N; cbn [length]; lia).
  assert (Hb : length (ns_offsets (new_nstring s)) = list_sum (unit_bytes s)) by (destruct HW as [HW _]; lia).
  split; [unfold cleaned; rewrite map_length; lia|]. split; [rewrite HR, A2, HR in A5; lia|].
  assert (Hu : units (cleaned E s) + length (doomed E s) <= length (unit_bytes s)); [|lia]. unfold doomed, cleaned. generalize 0. clear - Hv. induction s as [|c s IH]; intros k; [cbn; lia|]. cbn [forallb] in Hv. apply andb_prop in Hv as [Hc Hv]. specialize (IH Hv (S k)). cbn [positions filter]. unfold unit_bytes. cbn [flat_map]. fold (unit_bytes s). rewrite app_length.
  destruct (unwanted E c); cbn [negb map length]; [destruct (c <? 0x10000)%N; cbn [length]; lia|]. match goal with |- units (?x :: ?l) + _ <= _ => change (x :: l) with ([x] ++ l) end. rewrite units_app.
  assert (units [if blank E c then 32%N else c] <= length (if (c <? 0x10000)%N then [width c] else [4; 4])); [|lia].
  destruct (blank E c); [change (units [32%N]) with 1; destruct (c <? 0x10000)%N; cbn [length]; lia|]. unfold units. cbn [flat_map]. rewrite app_nil_r. unfold utf16_enc. destruct (c <? 0x10000)%N; cbn [length]; lia.
Qed.
Lemma chinese_nothing ns : Forall (fun c => cjk_seen c = false) (ns_text ns) -> do_handle_chinese_chars ns = Ok ns.
Proof.
  intros H. unfold do_handle_chinese_chars. assert (Hin : forall x, In x (ns_text ns) -> is_chinese_char x = false) by (intros x Hx; rewrite chinese_cjk; exact (proj1 (Forall_forall _ _) H x Hx)).
  assert (Hc : chinese_ids (ns_text ns) 0 = []). { generalize 0. clear - Hin. induction (ns_text ns) as [|x c IH]; intros i; [reflexivity|]. cbn [chinese_ids]. rewrite (Hin x) by (left; reflexivity). apply IH. intros; apply Hin; right; assumption. }
  rewrite Hc. cbn [apply_pad bind]. pose proof (apply_changes_spec (ns_text ns) []) as Ha. cbn [app length] in Ha. rewrite Ha. cbn [bind]. rewrite spaced_none by exact Hin. rewrite set_text_same. reflexivity.
Qed.
Lemma erased_run E ch st lo s n e : s <> [] -> forallb valid_cp s = true -> deletions_fit (unit_bytes s) 0 0 (doomed E s) -> (ch = true -> Forall (fun c => cjk_seen c = false) (cleaned E s)) -> erased_result E st lo s n e ->
  exists R O0 O, normalize E (NBert true ch st lo) (new_nstring s) = Ok (mkNs n R O0) /\ map snd R = e /\ renumbered O0 O /\ map fst (O ++ again s) = bytes_after E s.
Proof.
  intros Hne Hv Hd Hch HR. destruct (clean_exact E s Hne Hv Hd) as (n1 & A1 & A2 & A3 & A4 & A5 & _). cbn [normalize]. unfold bert_normalize. rewrite A1. cbn [bind].
  assert (HC : (if ch then do_handle_chinese_chars n1 else Ok n1) = Ok n1) by (destruct ch; [apply chinese_nothing; rewrite A2; apply Hch; reflexivity | reflexivity]). rewrite HC. cbn [bind].
  assert (HB : map fst (spanned (ranked (bytes_left (unit_bytes s) 0 (doomed E s) (units_of_bytes (unit_bytes s) 0))) ++ again s) = bytes_after E s) by (rewrite map_app, spanned_fst, again_fst; reflexivity).
  unfold erased_result in HR. cbn zeta in HR. destruct (st || lo) eqn:Esl.
  - destruct HR as (r & HN & Hf & -> & ->). unfold do_strip_accents, normalize_nf. rewrite A2, (fixed _ (cleaned_valid E s Hv)), HN, grow_changed by lia. cbn [skipn].
    destruct (apply_grow_flags (changed (cleaned E s) r) n1 [] (ns_ranges n1) 0 0) as (ns' & B & H1 & H2 & H3 & H4 & H5); [reflexivity | pose proof (changed_length (cleaned E s) r); lia | reflexivity|]. rewrite H1. cbn [bind]. cbn [app] in H4. rewrite A3 in H5. cbn [set_text ns_text].
    destruct (apply_shrink_fit E r (set_text ns' r) [] B 0 0) as (n3 & C & G1 & G2 & G3 & G4 & G5); [exact H4 | rewrite H5; exact Hf | reflexivity|]. rewrite G1. cbn [bind app] in *. exists C, (ns_offsets n1), (spanned (ranked (bytes_left (unit_bytes s) 0 (doomed E s) (units_of_bytes (unit_bytes s) 0)))).
    split; [|split; [rewrite G5, H5; reflexivity | split; [rewrite A4; apply renumbered_ranked | exact HB]]].
    cbn [set_text ns_offsets] in G3. rewrite H3 in G3. destruct lo; cbn [do_lowercase]; unfold do_lowercase; cbn [set_text ns_text ns_ranges ns_offsets]; unfold set_text; rewrite G3, G4; reflexivity.
  - destruct HR as [-> ->]. apply orb_false_elim in Esl as [-> ->]. cbn [bind]. exists (ns_ranges n1), (ns_offsets n1), (spanned (ranked (bytes_left (unit_bytes s) 0 (doomed E s) (units_of_bytes (unit_bytes s) 0)))). split; [rewrite <- A2; destruct n1; reflexivity|]. split; [exact A3|]. split; [rewrite A4; apply renumbered_ranked | exact HB].
Qed.

(** ** C134 *)
Theorem C134_wordpiece : forall E fuel t w ch st lo s n e l add, tz_model t = Some (MWordPiece w) -> tz_norm t = Some (NBert true ch st lo) -> s <> [] -> forallb valid_cp s = true ->
  deletions_fit (unit_bytes s) 0 0 (doomed E s) -> (ch = true -> Forall (fun c => cjk_seen c = false) (cleaned E s)) -> erased_result E st lo s n e -> n <> [] -> forallb valid_cp n = true -> nothing_added t s n -> words_of E (tz_pre t) n l ->
  (forall ks, Forall2 (fun p k => place e (bytes_after E s) (fst p) = Some k) l ks ->
     exists r, snd (encode E fuel (bare t) s add) = Ok r /\ en_overflowing r = [] /\ flat_parallel r /\ rows_of_words (word_tokens w) 0 (combine ks (map snd l)) (rows r)) /\
  (Exists (fun p => place e (bytes_after E s) (fst p) = None) l -> snd (encode E fuel t s add) = Undef OobIndex).
Proof.
  intros E fuel t w ch st lo s n e l add Hm Hno Hne Hv Hd Hch HB Hnn Hvn Ha HW. destruct (erased_run E ch st lo s n e Hne Hv Hd Hch HB) as (R & O0 & O & H1 & <- & H3 & <-).
  apply (wp_placed E s n R O0 O Hne Hv H3 Hnn Hvn fuel t w l add Hm Ha); [rewrite Hno; exact H1 | exact HW].
Qed.
Print Assumptions C134_wordpiece.
Theorem C134_bpe : forall E fuel t vocab merges d unk pre suf fu bf ig b c ch st lo s n e l add, pq_ok E -> new_bpe vocab merges d unk pre suf fu bf ig = Ok b ->
  tz_model t = Some (MBpe b c) -> reach_cache E b c -> tz_norm t = Some (NBert true ch st lo) -> s <> [] -> forallb valid_cp s = true ->
  deletions_fit (unit_bytes s) 0 0 (doomed E s) -> (ch = true -> Forall (fun c => cjk_seen c = false) (cleaned E s)) -> erased_result E st lo s n e -> n <> [] -> forallb valid_cp n = true -> nothing_added t s n -> words_of E (tz_pre t) n l ->
  (forall ks, Forall2 (fun p k => place e (bytes_after E s) (fst p) = Some k) l ks -> Forall (fun p => encodable b (snd p)) l ->
     exists r, snd (encode E fuel (bare t) s add) = Ok r /\ en_overflowing r = [] /\ flat_parallel r /\ rows_of_words (bpe_tokens b) 0 (combine ks (map snd l)) (rows r)) /\
  (Exists (fun p => place e (bytes_after E s) (fst p) = None \/ ~ encodable b (snd p)) l -> snd (encode E fuel t s add) = Undef OobIndex).
Proof.
  intros E fuel t vocab merges d unk pre suf fu bf ig b c ch st lo s n e l add Hq Hb Hm Hr Hno Hne Hv Hd Hch HB Hnn Hvn Ha HW. destruct (erased_run E ch st lo s n e Hne Hv Hd Hch HB) as (R & O0 & O & H1 & <- & H3 & <-).
  apply (bpe_placed E s n R O0 O Hne Hv H3 Hnn Hvn fuel t vocab merges d unk pre suf fu bf ig b c l add Hq Hb Hm Hr Ha); [rewrite Hno; exact H1 | exact HW].
Qed.
Print Assumptions C134_bpe.
(** A deletion out of bounds. *)
Theorem C134_undefined : forall E fuel t av ch st lo s add, tz_norm t = Some (NBert true ch st lo) -> tz_av t = Some av -> s <> [] -> forallb valid_cp s = true ->
  no_added_token (av_trie_raw av) (flat_map utf16_enc s) -> ~ deletions_fit (unit_bytes s) 0 0 (doomed E s) -> snd (encode E fuel t s add) = Undef OobIndex.
Proof. intros E fuel t av ch st lo s add Hno Hav Hne Hv Hr HD. apply (C110_undefined E fuel t av ch st lo s add Hno Hav Hne Hv Hr). rewrite widths_bytes by exact Hv. exact HD. Qed.
Print Assumptions C134_undefined.
Lemma deletions_fit_dec W : forall ps gone j, deletions_fit W gone j ps \/ ~ deletions_fit W gone j ps.
Proof.
  induction ps as [|p ps IH]; intros gone j; [left; exact I|]. cbn [deletions_fit]. destruct (IH (gone + nth (p + j) W 0) (S j)) as [H|H]; [|right; tauto].
  destruct (lt_dec (p + j) (length W)); [|right; tauto]. destruct (le_dec (list_sum (firstn (p + j + 1) W) + gone) (list_sum W)); [left|right]; tauto.
Qed.
Lemma entries_left_pos ps : forall z, Forall (fun n => 0 < n) z -> Forall (fun n => 0 < n) (entries_left z ps).
Proof.
  induction ps as [|p ps IH]; intros z H; [exact H|]. cbn [entries_left fold_left]. apply IH. apply Forall_app. split; apply Forall_forall; intros x Hx; apply (proj1 (Forall_forall _ _) H); [rewrite <- (firstn_skipn p z) | rewrite <- (firstn_skipn (S p) z)]; apply in_or_app; auto.
Qed.
Lemma sum_below : forall e j, Forall (fun n => 0 < n) e -> j < length e -> list_sum (firstn j e) < list_sum e.
Proof.
  induction e as [|x e IH]; intros [|j] H Hj; cbn [length] in Hj; [lia | lia | |]; pose proof (Forall_inv H) as Hx; cbn beta in Hx; change (list_sum (x :: e)) with (x + list_sum e); [cbn; lia|].
  rewrite firstn_cons. change (list_sum (x :: firstn j e)) with (x + list_sum (firstn j e)). pose proof (IH j (Forall_inv_tail H)). lia.
Qed.
Lemma ranked_from_length : forall l p c, length (ranked_from p c l) = length l.
Proof. induction l as [|x l IH]; intros p c; [reflexivity|]. cbn [ranked_from]. destruct (p =? x); cbn [length]; rewrite IH; reflexivity. Qed.
Lemma ranked_length l : length (ranked l) = length l. Proof. destruct l; [reflexivity|]. cbn [ranked length]. rewrite ranked_from_length. reflexivity. Qed.
(** A tokenizer which does not strip accents or lower-case is defined on such a text exactly when the deletions fit. *)
Theorem C134_cased : forall E fuel t w ch s add, tz_model t = Some (MWordPiece w) -> tz_norm t = Some (NBert true ch false false) -> (forall p, tz_pre t = Some p -> cuttable E p /\ keeps_characters E p) ->
  s <> [] -> forallb valid_cp s = true -> cleaned E s <> [] -> (ch = true -> Forall (fun c => cjk_seen c = false) (cleaned E s)) -> nothing_added t s (cleaned E s) ->
  ((exists r, snd (encode E fuel (bare t) s add) = Ok r) <-> deletions_fit (unit_bytes s) 0 0 (doomed E s)) /\
  (forall r, snd (encode E fuel (bare t) s add) = Ok r -> exists l ks, words_of E (tz_pre t) (cleaned E s) l /\ Forall2 (fun p k => place (entries_left (unit_bytes s) (doomed E s)) (bytes_after E s) (fst p) = Some k) l ks /\
     rows_of_words (word_tokens w) 0 (combine ks (map snd l)) (rows r)).
Proof.
  intros E fuel t w ch s add Hm Hno Hp Hne Hv Hnn Hch Ha.
  assert (HD : deletions_fit (unit_bytes s) 0 0 (doomed E s) -> exists l ks r, words_of E (tz_pre t) (cleaned E s) l /\ Forall2 (fun p k => place (entries_left (unit_bytes s) (doomed E s)) (bytes_after E s) (fst p) = Some k) l ks /\
     snd (encode E fuel (bare t) s add) = Ok r /\ rows_of_words (word_tokens w) 0 (combine ks (map snd l)) (rows r)).
  { intros Hd. destruct (clean_exact E s Hne Hv Hd) as (n1 & _ & _ & A3 & A4 & _ & A6 & A7).
    assert (HL : length (entries_left (unit_bytes s) (doomed E s)) = length (ns_ranges n1)) by (rewrite <- A3, map_length; reflexivity). rewrite <- HL in A7.
    destruct (words_inside E t (cleaned E s) _ Hnn (cleaned_valid E s Hv) Hp A7) as (l & HW & HI). rewrite A3 in A6.
    assert (HK : exists ks, Forall2 (fun p k => place (entries_left (unit_bytes s) (doomed E s)) (bytes_after E s) (fst p) = Some k) l ks).
    { clear - HI A4 A6. induction HI as [|p l Hp _ [ks IH]]; [exists []; constructor|]. unfold place at 1. 
      assert (HB : list_sum (firstn (fst p) (entries_left (unit_bytes s) (doomed E s))) < length (bytes_after E s)).
      { unfold bytes_after. cbn zeta. rewrite app_length, ranked_length. rewrite A4 in A6. unfold spanned in A6. rewrite map_length in A6. pose proof (sum_below (entries_left (unit_bytes s) (doomed E s)) (fst p) (entries_left_pos _ _ (bytes_pos s)) Hp). lia. }
      destruct (nth_error (bytes_after E s) (list_sum (firstn (fst p) (entries_left (unit_bytes s) (doomed E s))))) as [k|] eqn:Ek; [|apply nth_error_None in Ek; lia]. exists (k :: ks). constructor; [|exact IH].
      unfold place. replace (fst p <? length (entries_left (unit_bytes s) (doomed E s))) with true by lia. exact Ek. }
    destruct HK as [ks HK]. destruct (C134_wordpiece E fuel t w ch false false s (cleaned E s) (entries_left (unit_bytes s) (doomed E s)) l add Hm Hno Hne Hv Hd Hch (conj eq_refl eq_refl) Hnn (cleaned_valid E s Hv) Ha HW) as [H _].
    destruct (H ks HK) as (r & R1 & _ & _ & R4). exists l, ks, r. auto. }
  assert (HU : forall r, snd (encode E fuel (bare t) s add) = Ok r -> deletions_fit (unit_bytes s) 0 0 (doomed E s)).
  { intros r Hr. destruct (deletions_fit_dec (unit_bytes s) (doomed E s) 0 0) as [H|H]; [exact H|]. exfalso. destruct Ha as (av & Hav & Ha1 & _).
    rewrite (C134_undefined E fuel (bare t) av ch false false s add Hno Hav Hne Hv Ha1 H) in Hr. discriminate. }
  split; [split|].
  - intros [r Hr]. exact (HU r Hr).
  - intros Hd. destruct (HD Hd) as (l & ks & r & _ & _ & Hr & _). exists r. exact Hr.
  - intros r Hr. destruct (HD (HU r Hr)) as (l & ks & r' & H1 & H2 & H3 & H4). assert (r' = r) by congruence. subst r'. exists l, ks. auto.
Qed.
Print Assumptions C134_cased.

(** *** Cases *)
(** NUL, e-acute, space, NUL, "play a", uncased: two deletions and one decomposition. The cleaned and stripped text is "e play a"; "play" starts at unit 4 of the given text, at 2 of the result, and is reported at 1. *)
Example C134_case : let s := ([0; 233; 32; 0]%N ++ str "play a") in let n := str "e play a" in let e := repeat 1 8 in let t := strip_tz (NBert true true true true) in
  forallb valid_cp s = true /\ doomed test_env s = [0; 3] /\ deletions_fit (unit_bytes s) 0 0 (doomed test_env s) /\ Forall (fun c => cjk_seen c = false) (cleaned test_env s) /\
  entries_left (unit_bytes s) (doomed test_env s) = [2; 1; 1; 1; 1; 1; 1; 1] /\ erased_result test_env true true s n e /\ nothing_added t s n /\
  words_of test_env (Some TBert) n [(0, str "e"); (2, str "play"); (7, str "a")] /\ Forall2 (fun p k => place e (bytes_after test_env s) (fst p) = Some k) [(0, str "e"); (2, str "play"); (7, str "a")] [0; 1; 6] /\
  exists r, snd (encode test_env 10 t s false) = Ok r /\ en_tokens r = [str "[UNK]"; str "play"; str "[UNK]"] /\ en_offsets r = [(0, 1); (1, 5); (6, 7)].
Proof.
  cbn zeta. split; [reflexivity|]. split; [reflexivity|]. split; [vm_compute; lia|]. split; [repeat constructor|]. split; [reflexivity|].
  split; [exists ([0x65; 0x301]%N ++ str " play a"); split; [reflexivity|]; split; [|split; reflexivity]|].
  { intros i c Hi Hc. vm_compute. do 9 (destruct i as [|i]; [lia|]). destruct i; discriminate. }
  split; [apply strip_tz_plain|]. split.
  { exists [[(0, str "e"); (2, str "play"); (7, str "a")]]. split; [|reflexivity]. constructor; [|constructor].
    apply (bs_word _ _ 0 (str "e") (str " play a") [(2, str "play"); (7, str "a")]); [discriminate | repeat (constructor; [split; reflexivity|]); constructor | left; reflexivity|]. apply bs_space; [reflexivity|].
    apply (bs_word _ _ 2 (str "play") (str " a") [(7, str "a")]); [discriminate | repeat (constructor; [split; reflexivity|]); constructor | left; reflexivity|]. apply bs_space; [reflexivity|].
    apply (bs_word _ _ 7 (str "a") [] []); [discriminate | repeat (constructor; [split; reflexivity|]); constructor | exact I | constructor]. }
  split; [repeat (constructor; [reflexivity|]); constructor|]. eexists. split; [vm_compute; reflexivity | split; reflexivity].
Qed.
(** Cased: an emoji, a U+FFFD to delete, then "play": the deletion takes an entry of one byte for a character of three. Two NULs at the end do not fit. *)
Example C134_cased_case : let s := ([0x1F600; 32; 0xFFFD; 32]%N ++ str "play") in let t := strip_tz (NBert true true false false) in
  forallb valid_cp s = true /\ doomed test_env s = [2] /\ deletions_fit (unit_bytes s) 0 0 (doomed test_env s) /\ entries_left (unit_bytes s) (doomed test_env s) = [4; 4; 3; 1; 1; 1; 1; 1] /\ cleaned test_env s = ([0x1F600; 32; 32]%N ++ str "play") /\
  Forall (fun c => cjk_seen c = false) (cleaned test_env s) /\ nothing_added t s (cleaned test_env s) /\ (forall p, tz_pre t = Some p -> cuttable test_env p /\ keeps_characters test_env p) /\
  (exists r, snd (encode test_env 10 t s false) = Ok r /\ en_offsets r = [(0, 2); (4, 8)]) /\
  (let u := [97; 0; 0]%N in cleaned test_env u = [97%N] /\ ~ deletions_fit (unit_bytes u) 0 0 (doomed test_env u) /\ snd (encode test_env 10 t u false) = Undef OobIndex).
Proof.
  cbn zeta. split; [reflexivity|]. split; [reflexivity|]. split; [vm_compute; lia|]. split; [reflexivity|]. split; [reflexivity|]. split; [repeat constructor|]. split; [apply strip_tz_plain|].
  split; [intros p Hp; injection Hp as <-; split; exact I|]. split; [eexists; split; [vm_compute; reflexivity | reflexivity]|]. split; [reflexivity|]. split; [vm_compute; lia | vm_compute; reflexivity].
Qed.
(** BPE with NULs before two of the words: the place of the last word is two units too far to the left. *)
Example C134_bpe_case : let s := [0; 97; 32; 0; 97; 32; 97]%N in let n := str "a a a" in let l := [(0, str "a"); (2, str "a"); (4, str "a")] in
  deletions_fit (unit_bytes s) 0 0 (doomed test_env s) /\ erased_result test_env true true s n [1; 1; 1; 1; 1] /\ words_of test_env (Some TBert) n l /\ Forall2 (fun p k => place [1; 1; 1; 1; 1] (bytes_after test_env s) (fst p) = Some k) l [0; 2; 4] /\
  Forall (fun p => encodable ll_bpe (snd p)) l /\ exists r, snd (encode test_env 10 (zh_bpe_tz true) s false) = Ok r /\ en_offsets r = [(0, 1); (2, 3); (4, 5)].
Proof.
  cbn zeta. split; [vm_compute; lia|]. split; [exists (str "a a a"); split; [reflexivity|]; split; [|split; reflexivity]|].
  { intros i c Hi Hc. vm_compute. do 5 (destruct i as [|i]; [lia|]). destruct i; discriminate. }
  split.
  { exists [[(0, str "a"); (2, str "a"); (4, str "a")]]. split; [|reflexivity]. constructor; [|constructor].
    apply (bs_word _ _ 0 (str "a") (str " a a") [(2, str "a"); (4, str "a")]); [discriminate | repeat (constructor; [split; reflexivity|]); constructor | left; reflexivity|]. apply bs_space; [reflexivity|].
    apply (bs_word _ _ 2 (str "a") (str " a") [(4, str "a")]); [discriminate | repeat (constructor; [split; reflexivity|]); constructor | left; reflexivity|]. apply bs_space; [reflexivity|].
    apply (bs_word _ _ 4 (str "a") [] []); [discriminate | repeat (constructor; [split; reflexivity|]); constructor | exact I | constructor]. }
  split; [repeat (constructor; [reflexivity|]); constructor|]. split; [|eexists; split; [vm_compute; reflexivity | reflexivity]].
  do 3 (constructor; [right; vm_compute; lia|]). constructor.
Qed.
