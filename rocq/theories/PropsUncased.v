(** C133: BERT tokenizers on every text without characters to delete. Specification: UncasedSpec.v, FormSpec.v, BertSpec.v, CutSpec.v. *)
From Verif Require Import Base BaseFacts Unicode UnicodeProofs Common Utils PostProcessor Decoder Normalizer PreTokenizer WordPiece Bpe AddedVocab Tokenizer Spec
  NormSpec NormProofs DecSpec PreSpec PreProofs AvSpec AvProofs ExtractProofs TzSpec TzProofs WpSpec WpProofs OffSpec OffProofs RefSpec RefProofs TextProofs BpeSpec BpeProofs BpeWord UnkSpec
  BpeRefSpec PropsBpe PropsUnknown PropsReference PropsBpeText Env CutSpec PropsCut DropSpec StripSpec PropsStrip AccentSpec PropsAccent BertSpec PropsBertOffsets PropsLlama PropsByteDec FormSpec PropsForm UncasedSpec.
From Coq Require Import ZifyBool ZifyNat ZifyN.
From Coq Require QArith_base.
From Verif Require PropsNorm.
Import ListNotations.

(** *** Any normalizer; the runs of equal entries of its byte table are renumbered *)
Definition renumbered (O0 O : list (nat * nat)) : Prop := O = match O0 with [] => [] | o :: r => (0, 1) :: rebase_offsets o (0, 1) r end.
Lemma renumbered_smooth O : smooth0 O -> renumbered O O.
Proof. intros (r & -> & Er). unfold renumbered. rewrite (rebase_smooth 0 r Er). reflexivity. Qed.
Section Placed.
Context (E : env) (s n : wstr) (R O0 O : list (nat * nat)).
Hypothesis (Hne : s <> []) (Hv : forallb valid_cp s = true) (HO : renumbered O0 O) (Hnn : n <> []) (Hvn : forallb valid_cp n = true).
Definition again : list (nat * nat) := repeat (length (unit_bytes s) - 1, S (length (unit_bytes s) - 1)) (last (unit_bytes s) 0).
Definition kept_table : nstring := mkNs s (rebase_ranges 0 R) (O ++ again).
Lemma transform_placed : transform_range (numbered_ns (unit_sizes s) [] s) (0, length (unit_sizes s)) (mkNs n R O0) = Ok kept_table.
Proof.
  unfold kept_table, again. rewrite <- unit_sizes_bytes by exact Hv. set (z := unit_sizes s). assert (Hz : z <> []). { intros E0. apply (f_equal (@length nat)) in E0. unfold z in E0. rewrite valid_unit_sizes in E0 by exact Hv. cbn in E0. apply units_0 in E0. congruence. }
  assert (Hpos : Forall (fun n => 0 < n) z) by apply unit_sizes_pos. clearbody z.
  unfold transform_range, numbered_ns. cbn [ns_ranges ns_offsets ns_text]. rewrite app_nil_r.
  destruct z as [|n0 z0] eqn:Ez; [congruence|]. rewrite <- Ez in *. assert (Hn0 : 0 < n0) by (rewrite Ez in Hpos; exact (Forall_inv Hpos)).
  assert (Hra : vat (tab_ranges 0 (numbered 0 z)) 0 = Ok (0, n0)) by (rewrite Ez; reflexivity). rewrite Hra. cbn [bind fst].
  rewrite tab_ranges_length, numbered_length, Nat.eqb_refl. destruct (exists_last Hz) as (z1 & nl & El).
  assert (Hrb : match length z with 0 => Undef OobIndex | S b' => vat (tab_ranges 0 (numbered 0 z)) b' end = Ok (list_sum z1, nl)).
  { rewrite El, app_length. cbn [length]. rewrite Nat.add_1_r. unfold vat. rewrite numbered_app, tab_ranges_app, nth_error_app2 by (rewrite tab_ranges_length, numbered_length; lia). rewrite tab_ranges_length, numbered_length, Nat.sub_diag, numbered_size. reflexivity. }
  rewrite Hrb. cbn [bind fst]. rewrite skipn_all2 by (rewrite tab_ranges_length, numbered_length; lia).
  assert (HM : match rebase_ranges 0 R, @nil (nat * nat) with [], _ :: _ => Undef OobIndex | _, _ => Ok (rebase_ranges (pair_end (last (rebase_ranges 0 R) (0, 0))) []) end = Ok []) by (destruct (rebase_ranges 0 R); reflexivity). rewrite HM. cbn [bind].
  assert (Hb : vat (tab_offsets (numbered 0 z)) 0 = Ok (0, 1)) by (rewrite Ez; cbn [numbered tab_offsets flat_map fst snd]; destruct n0; [lia | reflexivity]).
  assert (HO1 : match O0 with [] => Ok [] | o :: r => base <- vat (tab_offsets (numbered 0 z)) 0 ;; Ok (base :: rebase_offsets o base r) end = Ok O) by (rewrite HO; destruct O0; [reflexivity|]; rewrite Hb; reflexivity).
  rewrite HO1. cbn [bind].
  assert (Hx : verase (tab_offsets (numbered 0 z)) 0 (list_sum z1) = Ok (tab_offsets (numbered (length z1) [nl]))).
  { rewrite El, numbered_app, tab_offsets_app. cbn [Nat.add]. replace (list_sum z1) with (length (@nil (nat * nat)) + length (tab_offsets (numbered 0 z1))) by (rewrite tab_offsets_length, numbered_size; reflexivity).
    exact (verase_mid [] (tab_offsets (numbered 0 z1)) (tab_offsets (numbered (length z1) [nl]))). }
  rewrite Hx. cbn [bind]. pose proof (vinsert_mid [] (tab_offsets (numbered (length z1) [nl])) O) as Hi. cbn [app length] in Hi. rewrite Hi. cbn [bind firstn app]. rewrite app_nil_r.
  assert (EA : tab_offsets (numbered (length z1) [nl]) = repeat (length z - 1, S (length z - 1)) (last z 0)). { rewrite El, last_last, app_length. cbn [length numbered tab_offsets flat_map fst snd]. rewrite app_nil_r. replace (length z1 + 1 - 1) with (length z1) by lia. reflexivity. }
  rewrite EA. reflexivity.
Qed.
Lemma extract_placed av norm : no_added_token (av_trie_raw av) (flat_map utf16_enc s) -> run_norm E norm s = Ok (mkNs n R O0) -> no_added_token (av_trie_norm av) (flat_map utf16_enc n) ->
  extract_and_normalize E av norm s = Ok (av_map_r av, mkPt kept_table [mkSplit (utf8_encs n) (0, units n) []]).
Proof.
  intros Hr Hn Hm. pose proof transform_placed as Hj. unfold extract_and_normalize. rewrite fresh_numbered. unfold new_pretok. cbn [ns_text numbered_ns]. unfold convert_to_string at 1. rewrite Hv. cbn [bind pt_norm pt_splits].
  cbn [ns_text numbered_ns]. unfold convert_to_string at 1. rewrite Hv. cbn [bind].
  rewrite find_none by (rewrite from_utf8_encs by exact Hv; exact Hr). rewrite from_utf8_encs by exact Hv. fold (units s).
  assert (Hu : 0 < units s) by (pose proof (proj1 (units_0 s)); destruct (units s); [exfalso; auto | lia]).
  replace (0 =? units s) with false by lia. cbn [bind raw_splits]. rewrite substr_all by apply length_units. cbn [bind]. unfold convert_to_string at 1. rewrite Hv. cbn [bind normalize_splits sp_tokens sp_text sp_off fst snd].
  rewrite (proj2 (convert_from_string_iff _ s)) by (split; [reflexivity | exact Hv]). cbn [bind]. fold (run_norm E norm s). rewrite Hn. cbn [bind].
  rewrite valid_unit_sizes in Hj by exact Hv. replace (0 + units s - 0) with (units s) by lia. rewrite Hj. cbn [bind ns_text set_text kept_table].
  unfold convert_to_string at 1. rewrite Hvn. cbn [bind]. rewrite find_none by (rewrite from_utf8_encs by exact Hvn; exact Hm). rewrite from_utf8_encs by exact Hvn. fold (units n).
  assert (Hu' : 0 < units n) by (pose proof (proj1 (units_0 n)); destruct (units n); [exfalso; auto | lia]).
  replace (0 =? units n) with false by lia. cbn [bind norm_splits]. rewrite substr_all by apply length_units. cbn [bind]. unfold convert_to_string at 1. rewrite Hvn. cbn [bind app].
  rewrite !Nat.add_0_r. reflexivity.
Qed.
Lemma prepare_placed t l : nothing_added t s n -> run_norm E (tz_norm t) s = Ok (mkNs n R O0) -> words_of E (tz_pre t) n l ->
  all_valid l /\ exists av q, prepare E t s = Ok (av, mkPt kept_table (map (fun p => mkSplit (utf8_encs (fst p)) (snd p) []) q)) /\ map (fun p : wstr * (nat * nat) => (fst (snd p), fst p)) q = l.
Proof.
  intros (av & Hav & H1 & H2) HN HW. pose proof (extract_placed av (tz_norm t) H1 HN H2) as Hx.
  assert (Hprep : prepare E t s = (p2 <- match tz_pre t with Some pt => pre_tokenize E pt (mkPt kept_table [mkSplit (utf8_encs n) (0, units n) []]) | None => Ok (mkPt kept_table [mkSplit (utf8_encs n) (0, units n) []]) end ;; Ok (Some (set_map_r av (av_map_r av)), p2))).
  { unfold prepare. unfold new_pretok at 1. assert (Ht : ns_text (new_nstring s) = s) by (apply (fresh_packed s)). rewrite Ht. unfold convert_to_string. rewrite Hv. cbn [bind]. rewrite Hav, Hx. reflexivity. }
  unfold words_of in HW. assert (V0 : all_valid [(0, n)]) by (constructor; [exact Hvn | constructor]).
  assert (H0 : Forall2 holds [(0, n)] [mkSplit (utf8_encs n) (0, units n) []]) by (constructor; [repeat split | constructor]).
  destruct (tz_pre t) as [pt|].
  - destruct (pre_cuts E pt _ _ kept_table _ HW V0 H0) as (A & ss & B & C). rewrite B in Hprep. cbn [bind] in Hprep. destruct (holds_shape _ _ C) as (q & -> & Q). split; [exact A|]. eauto.
  - subst l. split; [exact V0|]. cbn [bind] in Hprep. eexists _, [(n, (0, units n))]. split; [exact Hprep | reflexivity].
Qed.
Lemma base_placed x o ts : split_base kept_table (mkSplit x o ts) = match place (map snd R) (map fst (O ++ again)) (fst o) with Some k => Ok k | None => Undef OobIndex end.
Proof.
  clear Hne Hv HO Hnn Hvn. rewrite base_origin. unfold origin, kept_table, place. cbn [ns_ranges ns_offsets sp_off]. destruct o as [j hi]. cbn [fst]. assert (HL : length (rebase_ranges 0 R) = length R). { clear. generalize 0. induction R as [|[a k] R' IH]; intros m; [reflexivity|]. cbn [rebase_ranges length]. rewrite IH. reflexivity. }
  rewrite map_length. destruct (Nat.ltb_spec j (length R)) as [H|H].
  - destruct (rebase_nth R 0 j H) as (m & ->). cbn [Nat.add]. rewrite nth_error_map. destruct (nth_error (O ++ again) _); reflexivity.
  - rewrite (proj2 (nth_error_None _ _)) by lia. reflexivity.
Qed.
Lemma wp_placed fuel t w l add : tz_model t = Some (MWordPiece w) -> nothing_added t s n -> run_norm E (tz_norm t) s = Ok (mkNs n R O0) -> words_of E (tz_pre t) n l ->
  let pl := place (map snd R) (map fst (O ++ again)) in
  (forall ks, Forall2 (fun p k => pl (fst p) = Some k) l ks ->
     exists e, snd (encode E fuel (bare t) s add) = Ok e /\ en_overflowing e = [] /\ flat_parallel e /\ rows_of_words (word_tokens w) 0 (combine ks (map snd l)) (rows e)) /\
  (Exists (fun p => pl (fst p) = None) l -> snd (encode E fuel t s add) = Undef OobIndex).
Proof.
  intros Hm Ha HN HW pl. destruct (prepare_placed t l Ha HN HW) as (A & av & q & Q1 & <-).
  assert (HT : text_encoding E t s = (p <- wp_tokenize w (mkPt kept_table (map (fun p => mkSplit (utf8_encs (fst p)) (snd p) []) q)) ;; into_encoding p 0)) by (unfold text_encoding; rewrite Q1; cbn [bind]; rewrite Hm; reflexivity).
  destruct (wp_tokenize_ok w (mkPt kept_table (map (fun p => mkSplit (utf8_encs (fst p)) (snd p) []) q))) as (out & Hl & HOut). rewrite Hl in HT. cbn [bind] in HT. unfold into_encoding in HT. cbn [pt_norm pt_splits] in HT, HOut. split.
  - intros ks HK. rewrite encode_bare, HT. destruct (wp_rows_at w kept_table (fun j => at_or0 (pl j)) q out 0 A HOut) as (e & E1 & E2).
    { intros x o ts Hin. rewrite base_placed. fold pl. apply landed_each in HK. rewrite Forall_map in HK. destruct (proj1 (Forall_forall _ _) HK (x, o) Hin) as (k & Hk). cbn [fst snd] in Hk. rewrite Hk. reflexivity. }
    exists e. split; [exact E1|]. destruct (into_rows_flat _ _ _ _ _ E1) as [F1 F2]. split; [exact F2|]. split; [exact F1|]. rewrite <- (landed_map pl _ ks HK), map_map. exact E2.
  - intros HX. rewrite encode_stages, encode_bare, HT, (rows_nowhere _ pl base_placed); [reflexivity|]. clear - HOut HX. rewrite Exists_map in HX. revert out HOut. induction q as [|[x o] q IH]; intros out HOut; cbn [map] in *; inversion HOut as [|? s' ? out' (A1 & A2 & A3) HO']; subst; inversion HX as [? ? H|? ? H]; subst.
    + left. rewrite A2. exact H.
    + right. apply IH; assumption.
Qed.
Lemma bpe_placed fuel t vocab merges d unk pre suf fu bf ig b c l add : pq_ok E -> new_bpe vocab merges d unk pre suf fu bf ig = Ok b -> tz_model t = Some (MBpe b c) -> reach_cache E b c ->
  nothing_added t s n -> run_norm E (tz_norm t) s = Ok (mkNs n R O0) -> words_of E (tz_pre t) n l ->
  let pl := place (map snd R) (map fst (O ++ again)) in
  (forall ks, Forall2 (fun p k => pl (fst p) = Some k) l ks -> Forall (fun p => encodable b (snd p)) l ->
     exists e, snd (encode E fuel (bare t) s add) = Ok e /\ en_overflowing e = [] /\ flat_parallel e /\ rows_of_words (bpe_tokens b) 0 (combine ks (map snd l)) (rows e)) /\
  (Exists (fun p => pl (fst p) = None \/ ~ encodable b (snd p)) l -> snd (encode E fuel t s add) = Undef OobIndex).
Proof.
  intros Hq Hb Hm Hr Ha HN HW pl. destruct (prepare_placed t l Ha HN HW) as (A & av & q & Q1 & <-).
  assert (Hmt : forall p, snd (model_tokenize E (MBpe b c) p) = snd (bpe_tokenize E b c p)) by (intros p; cbn [model_tokenize]; destruct (bpe_tokenize E b c p); reflexivity).
  assert (HT : text_encoding E t s = (out <- plain_words E b (map (fun p => mkSplit (utf8_encs (fst p)) (snd p) []) q) ;; into_encoding (mkPt kept_table out) 0)).
  { unfold text_encoding. rewrite Q1. cbn [bind]. rewrite Hm, Hmt, (proj1 (bpe_tokenize_transparent E b c _ (reach_cache_ok E b c Hr))). cbn [pt_splits pt_norm]. destruct (plain_words E b _) as [o| | |]; reflexivity. }
  split.
  - intros ks HK HE. destruct (bpe_prepared E b vocab merges d unk pre suf fu bf ig Hq Hb fuel t c s av _ q (fun j => at_or0 (pl j)) add Hm Hr Q1) as [[H1 H2]|[H1 H2]].
    + apply Forall_forall. intros [x o] Hin tx ts. cbn [fst snd]. rewrite base_placed. fold pl. apply landed_each in HK. rewrite Forall_map in HK. destruct (proj1 (Forall_forall _ _) HK (x, o) Hin) as (k & Hk). cbn [fst snd] in Hk. rewrite Hk. reflexivity.
    + destruct H2 as (e & X1 & X2 & X3 & X4). exists e. split; [exact X1|]. split; [exact X2|]. split; [exact X3|]. rewrite <- (landed_map pl _ ks HK), map_map. cbn [fst snd]. eapply words_weaken; [|exact X4]. cbn beta. intros ? ? _ [_ H]. exact H.
    + exfalso. apply H1. rewrite Forall_map in HE. exact HE.
  - intros HX. rewrite encode_stages, encode_bare, HT. destruct (words_cases E b vocab merges d unk pre suf fu bf ig Hq Hb q) as [(Hl & out & O1 & O2)|(Hl & O1)]; rewrite O1; cbn [bind]; [|reflexivity].
    unfold into_encoding. cbn [pt_norm pt_splits]. rewrite (rows_nowhere _ pl base_placed); [reflexivity|]. rewrite Exists_map in HX. clear - HX Hl O2. induction O2 as [|p s' q out' [A1 A2] _ IH]; [inversion HX|]. pose proof (Forall_inv Hl) as Hp. pose proof (Forall_inv_tail Hl) as Ht.
    inversion HX as [? ? H|? ? H]; subst; [left; rewrite A1; destruct H as [H|H]; [exact H | contradiction] | right; apply IH; assumption].
Qed.
End Placed.

(** *** The tables after a BERT normalizer *)
Lemma pad_units_blocks (ch : bool) : forall z m k, map (fun b : nat * nat => ((fst b, S (fst b)), snd b)) (pad_units (fun c => ch && cjk_seen c) m z k) = if ch then pad_blocks m (numbered k z) else numbered k z.
Proof.
  assert (H0 : forall f z k, map (fun b : nat * nat => ((fst b, S (fst b)), snd b)) (pad_units f [] z k) = numbered k z) by (intros f; induction z as [|x z IH]; intros k; [reflexivity|]; cbn [pad_units map fst snd numbered]; rewrite IH; reflexivity).
  induction z as [|x z IH]; intros m k; [destruct m, ch; reflexivity|]. destruct m as [|c m]; [rewrite H0; destruct ch; reflexivity|]. cbn [pad_units numbered pad_blocks]. rewrite map_app, IH. rewrite chinese_cjk. change (cjk c && negb ((0x2B820 <=? c) && (c <=? 0x2B91F)))%N with (cjk_seen c).
  destruct ch; cbn [andb]; [destruct (cjk_seen c); reflexivity | reflexivity].
Qed.
Lemma pad_units_sizes f m z k : map snd (map (fun b : nat * nat => ((fst b, S (fst b)), snd b)) (pad_units f m z k)) = map snd (pad_units f m z k).
Proof. rewrite map_map. apply map_ext. reflexivity. Qed.
Lemma pad_units_bytes l : map fst (tab_offsets (map (fun b : nat * nat => ((fst b, S (fst b)), snd b)) l)) = flat_map (fun b => repeat (fst b) (snd b)) l.
Proof.
  induction l as [|[k x] l IH]; [reflexivity|]. cbn [map tab_offsets flat_map fst snd]. fold (tab_offsets (map (fun b : nat * nat => ((fst b, S (fst b)), snd b)) l)). rewrite map_app, IH. f_equal. induction x as [|x IHx]; [reflexivity|]. cbn [repeat map fst]. rewrite IHx. reflexivity.
Qed.
Lemma again_fst s : map fst (again s) = repeat (length (unit_bytes s) - 1) (last (unit_bytes s) 0).
Proof. unfold again. induction (last (unit_bytes s) 0) as [|x IH]; [reflexivity|]. cbn [repeat map fst]. rewrite IH. reflexivity. Qed.
Lemma spaced_flag (ch : bool) m : spaced (fun c => ch && cjk_seen c) m = if ch then spaced is_chinese_char m else m.
Proof.
  induction m as [|c m IH]; [destruct ch; reflexivity|]. cbn [spaced]. rewrite IH. destruct ch; cbn [andb]; [|reflexivity]. rewrite chinese_cjk. reflexivity.
Qed.
Lemma no_marks E l : (forall c, In c l -> e_is_mn E c = false) -> forall i, mark_ids E l i = [].
Proof. induction l as [|c l IH]; intros H i; [reflexivity|]. cbn [mark_ids]. rewrite (H c) by (left; reflexivity). apply IH. intros x Hx. apply H. right. exact Hx. Qed.
Lemma apply_shrink_fit E l : forall ns A R i multi, ns_ranges ns = A ++ R -> marks_fit (e_is_mn E) l (map snd R) -> i = length A + multi ->
  exists ns' B, apply_shrink ns (mark_ids E l i) multi = Ok ns' /\ ns_text ns' = ns_text ns /\ ns_offsets ns' = ns_offsets ns /\ ns_ranges ns' = A ++ B /\ map snd B = kept_entries (e_is_mn E) l (map snd R).
Proof.
  induction l as [|c l IH]; intros ns A R i multi HR Hf HA.
  - exists ns, R. cbn. auto.
  - destruct R as [|[st li] R].
    + rewrite no_marks; [exists ns, []; cbn; auto|]. intros x Hx. apply In_nth_error in Hx as (k & Hk). destruct (e_is_mn E x) eqn:Ex; [|reflexivity]. specialize (Hf k x Hk Ex). cbn in Hf. lia.
    + assert (Hf' : marks_fit (e_is_mn E) l (map snd R)) by (intros k x Hk Hx; specialize (Hf (S k) x Hk Hx); cbn [map length] in Hf; lia).
      cbn [mark_ids map snd kept_entries]. destruct (e_is_mn E c).
      * cbn [apply_shrink]. replace (i - multi) with (length A) by lia.
        assert (Hn : nth_error (ns_ranges ns) (length A) = Some (st, li)) by (rewrite HR, nth_error_app2, Nat.sub_diag by lia; reflexivity).
        rewrite (transform_shrink _ _ _ Hn). cbn [bind].
        refine (IH (mkNs (ns_text ns) (firstn (length A) (ns_ranges ns) ++ skipn (S (length A)) (ns_ranges ns)) (ns_offsets ns)) A R (S i) (S multi) _ Hf' _); [|lia].
        cbn [ns_ranges]. rewrite HR. rewrite firstn_app, firstn_all, Nat.sub_diag. cbn [firstn]. rewrite app_nil_r.
        rewrite skipn_app, skipn_all2 by lia. replace (S (length A) - length A) with 1 by lia. reflexivity.
      * destruct (IH ns (A ++ [(st, li)]) R (S i) multi) as (ns' & B & H1 & H2 & H3 & H4 & H5).
        -- rewrite <- app_assoc. exact HR.
        -- exact Hf'.
        -- rewrite app_length. cbn. lia.
        -- exists ns', ((st, li) :: B). split; [exact H1|]. split; [exact H2|]. split; [exact H3|]. split; [rewrite H4, <- app_assoc; reflexivity|]. cbn [map snd]. rewrite H5. reflexivity.
Qed.
Lemma entries_count : forall z d i, length d <= length z -> length (entry_sizes z d) = length z + length (trues d i).
Proof.
  induction z as [|x z IH]; intros d i H; [destruct d; [reflexivity | cbn in H; lia]|]. destruct d as [|[] d]; cbn [entry_sizes trues length] in *; [lia| |]; rewrite (IH d (S i)) by lia; lia.
Qed.
(** Up to the padding *)
Lemma bert_padded E (cl ch : bool) s : s <> [] -> forallb valid_cp s = true -> (cl = true -> Forall (fun c => unwanted E c = false) s) ->
  exists n2, (n1 <- (if cl then do_clean_text E (new_nstring s) else Ok (new_nstring s)) ;; (if ch then do_handle_chinese_chars n1 else Ok n1)) = Ok n2 /\
    ns_text n2 = padded_text E cl ch s /\ map snd (ns_ranges n2) = map snd (padded_units E cl ch s) /\ smooth0 (ns_offsets n2) /\ map fst (ns_offsets n2 ++ again s) = byte_units E cl ch s /\
    forallb valid_cp (padded_text E cl ch s) = true /\ length (padded_text E cl ch s) <= length (ns_ranges n2).
Proof.
  intros Hne Hv Hcl. set (m := whitened E cl s). assert (Ht : ns_text (new_nstring s) = s) by (apply (fresh_packed s)).
  assert (HP : Packed (set_text (new_nstring s) m) (numbered 0 (unit_bytes s))).
  { rewrite fresh_numbered, unit_sizes_bytes by assumption. constructor; cbn [set_text numbered_ns ns_ranges ns_offsets]; [reflexivity | apply app_nil_r|]. apply (proj1 (Forall_map snd (fun n => 0 < n) _)). rewrite numbered_snd. apply bytes_pos. }
  assert (H1 : (if cl then do_clean_text E (new_nstring s) else Ok (new_nstring s)) = Ok (set_text (new_nstring s) m)).
  { unfold m, whitened. destruct cl; cbn [andb].
    - unfold do_clean_text. rewrite Ht. rewrite (clean_nothing E _ (new_nstring s) 0) by (eapply Forall_impl; [|apply Hcl; reflexivity]; cbn beta; intros c Hc; rewrite PropsNorm.unwanted_ok; exact Hc). cbn [bind]. do 2 f_equal. apply map_ext. intros c. rewrite PropsNorm.blank_ok. reflexivity.
    - rewrite map_id. transitivity (Ok (set_text (new_nstring s) (ns_text (new_nstring s)))); [rewrite set_text_same; reflexivity | rewrite Ht; reflexivity]. }
  rewrite H1. cbn [bind]. pose proof (pad_units_blocks ch (unit_bytes s) m 0) as HB.
  assert (Hml : length m <= length (unit_bytes s)). { unfold m, whitened. rewrite map_length. unfold unit_bytes. clear. induction s as [|c s IH]; cbn [flat_map length]; [lia|]. rewrite app_length. destruct (c <? 0x10000)%N; cbn [length]; lia. }
  assert (Hzne : unit_bytes s <> []). { destruct s as [|c s]; [congruence|]. unfold unit_bytes. cbn [flat_map]. destruct (c <? 0x10000)%N; discriminate. }
  assert (HV : forallb valid_cp (padded_text E cl ch s) = true) by (unfold padded_text; apply spaced_valid, whitened_valid; exact Hv).
  assert (HX : exists n2, (if ch then do_handle_chinese_chars (set_text (new_nstring s) m) else Ok (set_text (new_nstring s) m)) = Ok n2 /\ ns_text n2 = padded_text E cl ch s /\ Packed n2 (if ch then pad_blocks m (numbered 0 (unit_bytes s)) else numbered 0 (unit_bytes s)) /\ gapless0 (if ch then pad_blocks m (numbered 0 (unit_bytes s)) else numbered 0 (unit_bytes s)) /\
    length (padded_text E cl ch s) <= length (if ch then pad_blocks m (numbered 0 (unit_bytes s)) else numbered 0 (unit_bytes s))).
  { unfold padded_text. rewrite spaced_flag. fold m. destruct ch.
    - destruct (chinese_spec (set_text (new_nstring s) m) _ HP) as (n2 & A1 & A2 & A3); [cbn [set_text ns_text]; rewrite numbered_length; exact Hml|]. cbn [set_text ns_text] in A2, A3. exists n2. split; [exact A1|]. split; [exact A2|]. split; [exact A3|]. split; [apply gapless0_padded; [exact Hzne | apply bytes_pos]|].
      assert (HL : forall l (B : blocks), length l <= length B -> length (spaced is_chinese_char l) <= length (pad_blocks l B)). { clear. induction l as [|c l IH]; intros [|[o x] B] H; cbn [length] in H; [cbn; lia | cbn; lia | lia|]. cbn [spaced pad_blocks]. rewrite !app_length. specialize (IH B ltac:(lia)). destruct (is_chinese_char c); cbn [length]; lia. }
      apply HL. rewrite numbered_length. exact Hml.
    - eexists. split; [reflexivity|]. split; [reflexivity|]. split; [exact HP|]. split; [apply gapless0_numbered; [exact Hzne | apply bytes_pos]|]. rewrite numbered_length. exact Hml. }
  destruct HX as (n2 & A1 & A2 & [Q1 Q2 _] & A4 & A5). exists n2. split; [exact A1|]. split; [exact A2|]. split; [rewrite Q1, map_snd_ranges; etransitivity; [apply (f_equal (map snd)); symmetry; exact HB | apply pad_units_sizes]|]. split; [rewrite Q2; apply smooth0_gapless; exact A4|].
  split; [|split; [exact HV | rewrite Q1, NormProofs.tab_ranges_length; exact A5]]. unfold byte_units, padded_units. fold m. rewrite map_app, again_fst, Q2. f_equal. etransitivity; [apply (f_equal (fun b => map fst (tab_offsets b))); symmetry; exact HB | apply pad_units_bytes].
Qed.
Lemma fixed s : forallb valid_cp s = true -> map fix_cp s = s.
Proof. intros Hv. rewrite <- (map_id s) at 2. apply map_ext_in. intros c Hc. unfold fix_cp. rewrite (proj1 (forallb_forall _ _) Hv c Hc). reflexivity. Qed.
Lemma bert_run E cl ch st lo s n e : s <> [] -> forallb valid_cp s = true -> (cl = true -> Forall (fun c => unwanted E c = false) s) -> bert_result E cl ch st lo s n e ->
  exists R O, normalize E (NBert cl ch st lo) (new_nstring s) = Ok (mkNs n R O) /\ map snd R = e /\ smooth0 O /\ map fst (O ++ again s) = byte_units E cl ch s.
Proof.
  intros Hne Hv Hcl HR. destruct (bert_padded E cl ch s Hne Hv Hcl) as (n2 & A1 & A2 & A3 & A4 & A5 & A6 & A7). cbn [normalize]. unfold bert_normalize.
  destruct (if cl then do_clean_text E (new_nstring s) else Ok (new_nstring s)) as [n1| | |]; cbn [bind] in A1; try discriminate. cbn [bind]. rewrite A1. cbn [bind]. unfold bert_result in HR. cbn zeta in HR. destruct (st || lo) eqn:Esl.
  - destruct HR as (r & HN & Hf & -> & ->). unfold do_strip_accents, normalize_nf. rewrite A2, (fixed _ A6), HN, grow_changed by lia. cbn [skipn].
    destruct (apply_grow_flags (changed (padded_text E cl ch s) r) n2 [] (ns_ranges n2) 0 0) as (ns' & B & H1 & H2 & H3 & H4 & H5); [reflexivity | pose proof (changed_length (padded_text E cl ch s) r); lia | reflexivity|]. rewrite H1. cbn [bind]. cbn [app] in H4. rewrite A3 in H5. cbn [set_text ns_text].
    destruct (apply_shrink_fit E r (set_text ns' r) [] B 0 0) as (n3 & C & G1 & G2 & G3 & G4 & G5); [exact H4 | rewrite H5; exact Hf | reflexivity|]. rewrite G1. cbn [bind app] in *. exists C, (ns_offsets n2). split; [|split; [rewrite G5, H5; reflexivity | split; assumption]].
    cbn [set_text ns_offsets] in G3. rewrite H3 in G3. destruct lo; cbn [do_lowercase]; unfold do_lowercase; cbn [set_text ns_text ns_ranges ns_offsets]; unfold set_text; rewrite G3, G4; reflexivity.
  - destruct HR as [-> ->]. apply orb_false_elim in Esl as [-> ->]. cbn [bind]. exists (ns_ranges n2), (ns_offsets n2). split; [rewrite <- A2; destruct n2; reflexivity|]. auto.
Qed.
Lemma bert_fails E cl ch st lo s : s <> [] -> forallb valid_cp s = true -> (cl = true -> Forall (fun c => unwanted E c = false) s) -> st || lo = true ->
  match e_norm E NFD (padded_text E cl ch s) with
  | None => normalize E (NBert cl ch st lo) (new_nstring s) = Throw RuntimeError
  | Some r => ~ marks_fit (e_is_mn E) r (entry_sizes (map snd (padded_units E cl ch s)) (changed (padded_text E cl ch s) r)) -> normalize E (NBert cl ch st lo) (new_nstring s) = Undef OobIndex
  end.
Proof.
  intros Hne Hv Hcl Hsl. destruct (bert_padded E cl ch s Hne Hv Hcl) as (n2 & A1 & A2 & A3 & A4 & A5 & A6 & A7). cbn [normalize]. unfold bert_normalize.
  destruct (if cl then do_clean_text E (new_nstring s) else Ok (new_nstring s)) as [n1| | |]; cbn [bind] in A1; try discriminate. cbn [bind]. rewrite A1. cbn [bind]. rewrite Hsl. set (p := padded_text E cl ch s) in *.
  destruct (e_norm E NFD p) as [r|] eqn:HN.
  - intros Hf. pose proof (strip_accents_exact E n2 r) as HS. cbn zeta in HS. rewrite A2, (fixed _ A6) in HS. specialize (HS A7 HN). destruct HS as [_ HS]. rewrite HS; [reflexivity|]. rewrite grow_changed by lia. cbn [skipn].
    assert (HL : length (entry_sizes (map snd (padded_units E cl ch s)) (changed p r)) = length (ns_ranges n2) + length (trues (changed p r) 0)). { rewrite <- A3, (entries_count _ _ 0), map_length; [reflexivity|]. rewrite map_length. pose proof (changed_length p r). lia. }
    unfold marks_fit in Hf. rewrite HL in Hf. set (room := length (ns_ranges n2) + length (trues (changed p r) 0)) in *. clearbody room. clear - Hf.
    assert (D : forall l, (forall i c, nth_error l i = Some c -> e_is_mn E c = true -> i < room) \/ exists i c, nth_error l i = Some c /\ e_is_mn E c = true /\ room <= i).
    { intros l. induction l as [|c l IH] using rev_ind; [left; intros [|i] c H; discriminate|]. destruct IH as [IH|(i & x & H1 & H2 & H3)].
      - destruct (e_is_mn E c && (room <=? length l)) eqn:Ec.
        + right. exists (length l), c. rewrite nth_error_app2, Nat.sub_diag by lia. split; [reflexivity | lia].
        + left. intros i x Hi Hx. destruct (Nat.lt_ge_cases i (length l)); [rewrite nth_error_app1 in Hi by lia; eauto|]. rewrite nth_error_app2 in Hi by lia. destruct (i - length l) eqn:Ei; [|destruct n; discriminate]. cbn in Hi. injection Hi as <-. rewrite Hx in Ec. lia.
      - right. exists i, x. rewrite nth_error_app1 by (apply nth_error_Some; congruence). auto. }
    destruct (D r) as [H|H]; [contradiction | exact H].
  - unfold do_strip_accents, normalize_nf. rewrite A2, (fixed _ A6), HN. reflexivity.
Qed.

(** ** C133 *)
(** WordPiece: the words are those of the normalization; a word at position [j] is reported at [place e bytes j]; if some word has no place, encoding reads outside the alignment table. *)
Theorem C133_wordpiece : forall E fuel t w cl ch st lo s n e l add, tz_model t = Some (MWordPiece w) -> tz_norm t = Some (NBert cl ch st lo) -> s <> [] -> forallb valid_cp s = true ->
  (cl = true -> Forall (fun c => unwanted E c = false) s) -> bert_result E cl ch st lo s n e -> n <> [] -> forallb valid_cp n = true -> nothing_added t s n -> words_of E (tz_pre t) n l ->
  (forall ks, Forall2 (fun p k => place e (byte_units E cl ch s) (fst p) = Some k) l ks ->
     exists r, snd (encode E fuel (bare t) s add) = Ok r /\ en_overflowing r = [] /\ flat_parallel r /\ rows_of_words (word_tokens w) 0 (combine ks (map snd l)) (rows r)) /\
  (Exists (fun p => place e (byte_units E cl ch s) (fst p) = None) l -> snd (encode E fuel t s add) = Undef OobIndex).
Proof.
  intros E fuel t w cl ch st lo s n e l add Hm Hno Hne Hv Hcl HB Hnn Hvn Ha HW. destruct (bert_run E cl ch st lo s n e Hne Hv Hcl HB) as (R & O & H1 & <- & H3 & <-).
  apply (wp_placed E s n R O O Hne Hv (renumbered_smooth O H3) Hnn Hvn fuel t w l add Hm Ha); [rewrite Hno; exact H1 | exact HW].
Qed.
Print Assumptions C133_wordpiece.
Theorem C133_bpe : forall E fuel t vocab merges d unk pre suf fu bf ig b c cl ch st lo s n e l add, pq_ok E -> new_bpe vocab merges d unk pre suf fu bf ig = Ok b ->
  tz_model t = Some (MBpe b c) -> reach_cache E b c -> tz_norm t = Some (NBert cl ch st lo) -> s <> [] -> forallb valid_cp s = true ->
  (cl = true -> Forall (fun c => unwanted E c = false) s) -> bert_result E cl ch st lo s n e -> n <> [] -> forallb valid_cp n = true -> nothing_added t s n -> words_of E (tz_pre t) n l ->
  (forall ks, Forall2 (fun p k => place e (byte_units E cl ch s) (fst p) = Some k) l ks -> Forall (fun p => encodable b (snd p)) l ->
     exists r, snd (encode E fuel (bare t) s add) = Ok r /\ en_overflowing r = [] /\ flat_parallel r /\ rows_of_words (bpe_tokens b) 0 (combine ks (map snd l)) (rows r)) /\
  (Exists (fun p => place e (byte_units E cl ch s) (fst p) = None \/ ~ encodable b (snd p)) l -> snd (encode E fuel t s add) = Undef OobIndex).
Proof.
  intros E fuel t vocab merges d unk pre suf fu bf ig b c cl ch st lo s n e l add Hq Hb Hm Hr Hno Hne Hv Hcl HB Hnn Hvn Ha HW. destruct (bert_run E cl ch st lo s n e Hne Hv Hcl HB) as (R & O & H1 & <- & H3 & <-).
  apply (bpe_placed E s n R O O Hne Hv (renumbered_smooth O H3) Hnn Hvn fuel t vocab merges d unk pre suf fu bf ig b c l add Hq Hb Hm Hr Ha); [rewrite Hno; exact H1 | exact HW].
Qed.
Print Assumptions C133_bpe.
(** A mark that stands beyond the entries: encode reads outside the table, whatever the rest of the tokenizer. *)
Theorem C133_marks : forall E fuel t av cl ch st lo s r add, tz_norm t = Some (NBert cl ch st lo) -> tz_av t = Some av -> s <> [] -> forallb valid_cp s = true -> no_added_token (av_trie_raw av) (flat_map utf16_enc s) ->
  (cl = true -> Forall (fun c => unwanted E c = false) s) -> st || lo = true -> e_norm E NFD (padded_text E cl ch s) = Some r ->
  ~ marks_fit (e_is_mn E) r (entry_sizes (map snd (padded_units E cl ch s)) (changed (padded_text E cl ch s) r)) -> snd (encode E fuel t s add) = Undef OobIndex.
Proof.
  intros E fuel t av cl ch st lo s r add Hno Hav Hne Hv Hr Hcl Hsl HN Hf. pose proof (bert_fails E cl ch st lo s Hne Hv Hcl Hsl) as HF. rewrite HN in HF. specialize (HF Hf).
  assert (HX : extract_and_normalize E av (tz_norm t) s = Undef OobIndex) by (apply extract_fails; [exact Hne | exact Hv | exact Hr | rewrite Hno; exact HF]).
  rewrite encode_stages, encode_bare. unfold text_encoding, prepare. unfold new_pretok at 1. assert (Ht : ns_text (new_nstring s) = s) by (apply (fresh_packed s)). rewrite Ht. unfold convert_to_string. rewrite Hv. cbn [bind]. rewrite Hav, HX. reflexivity.
Qed.
Print Assumptions C133_marks.

(** *** Cased tokenizers *)
Lemma place_blocks : forall (P : list (nat * nat)) tail j, Forall (fun b => 0 < snd b) P -> j < length P -> place (map snd P) (flat_map (fun b => repeat (fst b) (snd b)) P ++ tail) j = Some (nth j (map fst P) 0).
Proof.
  intros P tail j HP Hj. unfold place. rewrite map_length, (proj2 (Nat.ltb_lt _ _)) by exact Hj. revert j Hj. induction HP as [|[k x] P Hx HP IH]; intros j Hj; cbn [length] in Hj; [lia|]. cbn [fst snd] in Hx. cbn [map fst snd flat_map]. destruct j as [|j].
  - cbn [firstn list_sum nth]. destruct x; [lia | reflexivity].
  - cbn [firstn nth]. unfold list_sum. cbn [fold_right]. fold (list_sum (firstn j (map snd P))). rewrite <- app_assoc, nth_error_app2, repeat_length by (rewrite repeat_length; lia). replace (x + list_sum (firstn j (map snd P)) - x) with (list_sum (firstn j (map snd P))) by lia. apply IH. lia.
Qed.
Lemma pad_units_pos f : forall z m k, Forall (fun n => 0 < n) z -> Forall (fun b : nat * nat => 0 < snd b) (pad_units f m z k).
Proof.
  induction z as [|x z IH]; intros m k H; [constructor|]. pose proof (Forall_inv H) as Hx. pose proof (Forall_inv_tail H) as Hz. cbn [pad_units]. destruct m as [|c m]; [constructor; [exact Hx | apply IH; exact Hz]|].
  apply Forall_app. split; [|apply IH; exact Hz]. destruct (f c); repeat constructor; exact Hx.
Qed.
Lemma pad_units_count f : forall z m k, length m <= length z -> length (pad_units f m z k) + length m = length z + length (spaced f m).
Proof.
  assert (H0 : forall z k, length (pad_units f [] z k) = length z) by (induction z as [|x z IH]; intros k; [reflexivity|]; cbn [pad_units length]; rewrite IH; reflexivity).
  induction z as [|x z IH]; intros m k H; [destruct m; [reflexivity | cbn in H; lia]|]. destruct m as [|c m]; [rewrite H0; cbn; lia|]. cbn [pad_units spaced length] in *. rewrite !app_length. specialize (IH m (S k) ltac:(lia)). destruct (f c); cbn [length]; lia.
Qed.
Lemma units_spaced f m : units (spaced f m) + length m = units m + length (spaced f m).
Proof.
  induction m as [|c m IH]; [reflexivity|]. cbn [spaced]. change (c :: m) with ([c] ++ m) at 2. rewrite !units_app, !app_length. assert (H : forall A (l : list A), length l = length l) by reflexivity. destruct (f c); cbn [length].
  - change [32%N; c; 32%N] with ([32%N] ++ [c] ++ [32%N]). rewrite !units_app. change (units [32%N]) with 1. lia.
  - lia.
Qed.
Lemma whitened_units E cl s : forallb valid_cp s = true -> units (whitened E cl s) <= length (unit_bytes s).
Proof.
  intros Hv. unfold whitened, unit_bytes. induction s as [|c s IH]; [reflexivity|]. cbn [forallb] in Hv. apply andb_prop in Hv as [Hc Hv]. cbn [map flat_map]. match goal with |- units (?x :: ?l) <= _ => change (x :: l) with ([x] ++ l) end. rewrite units_app, app_length. specialize (IH Hv).
  assert (units [if cl && blank E c then 32%N else c] <= length (if (c <? 0x10000)%N then [width c] else [4; 4])); [|lia].
  destruct (cl && blank E c); [change (units [32%N]) with 1; destruct (c <? 0x10000)%N; cbn [length]; lia|]. unfold units. cbn [flat_map]. rewrite app_nil_r. unfold utf16_enc. destruct (c <? 0x10000)%N; cbn [length]; lia.
Qed.
(** A cased BERT tokenizer (WordPiece) encodes every text that has no characters to delete, and reports every word at the unit [padded_units] gives for its position. *)
Theorem C133_cased : forall E fuel t w cl ch s add, tz_model t = Some (MWordPiece w) -> tz_norm t = Some (NBert cl ch false false) -> (forall p, tz_pre t = Some p -> cuttable E p /\ keeps_characters E p) ->
  s <> [] -> forallb valid_cp s = true -> (cl = true -> Forall (fun c => unwanted E c = false) s) -> nothing_added t s (padded_text E cl ch s) ->
  exists l r, words_of E (tz_pre t) (padded_text E cl ch s) l /\ snd (encode E fuel (bare t) s add) = Ok r /\ en_overflowing r = [] /\ flat_parallel r /\
    rows_of_words (word_tokens w) 0 (map (fun p => (nth (fst p) (map fst (padded_units E cl ch s)) 0, snd p)) l) (rows r).
Proof.
  intros E fuel t w cl ch s add Hm Hno Hp Hne Hv Hcl Ha.
  assert (Hml : length (whitened E cl s) <= length (unit_bytes s)). { unfold whitened. rewrite map_length. unfold unit_bytes. clear. induction s as [|c s IH]; cbn [flat_map length]; [lia|]. rewrite app_length. destruct (c <? 0x10000)%N; cbn [length]; lia. }
  assert (Hvn : forallb valid_cp (padded_text E cl ch s) = true) by (unfold padded_text; apply spaced_valid, whitened_valid; exact Hv).
  assert (Hnn : padded_text E cl ch s <> []). { destruct s as [|c s]; [congruence|]. unfold padded_text, whitened. cbn [map spaced]. destruct (ch && cjk_seen _); discriminate. }
  assert (Hu : units (padded_text E cl ch s) <= length (padded_units E cl ch s)). { unfold padded_text, padded_units. pose proof (pad_units_count (fun c => ch && cjk_seen c) (unit_bytes s) (whitened E cl s) 0 Hml). pose proof (units_spaced (fun c => ch && cjk_seen c) (whitened E cl s)). pose proof (whitened_units E cl s Hv). lia. }
  destruct (words_inside E t (padded_text E cl ch s) (length (padded_units E cl ch s)) Hnn Hvn Hp Hu) as (l & HW & HI). exists l.
  destruct (C133_wordpiece E fuel t w cl ch false false s (padded_text E cl ch s) (map snd (padded_units E cl ch s)) l add Hm Hno Hne Hv Hcl (conj eq_refl eq_refl) Hnn Hvn Ha HW) as [H _].
  destruct (H (map (fun p => nth (fst p) (map fst (padded_units E cl ch s)) 0) l)) as (r & R1 & R2 & R3 & R4).
  - clear - HI. induction HI as [|p l Hp _ IH]; [constructor|]. cbn [map]. constructor; [|exact IH]. apply place_blocks; [apply pad_units_pos, bytes_pos | exact Hp].
  - exists r. split; [exact HW|]. split; [exact R1|]. split; [exact R2|]. split; [exact R3|]. replace (map (fun p => (nth (fst p) (map fst (padded_units E cl ch s)) 0, snd p)) l) with (combine (map (fun p => nth (fst p) (map fst (padded_units E cl ch s)) 0) l) (map snd l)); [exact R4|].
    clear. induction l as [|p l IH]; [reflexivity|]. cbn [map combine]. rewrite IH. reflexivity.
Qed.
Print Assumptions C133_cased.
(** Without characters to pad, the word is reported exactly at the unit it starts at, supplementary characters or not. *)
Theorem C133_cased_exact : forall E fuel t w cl ch s add, tz_model t = Some (MWordPiece w) -> tz_norm t = Some (NBert cl ch false false) -> (forall p, tz_pre t = Some p -> cuttable E p /\ keeps_characters E p) ->
  s <> [] -> forallb valid_cp s = true -> (cl = true -> Forall (fun c => unwanted E c = false) s) -> (ch = true -> Forall (fun c => cjk_seen c = false) s) -> nothing_added t s (whitened E cl s) ->
  exists l r, words_of E (tz_pre t) (whitened E cl s) l /\ snd (encode E fuel (bare t) s add) = Ok r /\ en_overflowing r = [] /\ flat_parallel r /\ rows_of_words (word_tokens w) 0 l (rows r).
Proof.
  intros E fuel t w cl ch s add Hm Hno Hp Hne Hv Hcl Hch Ha. set (m := whitened E cl s) in *.
  assert (Hf : Forall (fun c => ch && cjk_seen c = false) m). { unfold m, whitened. apply Forall_map. destruct ch; [|apply Forall_forall; reflexivity]. eapply Forall_impl; [|apply Hch; reflexivity]. cbn beta. intros c Hc. cbn [andb]. destruct (cl && blank E c); [reflexivity | exact Hc]. }
  assert (HT : padded_text E cl ch s = m). { unfold padded_text. fold m. revert Hf. generalize m. clear. induction 1 as [|c m Hc _ IH]; [reflexivity|]. cbn [spaced]. rewrite Hc, IH. reflexivity. }
  assert (HP : map fst (padded_units E cl ch s) = seq 0 (length (unit_bytes s))).
  { unfold padded_units. fold m. revert Hf. generalize m 0. generalize (unit_bytes s). clear. induction l as [|x l IH]; intros m k Hf; [reflexivity|]. destruct m as [|c m]; cbn [pad_units].
    - cbn [map fst length seq]. rewrite IH; [reflexivity | constructor].
    - rewrite (Forall_inv Hf). cbn [app map fst length seq]. rewrite IH; [reflexivity | exact (Forall_inv_tail Hf)]. }
  destruct (C133_cased E fuel t w cl ch s add Hm Hno Hp Hne Hv Hcl) as (l & r & H1 & H2 & H3 & H4 & H5); [rewrite HT; exact Ha|]. rewrite HT in H1. exists l, r. split; [exact H1|]. split; [exact H2|]. split; [exact H3|]. split; [exact H4|].
  assert (Hvn : forallb valid_cp m = true) by (apply whitened_valid; exact Hv). assert (Hmn : m <> []) by (unfold m, whitened; destruct s; [congruence | discriminate]).
  pose proof (C95_inside E (tz_pre t) m l Hmn (fun p H => proj2 (Hp p H)) H1) as HI. pose proof (whitened_units E cl s Hv) as Hu. fold m in Hu.
  rewrite HP in H5. erewrite map_ext_in in H5; [rewrite map_id in H5; exact H5|]. intros [j x] Hin. destruct (proj1 (Forall_forall _ _) HI _ Hin) as (_ & Hj & _). cbn [fst snd] in *. rewrite seq_nth by lia. reflexivity.
Qed.
Print Assumptions C133_cased_exact.
(** The same for an uncased tokenizer on a text in which nothing decomposes and there are no marks (emoji, Chinese, unaccented letters), provided lower-casing does not lengthen it. *)
Theorem C133_uncased_plain : forall E fuel t w cl ch st lo s n add, tz_model t = Some (MWordPiece w) -> tz_norm t = Some (NBert cl ch st lo) -> (forall p, tz_pre t = Some p -> cuttable E p /\ keeps_characters E p) ->
  s <> [] -> forallb valid_cp s = true -> (cl = true -> Forall (fun c => unwanted E c = false) s) ->
  e_norm E NFD (padded_text E cl ch s) = Some (padded_text E cl ch s) -> Forall (fun c => e_is_mn E c = false) (padded_text E cl ch s) ->
  n = (if lo then map (e_towlower E) (padded_text E cl ch s) else padded_text E cl ch s) -> forallb valid_cp n = true -> units n <= units (padded_text E cl ch s) -> nothing_added t s n ->
  exists l r, words_of E (tz_pre t) n l /\ snd (encode E fuel (bare t) s add) = Ok r /\ en_overflowing r = [] /\ flat_parallel r /\
    rows_of_words (word_tokens w) 0 (map (fun p => (nth (fst p) (map fst (padded_units E cl ch s)) 0, snd p)) l) (rows r).
Proof.
  intros E fuel t w cl ch st lo s n add Hm Hno Hp Hne Hv Hcl HN Hmk Hn Hvn Hu Ha. set (p := padded_text E cl ch s) in *.
  assert (Hml : length (whitened E cl s) <= length (unit_bytes s)). { unfold whitened. rewrite map_length. unfold unit_bytes. clear. induction s as [|c s IH]; cbn [flat_map length]; [lia|]. rewrite app_length. destruct (c <? 0x10000)%N; cbn [length]; lia. }
  assert (Hpn : p <> []). { unfold p. destruct s as [|c s]; [congruence|]. unfold padded_text, whitened. cbn [map spaced]. destruct (ch && cjk_seen _); discriminate. }
  assert (Hnn : n <> []) by (rewrite Hn; destruct lo; [destruct p; [congruence | discriminate] | exact Hpn]).
  assert (Hu' : units n <= length (padded_units E cl ch s)). { unfold p, padded_text in Hu. unfold padded_units. pose proof (pad_units_count (fun c => ch && cjk_seen c) (unit_bytes s) (whitened E cl s) 0 Hml). pose proof (units_spaced (fun c => ch && cjk_seen c) (whitened E cl s)). pose proof (whitened_units E cl s Hv). lia. }
  assert (HB : exists b, st || lo = b /\ bert_result E cl ch st lo s n (map snd (padded_units E cl ch s))).
  { exists (st || lo). split; [reflexivity|]. unfold bert_result. cbn zeta. fold p. destruct (st || lo) eqn:Esl.
    - assert (Hd : forall l, changed l l = repeat false (length l)) by (induction l as [|c l IH]; [reflexivity|]; cbn [changed length repeat]; rewrite N.eqb_refl, IH; reflexivity).
      assert (He : forall k z, entry_sizes z (repeat false k) = z) by (induction k as [|k IH]; intros [|x z]; [reflexivity..|]; cbn [repeat entry_sizes]; rewrite IH; reflexivity).
      exists p. rewrite Hd, He. split; [exact HN|]. split; [intros i c Hi Hc; rewrite (proj1 (Forall_forall _ _) Hmk c (nth_error_In _ _ Hi)) in Hc; discriminate|].
      assert (Hf : filter (fun c => negb (e_is_mn E c)) p = p). { clear - Hmk. induction Hmk as [|c p Hc _ IH]; [reflexivity|]. cbn [filter]. rewrite Hc. cbn [negb]. rewrite IH. reflexivity. }
      rewrite Hf. split; [exact Hn|]. clear - Hmk. generalize (map snd (padded_units E cl ch s)). induction Hmk as [|c p Hc _ IH]; intros [|x z]; [reflexivity..|]. cbn [kept_entries]. rewrite Hc, <- IH. reflexivity.
    - apply orb_false_elim in Esl as [_ ->]. split; [exact Hn | reflexivity]. }
  destruct HB as (_ & _ & HB). destruct (words_inside E t n (length (padded_units E cl ch s)) Hnn Hvn Hp Hu') as (l & HW & HI). exists l.
  destruct (C133_wordpiece E fuel t w cl ch st lo s n (map snd (padded_units E cl ch s)) l add Hm Hno Hne Hv Hcl HB Hnn Hvn Ha HW) as [H _].
  destruct (H (map (fun p => nth (fst p) (map fst (padded_units E cl ch s)) 0) l)) as (r & R1 & R2 & R3 & R4).
  - clear - HI. induction HI as [|q l Hp _ IH]; [constructor|]. cbn [map]. constructor; [|exact IH]. apply place_blocks; [apply pad_units_pos, bytes_pos | exact Hp].
  - exists r. split; [exact HW|]. split; [exact R1|]. split; [exact R2|]. split; [exact R3|]. replace (map (fun p => (nth (fst p) (map fst (padded_units E cl ch s)) 0, snd p)) l) with (combine (map (fun p => nth (fst p) (map fst (padded_units E cl ch s)) 0) l) (map snd l)); [exact R4|].
    clear. induction l as [|q l IH]; [reflexivity|]. cbn [map combine]. rewrite IH. reflexivity.
Qed.
Print Assumptions C133_uncased_plain.

(** *** Cases *)
(** "[emoji] Play" uncased. *)
Example C133_uncased_plain_case : let s := (0x1F600%N :: str " Play") in let t := strip_tz (NBert true true false true) in let p := padded_text test_env true true s in
  e_norm test_env NFD p = Some p /\ Forall (fun c => e_is_mn test_env c = false) p /\ units (map (e_towlower test_env) p) <= units p /\
  exists r, snd (encode test_env 10 t s false) = Ok r /\ en_tokens r = [str "[UNK]"; str "play"] /\ en_offsets r = [(0, 2); (3, 7)].
Proof. cbn zeta. split; [reflexivity|]. split; [repeat constructor|]. split; [vm_compute; lia|]. eexists. split; [vm_compute; reflexivity | split; reflexivity]. Qed.
(** "[emoji] play": two units for the emoji, so the word starts at unit 3 and is reported there. *)
Example C133_cased_case : let s := (0x1F600%N :: str " play") in let t := strip_tz (NBert true true false false) in
  forallb valid_cp s = true /\ Forall (fun c => unwanted test_env c = false) s /\ Forall (fun c => cjk_seen c = false) s /\ nothing_added t s (whitened test_env true s) /\
  exists r, snd (encode test_env 10 t s false) = Ok r /\ en_offsets r = [(0, 2); (3, 7)].
Proof.
  cbn zeta. split; [reflexivity|]. split; [repeat constructor|]. split; [repeat constructor|]. split; [apply strip_tz_plain|]. eexists. split; [vm_compute; reflexivity | reflexivity].
Qed.
(** The same followed by a Chinese character: the entry of the emoji's second half is padded in its place, so that the Chinese character (unit 2 of the text) is reported at unit 1; the word behind it is reported where it stands. *)
Example C133_padding_case : let s := (0x1F600%N :: 0x4E2D%N :: str " play") in let t := strip_tz (NBert true true false false) in
  forallb valid_cp s = true /\ padded_text test_env true true s = (0x1F600 :: 32 :: 0x4E2D :: 32 :: 32 :: str "play")%N /\
  exists r, snd (encode test_env 10 t s false) = Ok r /\ en_offsets r = [(0, 2); (1, 2); (4, 8)].
Proof. cbn zeta. split; [reflexivity|]. split; [reflexivity|]. eexists. split; [vm_compute; reflexivity | reflexivity]. Qed.
(** Vietnamese: "[1EA5] play", uncased. The text becomes "a play"; the word stands at 2 there and in the text, and is reported at 0: every position after the first change counts one byte, while the first character has three. *)
Example C133_case : let s := (0x1EA5%N :: str " play") in let n := str "a play" in let t := strip_tz (NBert true true true true) in
  forallb valid_cp s = true /\ Forall (fun c => unwanted test_env c = false) s /\ bert_result test_env true true true true s n [1; 1; 1; 1; 1; 1] /\ nothing_added t s n /\
  words_of test_env (Some TBert) n [(0, str "a"); (2, str "play")] /\ place [1; 1; 1; 1; 1; 1] (byte_units test_env true true s) 2 = Some 0 /\
  exists r, snd (encode test_env 10 t s false) = Ok r /\ en_offsets r = [(0, 1); (0, 4)].
Proof.
  cbn zeta. split; [reflexivity|]. split; [repeat constructor|]. split; [exists ([0x61; 0x302; 0x301]%N ++ str " play"); split; [reflexivity|]; split; [|split; reflexivity]|].
  { intros i c Hi Hc. vm_compute. do 6 (destruct i as [|i]; [lia|]). destruct i as [|i]; [cbn in Hi; injection Hi as <-; vm_compute in Hc; discriminate|]. destruct i as [|i]; [cbn in Hi; injection Hi as <-; vm_compute in Hc; discriminate|]. destruct i; discriminate. }
  split; [apply strip_tz_plain|]. split.
  { exists [[(0, str "a"); (2, str "play")]]. split; [|reflexivity]. constructor; [|constructor].
    apply (bs_word _ _ 0 (str "a") (str " play") [(2, str "play")]); [discriminate | repeat (constructor; [split; reflexivity|]); constructor | left; reflexivity|]. apply bs_space; [reflexivity|].
    apply (bs_word _ _ 2 (str "play") [] []); [discriminate | repeat (constructor; [split; reflexivity|]); constructor | exact I | constructor]. }
  split; [reflexivity|]. eexists. split; [vm_compute; reflexivity | reflexivity].
Qed.
(** The same letter twice: a mark stands beyond the entries. *)
Example C133_marks_case : let s := [0x1EA5; 0x1EA5]%N in let p := padded_text test_env true true s in
  forallb valid_cp s = true /\ Forall (fun c => unwanted test_env c = false) s /\
  (exists r, e_norm test_env NFD p = Some r /\ ~ marks_fit (e_is_mn test_env) r (entry_sizes (map snd (padded_units test_env true true s)) (changed p r))) /\
  snd (encode test_env 10 (strip_tz (NBert true true false true)) s false) = Undef OobIndex.
Proof.
  cbn zeta. split; [reflexivity|]. split; [repeat constructor|]. split; [|vm_compute; reflexivity]. eexists. split; [reflexivity|]. intros H. specialize (H 5 0x301%N eq_refl eq_refl). vm_compute in H. lia.
Qed.
(** When the normalization service is not available, encode throws. *)
Theorem C133_unavailable : forall E fuel t av cl ch st lo s add, tz_norm t = Some (NBert cl ch st lo) -> tz_av t = Some av -> s <> [] -> forallb valid_cp s = true -> no_added_token (av_trie_raw av) (flat_map utf16_enc s) ->
  (cl = true -> Forall (fun c => unwanted E c = false) s) -> st || lo = true -> e_norm E NFD (padded_text E cl ch s) = None -> snd (encode E fuel t s add) = Throw RuntimeError.
Proof.
  intros E fuel t av cl ch st lo s add Hno Hav Hne Hv Hr Hcl Hsl HN. pose proof (bert_fails E cl ch st lo s Hne Hv Hcl Hsl) as HF. rewrite HN in HF.
  assert (HX : extract_and_normalize E av (tz_norm t) s = Throw RuntimeError).
  { rewrite Hno. unfold extract_and_normalize. assert (Ht : ns_text (new_nstring s) = s) by (apply (fresh_packed s)). unfold new_pretok. rewrite Ht. unfold convert_to_string at 1. rewrite Hv. cbn [bind pt_norm pt_splits]. rewrite Ht. unfold convert_to_string at 1. rewrite Hv. cbn [bind].
    rewrite find_none by (rewrite from_utf8_encs by exact Hv; exact Hr). rewrite from_utf8_encs by exact Hv. fold (units s).
    assert (Hu : 0 < units s) by (pose proof (proj1 (units_0 s)); destruct (units s); [exfalso; auto | lia]).
    replace (0 =? units s) with false by lia. cbn [bind raw_splits]. rewrite substr_all by apply length_units. cbn [bind]. unfold convert_to_string at 1. rewrite Hv. cbn [bind normalize_splits sp_tokens sp_text sp_off fst snd].
    rewrite (proj2 (convert_from_string_iff _ s)) by (split; [reflexivity | exact Hv]). cbn [bind]. rewrite HF. reflexivity. }
  rewrite encode_stages, encode_bare. unfold text_encoding, prepare. unfold new_pretok at 1. assert (Ht : ns_text (new_nstring s) = s) by (apply (fresh_packed s)). rewrite Ht. unfold convert_to_string. rewrite Hv. cbn [bind]. rewrite Hav, HX. reflexivity.
Qed.
Print Assumptions C133_unavailable.
(** So a reported word need not be what stands at its place in the text, even when nothing of the word was changed. *)
Theorem C133_place_refuted : ~ (forall E fuel t s e i x o, tz_norm t = Some (NBert true true true true) -> snd (encode E fuel t s false) = Ok e -> nth_error (en_tokens e) i = Some x -> nth_error (en_offsets e) i = Some o ->
  (exists a b, s = a ++ str "play" ++ b) -> x = str "play" -> firstn (snd o - fst o) (skipn (fst o) s) = str "play").
Proof.
  intros H. specialize (H test_env 10 (strip_tz (NBert true true true true)) (0x1EA5%N :: str " play")). remember (snd (encode test_env 10 (strip_tz (NBert true true true true)) (0x1EA5%N :: str " play") false)) as v eqn:Ev. vm_compute in Ev. subst v.
  specialize (H _ 1 (str "play") (0, 4) eq_refl eq_refl eq_refl eq_refl (ex_intro _ [0x1EA5; 32]%N (ex_intro _ [] eq_refl)) eq_refl). vm_compute in H. discriminate.
Qed.
Print Assumptions C133_place_refuted.
(** An environment whose normalization service fails. *)
Definition broken_env : env := {| e_norm := fun _ _ => None; e_is_mn := e_is_mn test_env; e_iswspace := e_iswspace test_env; e_iswcntrl := e_iswcntrl test_env; e_towlower := e_towlower test_env; e_u_space := e_u_space test_env; e_u_punct := e_u_punct test_env;
  e_icu_matches := e_icu_matches test_env; e_wregex_ok := e_wregex_ok test_env; e_wregex_next := e_wregex_next test_env; e_inplace := true; e_char_signed := true; e_draw := e_draw test_env; e_pq := e_pq test_env |}.
Example C133_unavailable_case : snd (encode broken_env 10 (strip_tz (NBert true true false true)) (str "play") false) = Throw RuntimeError /\
  exists r, snd (encode broken_env 10 (strip_tz (NBert true true false false)) (str "play") false) = Ok r.
Proof. split; [vm_compute; reflexivity | eexists; vm_compute; reflexivity]. Qed.
(** BPE on the text of C133_case: the words are looked up alike and reported alike. *)
Example C133_bpe_case : let s := (0x1EA5%N :: str " a") in let n := str "a a" in
  bert_result test_env true true true true s n [1; 1; 1] /\ words_of test_env (Some TBert) n [(0, str "a"); (2, str "a")] /\ place [1; 1; 1] (byte_units test_env true true s) 2 = Some 0 /\
  Forall (fun p => encodable ll_bpe (snd p)) [(0, str "a"); (2, str "a")] /\
  exists r, snd (encode test_env 10 (zh_bpe_tz true) s false) = Ok r /\ en_offsets r = [(0, 1); (0, 1)].
Proof.
  cbn zeta. split; [exists ([0x61; 0x302; 0x301]%N ++ str " a"); split; [reflexivity|]; split; [|split; reflexivity]|].
  { intros i c Hi Hc. vm_compute. do 3 (destruct i as [|i]; [lia|]). destruct i as [|i]; [cbn in Hi; injection Hi as <-; vm_compute in Hc; discriminate|]. destruct i as [|i]; [cbn in Hi; injection Hi as <-; vm_compute in Hc; discriminate|]. destruct i; discriminate. }
  split.
  { exists [[(0, str "a"); (2, str "a")]]. split; [|reflexivity]. constructor; [|constructor].
    apply (bs_word _ _ 0 (str "a") (str " a") [(2, str "a")]); [discriminate | repeat (constructor; [split; reflexivity|]); constructor | left; reflexivity|]. apply bs_space; [reflexivity|].
    apply (bs_word _ _ 2 (str "a") [] []); [discriminate | repeat (constructor; [split; reflexivity|]); constructor | exact I | constructor]. }
  split; [reflexivity|]. split; [|eexists; split; [vm_compute; reflexivity | reflexivity]].
  constructor; [right; vm_compute; lia|]. constructor; [right; vm_compute; lia|]. constructor.
Qed.
