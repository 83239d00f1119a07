(** C106: Llama-style tokenizers; C104 for BPE models. Specification: LlamaSpec.v, BertSpec.v, BpeRefSpec.v. *)
From Verif Require Import Base BaseFacts Unicode UnicodeProofs Common Utils PostProcessor Decoder Normalizer PreTokenizer WordPiece Bpe AddedVocab Tokenizer Spec
  NormSpec NormProofs DecSpec PreSpec PreProofs AvSpec AvProofs ExtractProofs TzSpec TzProofs WpSpec WpProofs OffSpec OffProofs RefSpec RefProofs TextProofs BpeSpec BpeProofs BpeWord UnkSpec
  BpeRefSpec PropsBpe PropsUnknown PropsReference PropsNorm PropsBpeText Env CutSpec PropsCut AccentSpec PropsAccent BertSpec PropsBertOffsets LlamaSpec.
From Coq Require Import ZifyBool ZifyNat ZifyN.
From Coq Require QArith_base.

(** *** BPE over any alignment table *)
Section Prepared.
Context (E : env) (b : bpe) (vocab : smap Z) (merges : list bytes) (d : QArith_base.Q) (unk pre suf : bytes) (fu bf ig : bool).
Hypothesis Hq : pq_ok E.
Hypothesis Hb : new_bpe vocab merges d unk pre suf fu bf ig = Ok b.
Lemma bpe_rows_at ns (f : nat -> nat) : forall l out i, Forall2 (fun p s => sp_off s = snd p /\ runs E b (fst p) (sp_tokens s)) l out ->
  Forall (fun p : wstr * (nat * nat) => forall tx ts, split_base ns (mkSplit tx (snd p) ts) = Ok (f (fst (snd p)))) l ->
  exists e, into_rows ns 0 i out = Ok e /\ rows_of_words (runs E b) i (map (fun p => (f (fst (snd p)), fst p)) l) (rows e).
Proof.
  intros l out i H. revert i. induction H as [|[x o] s l out [A1 A2] _ IH]; intros i HB; [eexists; split; [reflexivity | constructor]|].
  pose proof (Forall_inv HB) as B1. pose proof (Forall_inv_tail HB) as B2. cbn [fst snd] in *. destruct (IH (S i) B2) as (e & E1 & E2). cbn [into_rows].
  assert (Hs : split_base ns s = Ok (f (fst o))) by (specialize (B1 [] []); unfold split_base in *; cbn [sp_off] in B1; rewrite A1; exact B1).
  rewrite Hs. cbn [bind]. rewrite E1. cbn [bind]. eexists. split; [reflexivity|]. rewrite rows_append by apply split_rows_flat. rewrite split_rows_rows. cbn [map fst snd]. apply rw_cons; assumption.
Qed.
Lemma bpe_prepared fuel t c s av ns q (f : nat -> nat) add : tz_model t = Some (MBpe b c) -> reach_cache E b c ->
  prepare E t s = Ok (av, mkPt ns (map (fun p => mkSplit (utf8_encs (fst p)) (snd p) []) q)) ->
  Forall (fun p : wstr * (nat * nat) => forall tx ts, split_base ns (mkSplit tx (snd p) ts) = Ok (f (fst (snd p)))) q ->
  (Forall (fun p => encodable b (fst p)) q /\ exists r, snd (encode E fuel (bare t) s add) = Ok r /\ en_overflowing r = [] /\ flat_parallel r /\
     rows_of_words (fun x ts => runs E b x ts /\ bpe_tokens b x ts) 0 (map (fun p => (f (fst (snd p)), fst p)) q) (rows r)) \/
  (~ Forall (fun p => encodable b (fst p)) q /\ snd (encode E fuel t s add) = Undef OobIndex).
Proof.
  intros Hm Hr Hp HB.
  assert (Hmt : forall p, snd (model_tokenize E (MBpe b c) p) = snd (bpe_tokenize E b c p)) by (intros p; cbn [model_tokenize]; destruct (bpe_tokenize E b c p); reflexivity).
  assert (HT : text_encoding E t s = (out <- plain_words E b (map (fun p => mkSplit (utf8_encs (fst p)) (snd p) []) q) ;; into_encoding (mkPt ns out) 0)).
  { unfold text_encoding. rewrite Hp. cbn [bind]. rewrite Hm, Hmt, (proj1 (bpe_tokenize_transparent E b c _ (reach_cache_ok E b c Hr))). cbn [pt_splits pt_norm].
    destruct (plain_words E b _) as [o| | |]; reflexivity. }
  rewrite encode_bare, HT. destruct (words_cases E b vocab merges d unk pre suf fu bf ig Hq Hb q) as [(Hl & out & O1 & O2)|(Hl & O1)]; rewrite O1; cbn [bind].
  - left. split; [exact Hl|]. destruct (bpe_rows_at ns f q out 0 O2 HB) as (e & E1 & E2). exists e. unfold into_encoding. cbn [pt_norm pt_splits]. split; [exact E1|]. destruct (into_rows_flat _ _ _ _ _ E1) as [F1 F2]. split; [exact F2|]. split; [exact F1|].
    eapply words_weaken; [|exact E2]. intros [pos x] ts _ Hx. cbn [snd] in *. split; [exact Hx|]. unfold runs in Hx.
    destruct (word_cases E b vocab merges d unk pre suf fu bf ig Hq Hb x) as [(_ & ts' & T1 & T2)|(_ & T1)]; [|congruence]. assert (ts' = ts) by congruence. subst ts'. exact T2.
  - right. split; [exact Hl|]. rewrite encode_stages, encode_bare, HT, O1. reflexivity.
Qed.
End Prepared.

(** ** C104 for BPE models *)
Theorem C104_bpe_offsets : forall E fuel t vocab merges d unk pre suf fu bf ig b c cl ch st lo s n src z cnt l add, pq_ok E -> new_bpe vocab merges d unk pre suf fu bf ig = Ok b ->
  tz_model t = Some (MBpe b c) -> reach_cache E b c -> tz_norm t = Some (NBert cl ch st lo) ->
  s <> [] -> bmp s -> forallb valid_cp s = true -> bert_steps E cl ch st lo s n src z cnt -> n <> [] -> forallb valid_cp n = true -> nothing_added t s n ->
  words_of E (tz_pre t) n l -> Forall (fun p => fst p < length n) l ->
  (Forall (fun p => encodable b (snd p)) l -> exists r, snd (encode E fuel (bare t) s add) = Ok r /\ en_overflowing r = [] /\ flat_parallel r /\
     rows_of_words (bpe_tokens b) 0 (map (fun p => (reported src z cnt (fst p), snd p)) l) (rows r)) /\
  (Exists (fun p => ~ encodable b (snd p)) l -> snd (encode E fuel t s add) = Undef OobIndex).
Proof.
  intros E fuel t vocab merges d unk pre suf fu bf ig b c cl ch st lo s n src z cnt l add Hq Hb Hm Hr Hno Hs0 Hbm Hv HS Hne Hvn Ha HW HP.
  destruct (bert_blocks E cl ch st lo s n src z cnt Hs0 Hbm Hv HS) as (R & bl & HR & R1 & R2 & R3 & R4 & R5 & R6).
  assert (HL : length R = length n) by (rewrite <- R5, <- R1, map_length; reflexivity).
  assert (HRne : R <> []) by (intros ->; destruct n; [congruence | discriminate]).
  destruct (prepare_smooth E t s n R _ l Hs0 Hv Hvn Hne HRne (smooth0_gapless _ R4) Ha) as (A & av & junk & q & Q1 & <-); [rewrite Hno; exact HR | exact HW|].
  rewrite map_map. cbn [fst snd].
  destruct (bpe_prepared E b vocab merges d unk pre suf fu bf ig Hq Hb fuel t c s av _ q (reported src z cnt) add Hm Hr Q1) as [[H1 H2]|[H1 H2]].
  - apply Forall_forall. intros [x [j hi]] Hin tx ts. cbn [fst snd]. assert (Hj : j < length n) by (apply (proj1 (Forall_forall _ _) HP (j, x)); apply in_map_iff; exists (x, (j, hi)); auto).
    rewrite (block_base bl src R s junk j tx hi ts R3); [rewrite R1, R2; reflexivity | lia|]. rewrite R1, R2. apply R6. exact Hj.
  - split; [intros _; destruct H2 as (r & X1 & X2 & X3 & X4); exists r; split; [exact X1|]; split; [exact X2|]; split; [exact X3|]; eapply words_weaken; [|exact X4]; cbn beta; intros ? ? _ [_ H]; exact H|]. intros He. exfalso. apply Exists_exists in He as ([pos x] & Hin & Hx). apply in_map_iff in Hin as (p & Ep & Hin). apply Hx. injection Ep as <- <-. exact (proj1 (Forall_forall _ _) H1 p Hin).
  - split; [|intros _; exact H2]. intros HF. exfalso. apply H1. rewrite Forall_map in HF. exact HF.
Qed.
Print Assumptions C104_bpe_offsets.

(** ** C106 *)
Lemma smooth_dup k l : smooth k l -> forall a o n, nth_error l a = Some o -> smooth k (firstn a l ++ repeat o n ++ skipn a l).
Proof.
  induction 1 as [k|k l H IH|k l H IH]; intros a o n Ho; [destruct a; discriminate| |]; destruct a as [|a]; cbn [nth_error firstn skipn app] in *.
  - injection Ho as <-. apply smooth_repeat, sm_same. exact H.
  - apply sm_same, IH. exact Ho.
  - injection Ho as <-. destruct n as [|n]; cbn [repeat app]; [apply sm_next; exact H|]. apply sm_next, smooth_repeat, sm_same. exact H.
  - apply sm_next, IH. exact Ho.
Qed.
Lemma smooth0_dup O a o n : smooth0 O -> nth_error O a = Some o -> smooth0 (firstn a O ++ repeat o n ++ skipn a O).
Proof.
  intros (r & -> & H) Ho. destruct a as [|a]; cbn [nth_error firstn skipn app] in *.
  - injection Ho as <-. destruct n as [|n]; cbn [repeat app]; [exists r; auto|]. eexists. split; [reflexivity|]. apply (smooth_repeat 0), (sm_same 0). exact H.
  - eexists. split; [reflexivity|]. apply smooth_dup; assumption.
Qed.
Lemma replace_smooth ns i n ns' : transform ns i (OpReplace n) = Ok ns' -> smooth0 (ns_offsets ns) -> smooth0 (ns_offsets ns').
Proof.
  unfold transform. intros H HS. destruct (vat (ns_ranges ns) i) as [[start limit]| | |]; cbn [bind] in H; try discriminate.
  destruct (verase (ns_ranges ns) i (i + 1)) as [r1| | |]; cbn [bind] in H; try discriminate. destruct (vinsert r1 i [(start, n)]) as [r2| | |] eqn:Ei; cbn [bind] in H; try discriminate.
  unfold vat in H. destruct (nth_error (ns_offsets ns) start) as [o|] eqn:Eo; cbn [bind] in H; try discriminate. destruct n as [|n]; [discriminate|].
  unfold vinsert in H. destruct (start <=? length (ns_offsets ns)); cbn [bind] in H; try discriminate. injection H as <-. cbn [ns_offsets]. apply smooth0_dup; assumption.
Qed.
Lemma apply_replace_smooth l : forall ns k w multi ns', apply_replace ns l k w multi = Ok ns' -> smooth0 (ns_offsets ns) -> smooth0 (ns_offsets ns').
Proof.
  induction l as [|i l IH]; intros ns k w multi ns' H HS; cbn [apply_replace] in H; [injection H as <-; exact HS|].
  destruct (transform ns (i + multi) (OpReplace k)) as [n1| | |] eqn:E1; cbn [bind] in H; try discriminate. eapply IH; [exact H|]. eapply replace_smooth; eassumption.
Qed.

Section Normalized.
Context (E : env) (c d1 d2 : N) (p pat content : bytes) (s : wstr).
Hypothesis Hlit : finds_literally E c.
Hypothesis Hin : e_inplace E = true.
Hypothesis Hp : convert_from_string p = Ok [d1].
Hypothesis Hpat : convert_from_string pat = Ok [c].
Hypothesis Hcon : convert_from_string content = Ok [d2].
Hypothesis Hd : d1 <> c.
Hypothesis Hne : s <> [].
Hypothesis Hv : forallb valid_cp s = true.
Lemma llama_norm :
  (roomy c s -> exists R O, normalize E (NSequence [NPrepend p; NReplace pat content]) (new_nstring s) = Ok (mkNs (d1 :: marked c d2 s) R O) /\ R <> [] /\ smooth0 O) /\
  (~ roomy c s -> normalize E (NSequence [NPrepend p; NReplace pat content]) (new_nstring s) = Undef OobIndex).
Proof.
  cbn [normalize]. unfold prepend_normalize. rewrite Hp. cbn [bind].
  assert (Hpl : 0 < length p) by (destruct p; [discriminate | cbn; lia]). assert (Hcl : 0 < length content) by (destruct content; [discriminate | cbn; lia]).
  assert (Ht : ns_text (new_nstring s) = s) by (apply (fresh_packed s)).
  assert (HP : Packed (new_nstring s) (numbered 0 (unit_sizes s))).
  { rewrite fresh_numbered. constructor; cbn [numbered_ns ns_ranges ns_offsets]; [reflexivity | apply app_nil_r|]. apply (proj1 (Forall_map snd (fun n => 0 < n) _)). rewrite numbered_snd. apply unit_sizes_pos. }
  pose proof (valid_unit_sizes s Hv) as HU. pose proof (unit_sizes_pos s) as Hpos. destruct (unit_sizes s) as [|n0 z0] eqn:Ez.
  { exfalso. cbn in HU. symmetry in HU. apply Hne, units_0. exact HU. }
  cbn [numbered] in HP. destruct (transform_add (new_nstring s) [] _ _ _ HP (length p) Hpl) as (n1 & H1 & H2 & H3). cbn [length app] in H1, H3. rewrite H1. cbn [bind].
  set (bl := ((0, 1), length p) :: ((0, 1), n0) :: numbered 1 z0) in *.
  assert (HG : gapless0 bl) by (eexists _, _; split; [reflexivity|]; split; [exact Hpl|]; apply gl_same; [exact (Forall_inv Hpos) | apply gapless_numbered; exact (Forall_inv_tail Hpos)]).
  assert (HLn : length bl = S (units s)) by (unfold bl; cbn [length]; rewrite numbered_length, <- HU; reflexivity).
  assert (HS : smooth0 (ns_offsets n1)) by (destruct H3 as [_ -> _]; apply smooth0_gapless; exact HG).
  pose proof (packed_loose _ _ H3) as HLo. assert (HLo' : loose (set_text n1 ([d1] ++ ns_text (new_nstring s))) bl) by exact HLo.
  unfold replace_normalize. rewrite Hpat. cbn [bind]. rewrite (proj1 Hlit). cbn [negb]. rewrite Hcon. cbn [bind set_text ns_text]. rewrite Ht.
  pose proof (replace_matches_spec E c d2 Hlit Hin (2 * length ([d1] ++ s) + 3) ([d1] ++ s) [] false ltac:(lia)) as HM. cbn [app] in HM. change (length (@nil N)) with 0 in HM. change ([d1] ++ s) with (d1 :: s). rewrite HM. cbn [bind].
  assert (Hpo : positions (N.eqb c) (d1 :: s) 0 = positions (N.eqb c) s 1) by (cbn [positions]; destruct (N.eqb_spec c d1); [congruence | reflexivity]). rewrite Hpo.
  assert (Hsh : forall l i, positions (N.eqb c) l (S i) = map S (positions (N.eqb c) l i)) by (induction l as [|x l IH]; intros i; [reflexivity|]; cbn [positions]; destruct (c =? x)%N; cbn [map]; rewrite IH; reflexivity).
  assert (Hmk : map (sub1 c d2) (d1 :: s) = d1 :: marked c d2 s) by (cbn [map]; unfold sub1 at 1; destruct (N.eqb_spec d1 c); [congruence | reflexivity]).
  change (set_text n1 ([d1] ++ ns_text (new_nstring s))) with (mkNs ([d1] ++ ns_text (new_nstring s)) (ns_ranges n1) (ns_offsets n1)) in HLo'. rewrite Ht in HLo'. cbn [app] in HLo'. change (set_text n1 (d1 :: s)) with (mkNs (d1 :: s) (ns_ranges n1) (ns_offsets n1)). split.
  - intros Hro. destruct (apply_replace_ok (positions (N.eqb c) s 1) _ _ (length content) 0 HLo' Hcl) as (n2 & bl2 & A1 & A2 & A3 & A4).
    + intros j i Hj. rewrite Hsh, nth_error_map in Hj. destruct (nth_error (positions (N.eqb c) s 0) j) as [q|] eqn:Eq; [|discriminate]. injection Hj as <-. specialize (Hro j q Eq). unfold units in HLn. lia.
    + cbn [length]. rewrite A1. cbn [bind]. exists (ns_ranges n2), (ns_offsets n2). rewrite Hmk. split; [reflexivity|]. split.
      * destruct A3 as (-> & _). intros H. apply (f_equal (@length _)) in H. rewrite tab_ranges_length in H. cbn in H. lia.
      * eapply apply_replace_smooth; [exact A1|]. exact HS.
  - intros Hro. cbn [length]. rewrite (apply_replace_oob (positions (N.eqb c) s 1) _ bl (length content) 0 HLo' Hcl); [reflexivity|].
    assert (Hx : exists j q, nth_error (positions (N.eqb c) s 0) j = Some q /\ units s <= q + j).
    { unfold roomy in Hro. fold (units s) in Hro. generalize dependent (positions (N.eqb c) s 0). clear. intros l H. 
      destruct (forallb (fun k => match nth_error l k with Some q => q + k <? units s | None => true end) (seq 0 (length l))) eqn:Ef.
      - exfalso. apply H. intros j q Hj. assert (Hl : j < length l) by (apply nth_error_Some; congruence). rewrite forallb_forall in Ef. specialize (Ef j ltac:(apply in_seq; lia)). rewrite Hj in Ef. lia.
      - destruct (existsb (fun k => match nth_error l k with Some q => units s <=? q + k | None => false end) (seq 0 (length l))) eqn:Eg.
        + apply existsb_exists in Eg as (j & _ & Hj). destruct (nth_error l j) as [q|] eqn:Eq; [|discriminate]. exists j, q. split; [exact Eq | lia].
        + exfalso. apply not_true_iff_false in Ef. apply Ef. apply forallb_forall. intros k Hk. destruct (nth_error l k) as [q|] eqn:Eq; [|reflexivity].
          destruct (q + k <? units s) eqn:Eh; [reflexivity|]. exfalso. apply not_true_iff_false in Eg. apply Eg. apply existsb_exists. exists k. split; [exact Hk|]. rewrite Eq. lia. }
    destruct Hx as (j & q & Hj & Hu). exists j, (S q). split; [rewrite Hsh, nth_error_map, Hj; reflexivity | lia].
Qed.
End Normalized.

(** The normalizer fails on the whole text: so does the extraction. *)
Lemma extract_fails E av norm s u : s <> [] -> forallb valid_cp s = true -> no_added_token (av_trie_raw av) (flat_map utf16_enc s) -> run_norm E norm s = Undef u -> extract_and_normalize E av norm s = Undef u.
Proof.
  intros Hne Hv Hr Hn. unfold extract_and_normalize. rewrite fresh_numbered. unfold new_pretok. cbn [ns_text numbered_ns]. unfold convert_to_string at 1. rewrite Hv. cbn [bind pt_norm pt_splits].
  cbn [ns_text numbered_ns]. unfold convert_to_string at 1. rewrite Hv. cbn [bind].
  rewrite find_none by (rewrite from_utf8_encs by exact Hv; exact Hr). rewrite from_utf8_encs by exact Hv. fold (units s).
  assert (Hu : 0 < units s) by (pose proof (proj1 (units_0 s)); destruct (units s); [exfalso; auto | lia]).
  replace (0 =? units s) with false by lia. cbn [bind raw_splits]. rewrite substr_all by apply length_units. cbn [bind]. unfold convert_to_string at 1. rewrite Hv. cbn [bind normalize_splits sp_tokens sp_text sp_off fst snd].
  rewrite (proj2 (convert_from_string_iff _ s)) by (split; [reflexivity | exact Hv]). cbn [bind]. fold (run_norm E norm s). rewrite Hn. reflexivity.
Qed.

Lemma llama_runs : forall E fuel t vocab merges dr unk pre suf fu bf ig b ca c d1 d2 p pat content s add, pq_ok E -> new_bpe vocab merges dr unk pre suf fu bf ig = Ok b ->
  tz_model t = Some (MBpe b ca) -> reach_cache E b ca -> tz_norm t = Some (NSequence [NPrepend p; NReplace pat content]) -> tz_pre t = None ->
  finds_literally E c -> e_inplace E = true -> convert_from_string p = Ok [d1] -> convert_from_string pat = Ok [c] -> convert_from_string content = Ok [d2] -> d1 <> c ->
  s <> [] -> forallb valid_cp s = true -> nothing_added t s (d1 :: marked c d2 s) ->
  (roomy c s -> encodable b (d1 :: marked c d2 s) ->
     exists r, snd (encode E fuel (bare t) s add) = Ok r /\ en_overflowing r = [] /\ flat_parallel r /\ rows_of_words (fun x ts => runs E b x ts /\ bpe_tokens b x ts) 0 [(0, d1 :: marked c d2 s)] (rows r)) /\
  (~ (roomy c s /\ encodable b (d1 :: marked c d2 s)) -> snd (encode E fuel t s add) = Undef OobIndex).
Proof.
  intros E fuel t vocab merges dr unk pre suf fu bf ig b ca c d1 d2 p pat content s add Hq Hb Hm Hr Hno Hpre Hlit Hin Hp Hpat Hcon Hd Hne Hv Ha.
  destruct (llama_norm E c d1 d2 p pat content s Hlit Hin Hp Hpat Hcon Hd Hne Hv) as [N1 N2].
  assert (Hvn : forallb valid_cp (d1 :: marked c d2 s) = true).
  { apply convert_from_string_iff in Hp as [_ Hp]. apply convert_from_string_iff in Hcon as [_ Hcon]. cbn [forallb] in *. rewrite andb_true_r in Hp, Hcon. rewrite Hp. cbn [andb].
    unfold marked. rewrite forallb_forall in *. intros x Hx. apply in_map_iff in Hx as (y & <- & Hy). destruct (y =? c)%N; [exact Hcon | apply Hv; exact Hy]. }
  assert (K : roomy c s -> (encodable b (d1 :: marked c d2 s) /\ exists r, snd (encode E fuel (bare t) s add) = Ok r /\ en_overflowing r = [] /\ flat_parallel r /\ rows_of_words (fun x ts => runs E b x ts /\ bpe_tokens b x ts) 0 [(0, d1 :: marked c d2 s)] (rows r)) \/
    (~ encodable b (d1 :: marked c d2 s) /\ snd (encode E fuel t s add) = Undef OobIndex)).
  { intros Hro. destruct (N1 Hro) as (R & O & HN & HR & HO).
    destruct (prepare_smooth E t s (d1 :: marked c d2 s) R O [(0, d1 :: marked c d2 s)] Hne Hv Hvn ltac:(discriminate) HR HO Ha) as (_ & av & junk & q & Q1 & Q2); [rewrite Hno; exact HN | rewrite Hpre; reflexivity|].
    destruct q as [|[x [a hi]] [|? ?]]; try discriminate. cbn [map fst snd] in Q2. injection Q2 as -> ->.
    destruct (bpe_prepared E b vocab merges dr unk pre suf fu bf ig Hq Hb fuel t ca s av _ _ (fun x => x) add Hm Hr Q1) as [[B1 B2]|[B1 B2]].
    - constructor; [|constructor]. intros tx ts. cbn [fst snd]. rewrite base_origin. unfold origin. cbn [ns_ranges ns_offsets sp_off fst]. destruct R as [|[r0 r1] R]; [congruence|]. cbn [rebase_ranges nth_error]. destruct HO as (o & -> & _). reflexivity.
    - left. split; [exact (Forall_inv B1) | exact B2].
    - right. split; [|exact B2]. intros H. apply B1. constructor; [exact H | constructor]. }
  split.
  - intros Hro Hen. destruct (K Hro) as [[_ H]|[H _]]; [exact H | contradiction].
  - intros Hx.
    assert (D : roomy c s \/ ~ roomy c s).
    { unfold roomy. fold (units s). generalize (positions (N.eqb c) s 0) as l. generalize (units s) as u. clear. intros u l.
      destruct (forallb (fun k => match nth_error l k with Some q => q + k <? u | None => true end) (seq 0 (length l))) eqn:Ef.
      - left. intros j q Hj. assert (Hl : j < length l) by (apply nth_error_Some; congruence). rewrite forallb_forall in Ef. specialize (Ef j ltac:(apply in_seq; lia)). rewrite Hj in Ef. lia.
      - right. intros H. apply not_true_iff_false in Ef. apply Ef. apply forallb_forall. intros k _. destruct (nth_error l k) as [q|] eqn:Eq; [|reflexivity]. specialize (H k q Eq). lia. }
    destruct D as [Hro|Hro].
    + destruct (K Hro) as [[H _]|[_ H]]; [exfalso; auto | exact H].
    + rewrite encode_stages, encode_bare. unfold text_encoding.
      assert (HPr : prepare E t s = Undef OobIndex).
      { destruct Ha as (av & Hav & H1 & _). unfold prepare. unfold new_pretok at 1. assert (Ht : ns_text (new_nstring s) = s) by (apply (fresh_packed s)). rewrite Ht. unfold convert_to_string. rewrite Hv. cbn [bind]. rewrite Hav.
        rewrite (extract_fails E av (tz_norm t) s OobIndex Hne Hv H1); [reflexivity|]. rewrite Hno. cbn [run_norm]. apply N2. exact Hro. }
      rewrite HPr. reflexivity.
Qed.
(** A Llama-style tokenizer: a one-character mark [d1] before the text, every space (or other one-character pattern [c]) replaced by a mark [d2], no pre-tokenizer, a BPE model. A text with no
    added token is encoded, as the one word it is, exactly when its spaces have enough text behind them and something of the word is in the vocabulary; otherwise encode is
    undefined behaviour. *)
Theorem C106_llama : forall E fuel t vocab merges dr unk pre suf fu bf ig b ca c d1 d2 p pat content s add, pq_ok E -> new_bpe vocab merges dr unk pre suf fu bf ig = Ok b ->
  tz_model t = Some (MBpe b ca) -> reach_cache E b ca -> tz_norm t = Some (NSequence [NPrepend p; NReplace pat content]) -> tz_pre t = None ->
  finds_literally E c -> e_inplace E = true -> convert_from_string p = Ok [d1] -> convert_from_string pat = Ok [c] -> convert_from_string content = Ok [d2] -> d1 <> c ->
  s <> [] -> forallb valid_cp s = true -> nothing_added t s (d1 :: marked c d2 s) ->
  (roomy c s -> encodable b (d1 :: marked c d2 s) ->
     exists r, snd (encode E fuel (bare t) s add) = Ok r /\ en_overflowing r = [] /\ flat_parallel r /\ rows_of_words (bpe_tokens b) 0 [(0, d1 :: marked c d2 s)] (rows r)) /\
  (~ (roomy c s /\ encodable b (d1 :: marked c d2 s)) -> snd (encode E fuel t s add) = Undef OobIndex).
Proof.
  intros E fuel t vocab merges dr unk pre suf fu bf ig b ca c d1 d2 p pat content s add Hq Hb Hm Hr Hno Hpre Hlit Hin Hp Hpat Hcon Hd Hne Hv Ha.
  destruct (llama_runs E fuel t vocab merges dr unk pre suf fu bf ig b ca c d1 d2 p pat content s add Hq Hb Hm Hr Hno Hpre Hlit Hin Hp Hpat Hcon Hd Hne Hv Ha) as [L1 L2]. split; [|exact L2].
  intros H1 H2. destruct (L1 H1 H2) as (r & X1 & X2 & X3 & X4). exists r. split; [exact X1|]. split; [exact X2|]. split; [exact X3|]. eapply words_weaken; [|exact X4]. cbn beta. intros ? ? _ [_ H]. exact H.
Qed.
Print Assumptions C106_llama.

Lemma one_word (P : wstr -> list token -> Prop) i pos x rs : rows_of_words P i [(pos, x)] rs -> exists ts, P x ts /\ rs = word_rows i pos ts.
Proof. intros H. inversion H as [|? ? ? ? ts rs' H1 H2]; subst. inversion H2; subst. exists ts. rewrite app_nil_r. auto. Qed.
(** The offsets count the bytes of the marked text: when every byte is accounted for, the last token ends beyond the end of the text given. *)
Theorem C106_offsets : forall E fuel t vocab merges dr unk pre suf fu bf ig b ca c d1 d2 p pat content s add, pq_ok E -> new_bpe vocab merges dr unk pre suf fu bf ig = Ok b ->
  tz_model t = Some (MBpe b ca) -> reach_cache E b ca -> tz_norm t = Some (NSequence [NPrepend p; NReplace pat content]) -> tz_pre t = None ->
  finds_literally E c -> e_inplace E = true -> convert_from_string p = Ok [d1] -> convert_from_string pat = Ok [c] -> convert_from_string content = Ok [d2] -> d1 <> c ->
  s <> [] -> forallb valid_cp s = true -> nothing_added t s (d1 :: marked c d2 s) -> roomy c s ->
  (forall i, ~ whole_word b (d1 :: marked c d2 s) i) -> covered b (utf8_encs (d1 :: marked c d2 s)) = length (utf8_encs (d1 :: marked c d2 s)) ->
  exists r, snd (encode E fuel (bare t) s add) = Ok r /\ tiles 0 (length (utf8_encs (d1 :: marked c d2 s))) (en_offsets r) /\ length s < length (utf8_encs (d1 :: marked c d2 s)).
Proof.
  intros E fuel t vocab merges dr unk pre suf fu bf ig b ca c d1 d2 p pat content s add Hq Hb Hm Hr Hno Hpre Hlit Hin Hp Hpat Hcon Hd Hne Hv Ha Hro Hw Hc. set (n := d1 :: marked c d2 s) in *.
  destruct (llama_runs E fuel t vocab merges dr unk pre suf fu bf ig b ca c d1 d2 p pat content s add Hq Hb Hm Hr Hno Hpre Hlit Hin Hp Hpat Hcon Hd Hne Hv Ha) as [L1 _]. fold n in L1.
  assert (Hlen : forall l, length l <= length (utf8_encs l)) by (induction l as [|x l IH]; [cbn; lia|]; unfold utf8_encs in *; cbn [flat_map length]; rewrite app_length; pose proof (utf8_enc_pos x); lia).
  assert (Hnl : length n = S (length s)) by (unfold n, marked; cbn [length]; rewrite map_length; reflexivity). pose proof (Hlen n) as Hln.
  destruct L1 as (r & X1 & X2 & X3 & X4); [exact Hro | right; lia|]. exists r. split; [exact X1|]. split; [|lia].
  destruct (one_word _ _ _ _ _ X4) as (ts & [T1 T2] & Er).
  assert (Ho : map r_off (rows r) = map tk_off ts).
  { rewrite Er, word_rows_off, map_map. apply map_ext. intros k. cbn [Nat.add]. destruct (tk_off k). reflexivity. }
  rewrite <- (proj1 (proj2 (proj2 (proj2 (proj2 (rows_cols r X3)))))), Ho, <- Hc.
  destruct (C31_accounting E vocab merges dr unk pre suf fu bf ig b [] (utf8_encs n) Hq Hb (reach_empty E b) (not_whole b n Hw)) as [A1 A2].
  unfold runs in T1. destruct (A2 ltac:(lia)) as (ts' & B1 & _ & B2). assert (ts' = ts) by congruence. subst ts'. exact B2.
Qed.
Print Assumptions C106_offsets.

(** For a text of the basic plane only the last space matters: before it there may be at most as many spaces as there are characters after it. *)
Lemma positions_count c l : forall i, length (positions (N.eqb c) l i) = occurrences c l.
Proof. induction l as [|x l IH]; intros i; [reflexivity|]. cbn [positions occurrences]. rewrite (N.eqb_sym x c). destruct (c =? x)%N; cbn [length]; rewrite IH; reflexivity. Qed.
Lemma sorted_room l n : Sorted.StronglySorted lt (l ++ [n]) -> forall j p, nth_error (l ++ [n]) j = Some p -> p + j <= n + length l.
Proof.
  revert n. induction l as [|x l IH]; intros n HS j p Hj.
  - destruct j as [|[|j]]; cbn in Hj; [injection Hj as <-; cbn; lia | discriminate | discriminate].
  - cbn [app] in *. inversion HS as [|? ? HS' Hx]; subst. destruct j as [|j]; cbn [nth_error] in Hj.
    + injection Hj as <-. rewrite Forall_app in Hx. destruct Hx as [_ Hx]. pose proof (Forall_inv Hx) as H. cbn beta in H. lia.
    + specialize (IH n HS' j p Hj). cbn [length]. lia.
Qed.
Theorem C106_room : forall c u v, bmp (u ++ c :: v) -> forallb valid_cp (u ++ c :: v) = true -> ~ In c v -> (roomy c (u ++ c :: v) <-> occurrences c u <= length v).
Proof.
  intros c u v Hb Hv Hn. unfold roomy. fold (units (u ++ c :: v)).
  assert (HU : units (u ++ c :: v) = length u + S (length v)) by (unfold units; rewrite bmp_utf16 by exact Hb; rewrite app_length; reflexivity).
  assert (HPo : positions (N.eqb c) (u ++ c :: v) 0 = positions (N.eqb c) u 0 ++ [length u]).
  { rewrite positions_app. cbn [positions]. rewrite N.eqb_refl, (positions_none _ v) by (intros x Hx; apply N.eqb_neq; intros <-; exact (Hn Hx)). reflexivity. }
  pose proof (positions_sorted (N.eqb c) (u ++ c :: v) 0) as HS. rewrite HPo in *. rewrite HU. split.
  - intros H. specialize (H (occurrences c u) (length u)). rewrite nth_error_app2 in H by (rewrite positions_count; lia). rewrite positions_count, Nat.sub_diag in H. specialize (H eq_refl). lia.
  - intros H j p Hj. pose proof (sorted_room _ _ HS j p Hj) as Hr. rewrite positions_count in Hr. lia.
Qed.
Print Assumptions C106_room.
Theorem C106_no_space : forall c s, ~ In c s -> roomy c s.
Proof. intros c s Hn j p Hj. rewrite positions_none in Hj by (intros x Hx; apply N.eqb_neq; intros <-; exact (Hn Hx)). destruct j; discriminate. Qed.
Print Assumptions C106_no_space.

(** And its decoder (Replace, ByteFallback, Fuse, Strip in sequence) turns all ids into the empty string. *)
Theorem C106_decode : forall t d ids skip r, tz_dec t = Some d -> has_stub d = true -> decode t ids skip = Ok r -> r = [].
Proof.
  intros t d ids skip r Hd Hs H. unfold decode in H. destruct (decode_ids t skip ids) as [tokens| | |]; cbn [bind] in H; try discriminate. rewrite Hd in H.
  destruct (decode_chain d tokens) as [out| | |] eqn:Eo; cbn [bind] in H; try discriminate. injection H as <-. exact (proj2 (proj2 (PropsDecoder.C20_no_text_iff d)) Hs tokens out Eo).
Qed.
Print Assumptions C106_decode.

Definition ll_mark : bytes := [0xE2; 0x96; 0x81]%N.
Definition ll_vocab : smap Z := [(str "a", 0); (str "b", 1); (str "ab", 2); (str "<unk>", 3)]%Z.
Definition ll_bpe : bpe := mkBpe ll_vocab [((0, 1), (0, 2))]%Z (QArith_base.Qmake 0 1) (str "<unk>") [] [] true true false.
Definition ll_tz : tokenizer := mkTz None None (Some (new_added_vocab [])) (Some (NSequence [NPrepend ll_mark; NReplace (str " ") ll_mark])) None (Some (MBpe ll_bpe []))
  (Some (DSequence [DReplace ll_mark (str " "); DByteFallback; DFuse; DStrip (str " ") 1 0])) None.
Example C106_case : pq_ok test_env /\ new_bpe ll_vocab [str "a b"] (QArith_base.Qmake 0 1) (str "<unk>") [] [] true true false = Ok ll_bpe /\ finds_literally test_env 32 /\ e_inplace test_env = true /\
  convert_from_string ll_mark = Ok [0x2581%N] /\ (forall s, nothing_added ll_tz s (0x2581%N :: marked 32 0x2581 s)) /\
  roomy 32 (str "ab ab") /\ encodable ll_bpe (0x2581%N :: marked 32 0x2581 (str "ab ab")) /\ ~ roomy 32 (str "a b a b") /\
  (exists r, snd (encode test_env 10 ll_tz (str "ab ab") false) = Ok r /\ en_tokens r = [str "<unk>"; str "ab"; str "<unk>"; str "ab"] /\ en_offsets r = [(0, 3); (3, 5); (5, 8); (8, 10)]) /\
  snd (encode test_env 10 ll_tz (str "a b a b") false) = Undef OobIndex /\ decode ll_tz [2; 0]%Z false = Ok [].
Proof.
  split; [exact test_env_pq|]. split; [vm_compute; reflexivity|]. split; [exact (proj1 C55_case)|]. split; [reflexivity|]. split; [reflexivity|].
  split; [intros s; exists (new_added_vocab []); split; [reflexivity|]; split; intros x y i _ _ Hin; destruct Hin|].
  split; [apply (proj2 (C106_room 32 (str "ab") (str "ab") ltac:(repeat constructor) eq_refl ltac:(cbn; intros [|[|[]]]; discriminate))); cbn; lia|].
  split; [right; vm_compute; lia|].
  split; [intros H; apply (proj1 (C106_room 32 (str "a b a") (str "b") ltac:(repeat constructor) eq_refl ltac:(cbn; intros [|[]]; discriminate))) in H; cbn in H; lia|].
  split; [eexists; split; [vm_compute; reflexivity|]; split; reflexivity|]. split; vm_compute; reflexivity.
Qed.
Example C106_offsets_case : (forall i, ~ whole_word ll_bpe (0x2581%N :: marked 32 0x2581 (str "ab ab")) i) /\
  covered ll_bpe (utf8_encs (0x2581%N :: marked 32 0x2581 (str "ab ab"))) = 10 /\ length (utf8_encs (0x2581%N :: marked 32 0x2581 (str "ab ab"))) = 10.
Proof. split; [intros i [H _]; discriminate|]. split; vm_compute; reflexivity. Qed.
Definition zh_bpe_tz (b : bool) : tokenizer := mkTz None None (Some (new_added_vocab [])) (Some (NBert true true b b)) (Some TBert) (Some (MBpe ll_bpe [])) None None.
Example C104_bpe_case : forall b, bert_steps test_env true true b b zh_text zh_norm [0; 0; 0; 1; 2; 3] [1; 3; 1; 1; 1; 1] [1; 3; 1; 1; 1; 1] /\
  Forall (fun p => encodable ll_bpe (snd p)) [(1, [0x4E2D%N]); (3, str "a"); (5, str "a")] /\
  exists r, snd (encode test_env 10 (zh_bpe_tz b) zh_text false) = Ok r /\ en_tokens r = [str "<unk>"; str "a"; str "a"] /\ en_offsets r = [(0, 3); (1, 2); (3, 4)].
Proof.
  intros b. split; [exact (proj1 (proj2 (proj2 (C104_case b))))|]. split; [repeat (constructor; [right; vm_compute; lia|]); constructor|]. destruct b; (eexists; split; [vm_compute; reflexivity|]; split; reflexivity).
Qed.
