(** C122: whole tokenizers with ByteLevel's add_prefix_space. *)
From Verif Require Import Base BaseFacts Unicode UnicodeProofs Common Utils PostProcessor Decoder Normalizer PreTokenizer WordPiece Bpe AddedVocab Tokenizer
  Spec PostSpec DecSpec NormSpec NormProofs PreSpec PreProofs AvSpec AvProofs ExtractProofs TzSpec TzProofs WpSpec WpProofs OffSpec OffProofs RefSpec RefProofs MixSpec MixProofs HistSpec HistProofs BpeSpec BpeProofs BpeWord UnkSpec ByteSpec
  PropsReference PropsEncode PropsPre PropsOffsets PropsBpe PropsByteBpe BpeRefSpec PropsBpeText PropsStrip PropsLlama PropsParts CutSpec PropsCut PartsSpec PrefixSpec Env.
From Coq Require Import ZifyBool ZifyNat.

(** *** The table after the space was added *)
Definition prefix_ns (s : wstr) (junk : list (nat * nat)) : nstring :=
  mkNs (32%N :: s) (tab_ranges 0 (((0, 1), 1) :: numbered 0 (unit_sizes s))) (tab_offsets (((0, 1), 1) :: numbered 0 (unit_sizes s)) ++ junk).
Lemma rebase_tab bl : forall a b, rebase_ranges a (tab_ranges b bl) = tab_ranges a bl.
Proof. intros a b. apply rebase_tab_ranges. Qed.
Lemma add_space c r junk : forallb valid_cp (c :: r) = true ->
  transform (set_text (numbered_ns (unit_sizes (c :: r)) junk (c :: r)) (32%N :: c :: r)) 0 (OpAdd 1) = Ok (prefix_ns (c :: r) junk).
Proof.
  intros Hv. pose proof (valid_unit_sizes _ Hv) as HL. pose proof (unit_sizes_pos (c :: r)) as HP. unfold prefix_ns. destruct (unit_sizes (c :: r)) as [|z zs] eqn:EZ.
  { cbn [length] in HL. rewrite units_cons in HL. pose proof (cp_width_pos c). lia. }
  inversion HP as [|? ? P1 _]; subst. unfold numbered_ns. cbn [numbered tab_ranges tab_offsets flat_map fst snd set_text]. unfold transform. cbn [ns_ranges ns_offsets vat nth_error bind].
  unfold set_text. cbn [ns_ranges ns_offsets ns_text]. destruct z as [|z]; [lia|]. cbn [vat nth_error bind].
  cbn [repeat app]. unfold verase. cbn [Nat.leb length Nat.add]. cbn [andb firstn skipn app bind]. unfold vinsert. cbn [Nat.leb firstn skipn app bind length vat nth_error Nat.add].
  unfold refresh_from. cbn [firstn app nth skipn]. unfold pair_end. cbn [fst snd]. rewrite rebase_tab. reflexivity.
Qed.
Lemma prefix_base s junk sp : forallb valid_cp s = true -> split_base (prefix_ns s junk) sp = if fst (sp_off sp) <=? units s then Ok (fst (sp_off sp) - 1) else Undef OobIndex.
Proof.
  intros Hv. pose proof (valid_unit_sizes _ Hv) as HL. rewrite base_origin. destruct (fst (sp_off sp)) as [|i] eqn:Ei.
  { unfold origin, prefix_ns. cbn. reflexivity. }
  assert (HO : origin (prefix_ns s junk) (S i) = origin (numbered_ns (unit_sizes s) junk s) i).
  { unfold origin, prefix_ns, numbered_ns. cbn [ns_ranges ns_offsets tab_ranges nth_error]. rewrite <- (rebase_tab (numbered 0 (unit_sizes s)) (0 + 1) 0).
    assert (G : forall l a b k, nth_error (rebase_ranges (S b) (tab_ranges a l)) k = option_map (fun p => (S (fst p), snd p)) (nth_error (rebase_ranges b (tab_ranges a l)) k)).
    { clear. intros l a b. rewrite !rebase_tab. clear a. revert b. induction l as [|[o n] l IH]; intros b [|k]; cbn [tab_ranges nth_error option_map fst snd]; try reflexivity. rewrite <- IH. reflexivity. }
    change (0 + 1) with 1. rewrite (G (numbered 0 (unit_sizes s)) 0 0 i), rebase_tab. destruct (nth_error (tab_ranges 0 (numbered 0 (unit_sizes s))) i) as [[st n]|]; [|reflexivity]. cbn [option_map fst snd]. reflexivity. }
  rewrite HO. destruct (Nat.leb_spec (S i) (units s)) as [Hle|Hgt].
  - rewrite numbered_origin; [|apply unit_sizes_pos | lia]. cbn [unit_span fst]. f_equal. lia.
  - unfold origin, numbered_ns. cbn [ns_ranges]. rewrite (proj2 (nth_error_None _ _)); [reflexivity|]. rewrite OffProofs.tab_ranges_length. rewrite <- (map_length snd), numbered_snd. lia.
Qed.

(** *** What reaches the pre-tokenizer *)
Lemma keeps_prepare E t s : s <> [] -> forallb valid_cp s = true -> keeps_positions E t s -> exists av junk ss,
  prepare E t s = (p2 <- match tz_pre t with Some pt => pre_tokenize E pt (mkPt (numbered_ns (unit_sizes s) junk s) ss) | None => Ok (mkPt (numbered_ns (unit_sizes s) junk s) ss) end ;; Ok (av, p2)).
Proof.
  intros Hne Hv [(n & Hvn & HN)|(HE & Hs & av & v & ops & g & Hav & Hd & Hvne & HH & Hsim & Hf & Hg)].
  - destruct (prepare_in_place E t s n Hne Hv Hvn HN) as (av & junk & k & H). eauto.
  - set (t0 := mkTz (tz_trunc t) (tz_pad t) (tz_av t) (tz_norm t) None (tz_model t) (tz_dec t) (tz_post t)).
    destruct (prepare_added E t0 g v ops av s HE Hd Hvne HH Hsim Hf Hav Hg) as (l & junk & ss & _ & H & _); try assumption; [discriminate|].
    unfold prepare in *. cbn [t0 tz_av tz_norm tz_pre] in H. destruct (new_pretok (new_nstring s)) as [p0| | |]; cbn [bind] in *; try discriminate.
    rewrite Hav in *. destruct (extract_and_normalize E av (tz_norm t) s) as [[m p]| | |]; cbn [bind] in *; try discriminate. assert (p = mkPt (numbered_ns (unit_sizes s) junk s) ss) as -> by congruence.
    exists (Some (set_map_r av m)), junk, ss. destruct (tz_pre t); reflexivity.
Qed.
Lemma pre_sequence E q l p : pre_tokenize E (TSequence (q :: l)) p = (p' <- pre_tokenize E q p ;; pre_tokenize E (TSequence l) p').
Proof. reflexivity. Qed.
Lemma prefixing_pre E rx rest pt p : prefixing rx rest pt -> pre_tokenize E pt p = pre_tokenize E (TSequence (TByteLevel true rx :: rest)) p.
Proof. intros [|rest']; [|reflexivity]. rewrite pre_sequence. destruct (pre_tokenize E (TByteLevel true rx) p); reflexivity. Qed.
Lemma byte_level_true E rx p : pre_tokenize E (TByteLevel true rx) p = (p0 <- add_prefix E p ;; pre_tokenize E (TByteLevel false rx) p0).
Proof. reflexivity. Qed.
Lemma prefixed_prepare E t rx rest pt c r : tz_pre t = Some pt -> prefixing rx rest pt -> forallb valid_cp (c :: r) = true -> e_iswspace E c = false -> keeps_positions E t (c :: r) -> exists av junk,
  prepare E t (c :: r) = (p2 <- pre_tokenize E (TSequence (TByteLevel false rx :: rest)) (mkPt (prefix_ns (c :: r) junk) [mkSplit (utf8_encs (32%N :: c :: r)) (0, length (32%N :: c :: r)) []]) ;; Ok (av, p2)).
Proof.
  intros Hp Hpf Hv Hc HK. destruct (keeps_prepare E t (c :: r) ltac:(discriminate) Hv HK) as (av & junk & ss & H). rewrite Hp in H. exists av, junk. rewrite H, (prefixing_pre E rx rest pt _ Hpf), !pre_sequence, byte_level_true.
  unfold add_prefix. cbn [pt_norm]. change (ns_text (numbered_ns (unit_sizes (c :: r)) junk (c :: r))) with (c :: r). cbv beta iota. rewrite Hc. rewrite add_space by exact Hv. cbn [bind]. unfold new_pretok. change (ns_text (prefix_ns (c :: r) junk)) with (32%N :: c :: r).
  unfold convert_to_string. change (forallb valid_cp (32%N :: c :: r)) with (forallb valid_cp (c :: r)). rewrite Hv. reflexivity.
Qed.
Lemma prefixed_pieces E t rx rest pt c r l : tz_pre t = Some pt -> prefixing rx rest pt -> forallb valid_cp (c :: r) = true -> e_iswspace E c = false -> keeps_positions E t (c :: r) ->
  prefixed_words E rx rest (c :: r) l ->
  all_valid l /\ exists av junk q, prepare E t (c :: r) = Ok (av, mkPt (prefix_ns (c :: r) junk) (map (fun p => mkSplit (utf8_encs (fst p)) (snd p) []) q)) /\ map (fun p : wstr * (nat * nat) => (fst (snd p), fst p)) q = l.
Proof.
  intros Hp Hpf Hv Hc HK HW. destruct (prefixed_prepare E t rx rest pt c r Hp Hpf Hv Hc HK) as (av & junk & H). rewrite H. unfold prefixed_words in HW.
  destruct (pre_cuts E _ _ _ (prefix_ns (c :: r) junk) [mkSplit (utf8_encs (32%N :: c :: r)) (0, length (32%N :: c :: r)) []] HW) as (A & ss & B & C).
  - constructor; [exact Hv | constructor].
  - constructor; [repeat split | constructor].
  - rewrite B. cbn [bind]. destruct (holds_shape _ _ C) as (q & -> & Q). split; [exact A|]. eauto.
Qed.

(** *** Rows *)
Lemma wp_rows_at w ns (f : nat -> nat) : forall q out i, all_valid (map (fun p : wstr * (nat * nat) => (fst (snd p), fst p)) q) ->
  Forall2 (fun s s' => sp_text s' = sp_text s /\ sp_off s' = sp_off s /\ wp_word w (sp_text s) = Ok (sp_tokens s')) (map (fun p => mkSplit (utf8_encs (fst p)) (snd p) []) q) out ->
  (forall x o ts, In (x, o) q -> split_base ns (mkSplit x o ts) = Ok (f (fst o))) ->
  exists e, into_rows ns 0 i out = Ok e /\ rows_of_words (word_tokens w) i (map (fun p : wstr * (nat * nat) => (f (fst (snd p)), fst p)) q) (rows e).
Proof.
  induction q as [|[x o] q IH]; intros out i Hv HF HB; cbn [map] in *; inversion HF as [|? s' ? out' (A1 & A2 & A3) HF']; subst; [eexists; split; [reflexivity | constructor]|].
  inversion Hv as [|? ? V1 V2]; subst. cbn [fst snd sp_text sp_off] in *. destruct (IH out' (S i) V2 HF') as (e & E1 & E2); [intros y o' ts Hy; apply HB; right; exact Hy|]. cbn [into_rows].
  assert (Hs : split_base ns s' = Ok (f (fst o))) by (specialize (HB x o [] (or_introl eq_refl)); unfold split_base in *; cbn [sp_off] in HB; rewrite A2; exact HB).
  rewrite Hs. cbn [bind]. rewrite E1. cbn [bind]. eexists. split; [reflexivity|]. rewrite rows_append by apply split_rows_flat. rewrite split_rows_rows. apply rw_cons; [apply word_tokens_word; assumption | exact E2].
Qed.
Lemma prefix_rows_past s junk : forallb valid_cp s = true -> forall l i, Exists (fun x => units s < fst (sp_off x)) l -> into_rows (prefix_ns s junk) 0 i l = Undef OobIndex.
Proof.
  intros Hv. induction l as [|x l IH]; intros i H; [inversion H|]. cbn [into_rows]. rewrite prefix_base by exact Hv. destruct (Nat.leb_spec (fst (sp_off x)) (units s)) as [Hlt|Hge]; [|reflexivity].
  cbn [bind]. rewrite IH; [reflexivity|]. inversion H as [? ? Hx|? ? Hx]; subst; [lia | exact Hx].
Qed.

(** ** C122 *)
(** encode of a WordPiece tokenizer whose pre-tokenizer begins with ByteLevel(add_prefix_space), on a text that does not begin with white space: the words are those of the text with a space in front, made of the
    text as it was given (neither the normalizer nor the added tokens matter), and they are reported one position to the left, the first one at 0; a word cut past the end of the text is undefined behaviour. *)
Theorem C122_wordpiece : forall E fuel t w pt rx rest c r l add, tz_model t = Some (MWordPiece w) -> tz_pre t = Some pt -> prefixing rx rest pt ->
  forallb valid_cp (c :: r) = true -> e_iswspace E c = false -> keeps_positions E t (c :: r) -> prefixed_words E rx rest (c :: r) l ->
  (Forall (fun p => fst p <= units (c :: r)) l -> exists e, snd (encode E fuel (bare t) (c :: r) add) = Ok e /\ en_overflowing e = [] /\ flat_parallel e /\ rows_of_words (word_tokens w) 0 (reported l) (rows e)) /\
  (Exists (fun p => units (c :: r) < fst p) l -> snd (encode E fuel t (c :: r) add) = Undef OobIndex).
Proof.
  intros E fuel t w pt rx rest c r l add Hm Hp Hpf Hv Hc HK HW. destruct (prefixed_pieces E t rx rest pt c r l Hp Hpf Hv Hc HK HW) as (A & av & junk & q & Q1 & <-).
  rewrite (encode_stages E fuel t), !encode_bare. unfold text_encoding. rewrite Q1. cbn [bind]. rewrite Hm. cbn [model_tokenize snd].
  destruct (wp_tokenize_ok w (mkPt (prefix_ns (c :: r) junk) (map (fun p => mkSplit (utf8_encs (fst p)) (snd p) []) q))) as (out & Hl & HF). cbn [pt_splits pt_norm] in HF, Hl. rewrite Hl. cbn [bind]. unfold into_encoding. cbn [pt_norm pt_splits]. split.
  - intros HP. destruct (wp_rows_at w (prefix_ns (c :: r) junk) (fun n => n - 1) q out 0 A HF) as (e & E1 & E2).
    { intros x o ts Hin. rewrite prefix_base by exact Hv. cbn [sp_off]. rewrite Forall_map in HP. pose proof (proj1 (Forall_forall _ _) HP (x, o) Hin) as K. cbn [fst snd] in K. replace (fst o <=? units (c :: r)) with true by lia. reflexivity. }
    exists e. split; [exact E1|]. destruct (into_rows_flat _ _ _ _ _ E1) as [F1 F2]. split; [exact F2|]. split; [exact F1|]. unfold reported. rewrite map_map. exact E2.
  - intros HP. rewrite prefix_rows_past; [reflexivity | exact Hv|]. clear - HF HP. revert out HF. induction q as [|[x o] q IH]; intros out HF; cbn [map] in *; inversion HF as [|? s' ? out' (A1 & A2 & A3) HF']; subst; inversion HP as [? ? H|? ? H]; subst.
    + left. rewrite A2. exact H.
    + right. apply IH; assumption.
Qed.
Print Assumptions C122_wordpiece.
(** The same for BPE, when every word has something in the vocabulary; and only then. *)
Theorem C122_bpe : forall E fuel t vocab merges d unk pre suf fu bf ig b k pt rx rest c r l add, pq_ok E -> new_bpe vocab merges d unk pre suf fu bf ig = Ok b ->
  tz_model t = Some (MBpe b k) -> reach_cache E b k -> tz_pre t = Some pt -> prefixing rx rest pt ->
  forallb valid_cp (c :: r) = true -> e_iswspace E c = false -> keeps_positions E t (c :: r) -> prefixed_words E rx rest (c :: r) l ->
  (Forall (fun p => encodable b (snd p)) l -> Forall (fun p => fst p <= units (c :: r)) l ->
     exists e, snd (encode E fuel (bare t) (c :: r) add) = Ok e /\ en_overflowing e = [] /\ flat_parallel e /\ rows_of_words (bpe_tokens b) 0 (reported l) (rows e)) /\
  (Exists (fun p => ~ encodable b (snd p)) l \/ Exists (fun p => units (c :: r) < fst p) l -> snd (encode E fuel t (c :: r) add) = Undef OobIndex).
Proof.
  intros E fuel t vocab merges d unk pre suf fu bf ig b k pt rx rest c r l add Hq Hb Hm Hr Hp Hpf Hv Hc HK HW. destruct (prefixed_pieces E t rx rest pt c r l Hp Hpf Hv Hc HK HW) as (A & av & junk & q & Q1 & <-).
  assert (Hmt : forall p, snd (model_tokenize E (MBpe b k) p) = snd (bpe_tokenize E b k p)) by (intros p; cbn [model_tokenize]; destruct (bpe_tokenize E b k p); reflexivity).
  assert (HT : text_encoding E t (c :: r) = (l <- plain_words E b (map (fun p => mkSplit (utf8_encs (fst p)) (snd p) []) q) ;; into_rows (prefix_ns (c :: r) junk) 0 0 l)).
  { unfold text_encoding. rewrite Q1. cbn [bind]. rewrite Hm, Hmt, (proj1 (bpe_tokenize_transparent E b k _ (reach_cache_ok E b k Hr))). cbn [pt_splits pt_norm]. destruct (plain_words E b _); reflexivity. }
  rewrite !Forall_map, !Exists_map. cbn [fst snd]. destruct (words_cases E b vocab merges d unk pre suf fu bf ig Hq Hb q) as [(Hl & out & O1 & O2)|(Hl & O1)]; rewrite O1 in HT; cbn [bind] in HT.
  - split.
    + intros _ HP. rewrite encode_bare, HT. destruct (bpe_rows_at E b (prefix_ns (c :: r) junk) (fun n => n - 1) q out 0 O2) as (e & E1 & E2).
      { apply Forall_forall. intros [x o] Hin tx ts. cbn [fst snd]. rewrite prefix_base by exact Hv. cbn [sp_off]. pose proof (proj1 (Forall_forall _ _) HP (x, o) Hin) as K. cbn [fst snd] in K. replace (fst o <=? units (c :: r)) with true by lia. reflexivity. }
      exists e. split; [exact E1|]. destruct (into_rows_flat _ _ _ _ _ E1) as [F1 F2]. split; [exact F2|]. split; [exact F1|]. unfold reported. rewrite map_map. cbn [fst snd]. eapply words_weaken; [|exact E2]. intros [pos x] ts _ Hx. cbn [snd] in *. unfold runs in Hx.
      destruct (word_cases E b vocab merges d unk pre suf fu bf ig Hq Hb x) as [(_ & ts' & T1 & T2)|(_ & T1)]; [|congruence]. assert (ts' = ts) by congruence. subst ts'. exact T2.
    + intros [HX|HX].
      * exfalso. revert HX. apply Forall_Exists_neg. eapply Forall_impl; [|exact Hl]. cbn. auto.
      * rewrite encode_stages, encode_bare, HT, prefix_rows_past; [reflexivity | exact Hv|]. clear - O2 HX. induction O2 as [|p s' q out' [A1 A2] _ IH]; [inversion HX|]. inversion HX as [? ? H|? ? H]; subst; [left; rewrite A1; exact H | right; apply IH; exact H].
  - split; [intros HX; contradiction|]. intros _. rewrite encode_stages, encode_bare, HT. reflexivity.
Qed.
Print Assumptions C122_bpe.

(** *** The stored table is only read when positions are reported *)
Lemma pre_free E : forall t, no_prefix t -> forall ss, exists R, forall ns, pre_tokenize E t (mkPt ns ss) = (l <- R ;; Ok (mkPt ns l)).
Proof.
  fix IH 1. intros [|pat b iv|aps rx|ts] H ss; cbn [no_prefix] in H.
  - exists (Ok (flat_map (bert_out E) ss)). intros ns. cbn [pre_tokenize]. rewrite bert_pre_spec. reflexivity.
  - cbn [pre_tokenize]. unfold split_pre_tokenize, pt_split. cbn [pt_splits pt_norm]. eexists. intros ns. reflexivity.
  - subst aps. cbn [pre_tokenize]. unfold byte_level_pre_tokenize, pt_split. cbn [bind pt_splits pt_norm].
    exists (l <- split_all (fun u => if rx then find_matches E byte_level_pattern u else Ok [((0, length u), false)]) ISOLATED ss ;; mapM (fun s => t <- byte_level_text E (sp_text s) ;; Ok (mkSplit t (sp_off s) (sp_tokens s))) l).
    intros ns. destruct (split_all _ _ ss) as [l| | |]; cbn [bind pt_splits pt_norm]; reflexivity.
  - revert ss. induction ts as [|q ts IHs]; intros ss.
    + exists (Ok ss). intros ns. reflexivity.
    + destruct H as [H1 H2]. destruct (IH q H1 ss) as (R & HR). destruct R as [l|e|u|]; [destruct (IHs H2 l) as (R' & HR'); exists R'; intros ns; rewrite pre_sequence, HR; cbn [bind]; apply HR' | ..].
      * exists (Throw e). intros ns. rewrite pre_sequence, HR. reflexivity.
      * exists (Undef u). intros ns. rewrite pre_sequence, HR. reflexivity.
      * exists Diverge. intros ns. rewrite pre_sequence, HR. reflexivity.
Qed.
Lemma model_free E m ss : exists R, forall ns, snd (model_tokenize E m (mkPt ns ss)) = (l <- R ;; Ok (mkPt ns l)).
Proof.
  destruct m as [w|b k]; cbn [model_tokenize].
  - unfold wp_tokenize. cbn [pt_splits pt_norm snd]. eexists. intros ns. reflexivity.
  - unfold bpe_tokenize. cbn [pt_splits pt_norm]. destruct (bpe_splits E b k ss) as [k' R]. exists R. intros ns. reflexivity.
Qed.
Lemma rows_free ns ns' : (forall sp, split_base ns sp = split_base ns' sp) -> forall l i, into_rows ns 0 i l = into_rows ns' 0 i l.
Proof. intros H. induction l as [|x l IH]; intros i; [reflexivity|]. cbn [into_rows]. rewrite H, IH. reflexivity. Qed.
Lemma seq_no_prefix l : Forall no_prefix l -> no_prefix (TSequence l).
Proof. cbn [no_prefix]. induction 1; auto. Qed.

(** So nothing that comes before the pre-tokenizer counts: the tokenizer acts as one without normalizer and without added tokens. *)
Theorem C122_forgotten : forall E fuel t pt rx rest c r add, tz_pre t = Some pt -> prefixing rx rest pt -> Forall no_prefix rest ->
  forallb valid_cp (c :: r) = true -> e_iswspace E c = false -> keeps_positions E t (c :: r) ->
  snd (encode E fuel t (c :: r) add) = snd (encode E fuel (unprepared t) (c :: r) add).
Proof.
  intros E fuel t pt rx rest c r add Hp Hpf Hnp Hv Hc HK.
  assert (HK' : keeps_positions E (unprepared t) (c :: r)).
  { left. exists (c :: r). split; [exact Hv|]. split; [reflexivity|]. split; [lia | discriminate]. }
  destruct (prefixed_prepare E t rx rest pt c r Hp Hpf Hv Hc HK) as (av & junk & H). destruct (prefixed_prepare E (unprepared t) rx rest pt c r Hp Hpf Hv Hc HK') as (av' & junk' & H').
  rewrite !encode_text. change (do_post_process fuel (unprepared t)) with (do_post_process fuel t). assert (HX : text_encoding E t (c :: r) = text_encoding E (unprepared t) (c :: r)); [|rewrite HX; reflexivity].
  unfold text_encoding. rewrite H, H'. change (tz_model (unprepared t)) with (tz_model t).
  destruct (pre_free E (TSequence (TByteLevel false rx :: rest))) with (ss := [mkSplit (utf8_encs (32%N :: c :: r)) (0, length (32%N :: c :: r)) []]) as (R & HR); [apply seq_no_prefix; constructor; [reflexivity | exact Hnp]|].
  rewrite !HR. destruct R as [ss| | |]; cbn [bind]; [|reflexivity..].
  assert (HB : forall sp, split_base (prefix_ns (c :: r) junk) sp = split_base (prefix_ns (c :: r) junk') sp) by (intros sp; rewrite !prefix_base by exact Hv; reflexivity).
  destruct (tz_model t) as [m|].
  - destruct (model_free E m ss) as (R & HR'). rewrite !HR'. destruct R as [l| | |]; cbn [bind]; [|reflexivity..]. unfold into_encoding. cbn [pt_norm pt_splits]. apply rows_free. exact HB.
  - cbn [bind]. unfold into_encoding. cbn [pt_norm pt_splits]. apply rows_free. exact HB.
Qed.
Print Assumptions C122_forgotten.

(** A text that begins with white space gets no space: the tokenizer acts as with add_prefix_space = false (C95, C121 say how). *)
Lemma normalize_splits_text E norm trie : forall l ns m k ns' m' l', normalize_splits E norm trie ns m k l = Ok (ns', m', l') -> ns_text ns' = ns_text ns.
Proof.
  induction l as [|s l IH]; intros ns m k ns' m' l' H; cbn [normalize_splits] in H; [inversion H; reflexivity|]. destruct (sp_tokens s).
  - apply bind_ok in H as (w & _ & H). apply bind_ok in H as (sub & _ & H). apply bind_ok in H as (ns1 & HT & H). apply bind_ok in H as (se & _ & H). apply bind_ok in H as ([m1 ms] & _ & H). apply bind_ok in H as (here & _ & H).
    apply bind_ok in H as ([[ns2 m2] rest] & HI & H). inversion H; subst. rewrite (IH _ _ _ _ _ _ HI). unfold transform_range in HT.
    repeat (apply bind_ok in HT as (? & _ & HT)). inversion HT. reflexivity.
  - apply bind_ok in H as ([[ns2 m2] rest] & HI & H). inversion H; subst. exact (IH _ _ _ _ _ _ HI).
Qed.
Lemma extract_text E av norm s m p : extract_and_normalize E av norm s = Ok (m, p) -> ns_text (pt_norm p) = s.
Proof.
  intros H. unfold extract_and_normalize in H. apply bind_ok in H as (p0 & H0 & H). unfold new_pretok in H0. apply bind_ok in H0 as (x & _ & H0). inversion H0; subst. cbn [pt_norm pt_splits] in H. apply bind_ok in H as (se & _ & H). apply bind_ok in H as ([m1 ms] & _ & H). apply bind_ok in H as (raw & _ & H).
  apply bind_ok in H as ([[ns m2] sp2] & HI & H). inversion H; subst. cbn [pt_norm]. rewrite (normalize_splits_text _ _ _ _ _ _ _ _ _ _ HI). apply fresh_packed.
Qed.
Theorem C122_white_space : forall E fuel t pt rx rest c r add, tz_pre t = Some pt -> prefixing rx rest pt -> e_iswspace E c = true ->
  snd (encode E fuel t (c :: r) add) = snd (encode E fuel (with_pre t (TSequence (TByteLevel false rx :: rest))) (c :: r) add).
Proof.
  intros E fuel t pt rx rest c r add Hp Hpf Hc. rewrite !encode_text. change (do_post_process fuel (with_pre t (TSequence (TByteLevel false rx :: rest)))) with (do_post_process fuel t).
  assert (HX : text_encoding E t (c :: r) = text_encoding E (with_pre t (TSequence (TByteLevel false rx :: rest))) (c :: r)); [|rewrite HX; reflexivity].
  unfold text_encoding. change (tz_model (with_pre t (TSequence (TByteLevel false rx :: rest)))) with (tz_model t).
  assert (HQ : prepare E t (c :: r) = prepare E (with_pre t (TSequence (TByteLevel false rx :: rest))) (c :: r)); [|rewrite HQ; reflexivity].
  unfold prepare. cbn [with_pre tz_av tz_norm tz_pre]. rewrite Hp. destruct (new_pretok (new_nstring (c :: r))) as [p0| | |] eqn:E0; [|reflexivity..]. cbn [bind].
  assert (HA : forall p, ns_text (pt_norm p) = c :: r -> pre_tokenize E pt p = pre_tokenize E (TSequence (TByteLevel false rx :: rest)) p).
  { intros p Ht. rewrite (prefixing_pre E rx rest pt p Hpf), !pre_sequence, byte_level_true. unfold add_prefix. rewrite Ht, Hc. reflexivity. }
  destruct (tz_av t) as [av|].
  - destruct (extract_and_normalize E av (tz_norm t) (c :: r)) as [[m p]| | |] eqn:EX; [|reflexivity..]. cbn [bind]. rewrite (HA p (extract_text _ _ _ _ _ _ EX)). reflexivity.
  - cbn [bind]. rewrite (HA p0); [reflexivity|]. unfold new_pretok in E0. apply bind_ok in E0 as (x & _ & E0). inversion E0. apply fresh_packed.
Qed.
Print Assumptions C122_white_space.

(** *** ByteLevel alone: every text is encoded *)
Lemma apostrophe_nonempty x l : apostrophe_pieces x l -> Forall (fun w => w <> []) l.
Proof. induction 1; constructor; auto; discriminate. Qed.
Lemma place_starts l : Forall (fun w : wstr => w <> []) l -> forall pos, Forall (fun p : nat * wstr => fst p < pos + units (concat l)) (place pos l).
Proof.
  induction 1 as [|w l Hw _ IH]; intros pos; [constructor|]. cbn [place concat]. rewrite units_app. pose proof (units_pos w Hw). constructor; [cbn [fst]; lia|].
  eapply Forall_impl; [|apply IH]. cbn beta. intros p Hp. lia.
Qed.
Lemma alone_words E rx x l : prefixed_words E rx [] x l -> Forall (fun p => fst p <= units x) l.
Proof.
  intros (m & (out & HO & ->) & ->). inversion HO as [|? ps ? o' (_ & pieces & P1 & P2) HO']; subst. inversion HO'; subst. cbn [concat]. rewrite app_nil_r. cbn [fst snd] in *. rewrite Forall_map. cbn [fst].
  assert (HN : Forall (fun w : wstr => w <> []) pieces) by (destruct rx; cbn [byte_pieces] in P1; [exact (apostrophe_nonempty _ _ P1) | subst pieces; constructor; [discriminate | constructor]]).
  eapply Forall_impl; [|exact (place_starts pieces HN 0)]. cbn beta. intros [pos y] Hp. cbn [fst] in *. rewrite (pieces_concat _ _ _ P1), units_cons in Hp. change (cp_width 32) with 1 in Hp. lia.
Qed.
Lemma alone_total E rx x : e_char_signed E = false \/ ascii x -> exists l, prefixed_words E rx [] x l /\ forall l', prefixed_words E rx [] x l' -> l' = l.
Proof.
  intros Ha. assert (HP : exists pieces, byte_pieces rx (32%N :: x) pieces) by (destruct rx; cbn [byte_pieces]; [apply apos_total | eauto]). destruct HP as (pieces & HP).
  assert (HW : prefixed_words E rx [] x (map (fun q => (fst q, map gpt2_cp (utf8_encs (snd q)))) (place 0 pieces))).
  { unfold prefixed_words. cbn [cuts_into]. eexists. split; [|reflexivity]. exists [map (fun q => (fst q, map gpt2_cp (utf8_encs (snd q)))) (place 0 pieces)]. split; [|cbn [concat]; rewrite app_nil_r; reflexivity]. constructor; [|constructor].
    split; [destruct Ha as [Ha|Ha]; [left; exact Ha | right; constructor; [lia | exact Ha]]|]. exists pieces. split; [exact HP | reflexivity]. }
  eexists. split; [exact HW|]. intros l' H'. exact (cuts_fun E _ _ _ _ H' HW).
Qed.
(** ByteLevel(add_prefix_space) alone, the usual configuration, where char is unsigned or on ASCII text: the words exist, are determined, and a WordPiece tokenizer encodes every text; a BPE tokenizer encodes it exactly when
    every word has something in the vocabulary. *)
Theorem C122_alone : forall E fuel t rx c r add, tz_pre t = Some (TByteLevel true rx) -> forallb valid_cp (c :: r) = true -> e_char_signed E = false \/ ascii (c :: r) -> e_iswspace E c = false -> keeps_positions E t (c :: r) ->
  exists l, prefixed_words E rx [] (c :: r) l /\ (forall l', prefixed_words E rx [] (c :: r) l' -> l' = l) /\
    (forall w, tz_model t = Some (MWordPiece w) -> exists e, snd (encode E fuel (bare t) (c :: r) add) = Ok e /\ en_overflowing e = [] /\ flat_parallel e /\ rows_of_words (word_tokens w) 0 (reported l) (rows e)) /\
    (forall vocab merges d unk pre suf fu bf ig b k, pq_ok E -> new_bpe vocab merges d unk pre suf fu bf ig = Ok b -> tz_model t = Some (MBpe b k) -> reach_cache E b k ->
       (Forall (fun p => encodable b (snd p)) l -> exists e, snd (encode E fuel (bare t) (c :: r) add) = Ok e /\ en_overflowing e = [] /\ flat_parallel e /\ rows_of_words (bpe_tokens b) 0 (reported l) (rows e)) /\
       (Exists (fun p => ~ encodable b (snd p)) l -> snd (encode E fuel t (c :: r) add) = Undef OobIndex)).
Proof.
  intros E fuel t rx c r add Hp Hv Ha Hc HK. destruct (alone_total E rx (c :: r) Ha) as (l & HW & HU). pose proof (alone_words E rx (c :: r) l HW) as HP. exists l. split; [exact HW|]. split; [exact HU|]. split.
  - intros w Hm. apply (C122_wordpiece E fuel t w _ rx [] c r l add Hm Hp (pf_alone rx) Hv Hc HK HW). exact HP.
  - intros vocab merges d unk pre suf fu bf ig b k Hq Hb Hm Hr. destruct (C122_bpe E fuel t vocab merges d unk pre suf fu bf ig b k _ rx [] c r l add Hq Hb Hm Hr Hp (pf_alone rx) Hv Hc HK HW) as [B1 B2]. split; [intros H; exact (B1 H HP) | intros H; apply B2; left; exact H].
Qed.
Print Assumptions C122_alone.

(** A case: a tokenizer that lower-cases and knows the added token <s>. *)
Definition g_space : bytes := [0xC4; 0xA0]%N.
Definition rob_vocab : smap Z := [(str "[UNK]", 0); (g_space ++ str "it", 1); (str "'s", 2); (str "<s>", 3); (g_space ++ str "<s>It", 4)]%Z.
Definition rob_tokens : list added_token := [mkAt 3 (str "<s>") false false false false true].
Definition rob_av : added_vocab := match av_add_tokens true (new_added_vocab rob_tokens) (Some rob_vocab) rob_tokens with Ok (av, _) => av | _ => new_added_vocab [] end.
Definition rob : tokenizer := mkTz None None (Some rob_av) (Some (NBert true true false true)) (Some (TByteLevel true true)) (Some (MWordPiece (mkWp rob_vocab (str "[UNK]") 100 (str "##")))) None None.
Lemma rob_keeps s : Forall printable s -> keeps_positions test_env rob s.
Proof.
  intros Hs. right. split; [exact test_ascii|]. split; [exact Hs|]. exists rob_av, rob_vocab, rob_tokens, lower_ascii. split; [reflexivity|].
  split; [split; [|split]; vm_compute; repeat (constructor; [cbn; intuition discriminate|]); try constructor; repeat (constructor; [vm_compute; split; congruence|]); constructor|]. split; [discriminate|].
  split; [eapply h_new; vm_compute; reflexivity|].
  split; [repeat (apply Forall_cons || apply Forall_nil); (split; [repeat split|]; split; [discriminate|]); cbv [at_content str]; repeat (apply Forall_cons || apply Forall_nil); reflexivity|].
  split; [intros t t' H H' E; cbn in H, H'; repeat (destruct H as [<-|H]; [repeat (destruct H' as [<-|H']; [try reflexivity; discriminate|]); destruct H'|]); destruct H|].
  intros c Hc. reflexivity.
Qed.
(** In "it's" the first word runs one position too far, the second one is right; in "<s>It" neither the token nor the lower-casing survive; " it" is treated as without the option. *)
Example C122_case : keeps_positions test_env rob (str "it's") /\ prefixed_words test_env true [] (str "it's") [(0, 0x120%N :: str "it"); (3, str "'s")] /\
  (exists e, snd (encode test_env 0 rob (str "it's") true) = Ok e /\ en_ids e = [1; 2]%Z /\ en_offsets e = [(0, 3); (2, 4)] /\ en_words e = [Some 0; Some 1]) /\
  keeps_positions test_env rob (str "<s>It") /\
  (exists e, snd (encode test_env 0 rob (str "<s>It") true) = Ok e /\ en_ids e = [4]%Z /\ en_tokens e = [g_space ++ str "<s>It"]) /\
  snd (encode test_env 0 rob (str "<s>It") true) = snd (encode test_env 0 (unprepared rob) (str "<s>It") true) /\
  (exists e, snd (encode test_env 0 rob (str " IT") true) = Ok e /\ en_ids e = [1]%Z /\ en_offsets e = [(0, 3)]).
Proof.
  assert (HP : forall s, forallb (fun b => (32 <=? b) && (b <=? 126))%N s = true -> Forall printable s).
  { intros s H. apply Forall_forall. intros b Hb. rewrite forallb_forall in H. specialize (H b Hb). unfold printable. lia. }
  split; [apply rob_keeps, HP; reflexivity|]. split.
  { exists [(0, 0x120%N :: str "it"); (3, str "'s")]. split; [|reflexivity]. exists [[(0, 0x120%N :: str "it"); (3, str "'s")]]. split; [|reflexivity]. apply Forall2_cons; [|apply Forall2_nil].
    split; [right; cbv [str snd ascii]; repeat (apply Forall_cons; [reflexivity|]); apply Forall_nil|]. exists [str " it"; str "'s"]. split; [exact (apos_pieces_ok 5 (str " it's") (le_n _) [] [] (fun H => H)) | vm_compute; reflexivity]. }
  split; [eexists; split; [vm_compute; reflexivity | repeat split]|]. split; [apply rob_keeps, HP; reflexivity|].
  split; [eexists; split; [vm_compute; reflexivity | repeat split]|]. split; [vm_compute; reflexivity|]. eexists; split; [vm_compute; reflexivity | repeat split].
Qed.

Definition rob_bpe : tokenizer := mkTz None None None None (Some (TByteLevel true true)) (Some (MBpe (abt_bpe []) [])) None None.
(** The space, which ByteLevel writes as two bytes, is not in this vocabulary and gives no token. *)
Example C122_bpe_case : keeps_positions dash_env rob_bpe (str "ab") /\ prefixed_words dash_env true [] (str "ab") [(0, 0x120%N :: str "ab")] /\ encodable (abt_bpe []) (0x120%N :: str "ab") /\
  (exists e, snd (encode dash_env 0 rob_bpe (str "ab") true) = Ok e /\ en_ids e = [2]%Z /\ en_offsets e = [(0, 2)]) /\
  prefixed_words dash_env true [] (str "x") [(0, 0x120%N :: str "x")] /\ ~ encodable (abt_bpe []) (0x120%N :: str "x") /\ snd (encode dash_env 0 rob_bpe (str "x") true) = Undef OobIndex.
Proof.
  split; [left; exists (str "ab"); split; [reflexivity|]; split; [reflexivity|]; split; [apply le_n | discriminate]|].
  assert (HW : forall x, forallb (fun c => (c <? 128) && negb (c =? 39))%N x = true -> prefixed_words dash_env true [] x [(0, map gpt2_cp (utf8_encs (32%N :: x)))]).
  { intros x Hx. assert (Hasc : ascii (32%N :: x)) by (constructor; [lia|]; apply Forall_forall; intros c Hc; rewrite forallb_forall in Hx; specialize (Hx c Hc); lia).
    eexists. split; [|reflexivity]. exists [[(0, map gpt2_cp (utf8_encs (32%N :: x)))]]. split; [|reflexivity]. apply Forall2_cons; [|apply Forall2_nil]. split; [right; exact Hasc|].
    assert (Hno : ~ In 39%N (32%N :: x)) by (intros [Hc|Hc]; [discriminate Hc|]; rewrite forallb_forall in Hx; specialize (Hx _ Hc); discriminate Hx).
    pose proof (ap_text (32%N :: x) [] [] ltac:(discriminate) Hno (or_introl eq_refl) ap_end) as K. rewrite app_nil_r in K. exists [32%N :: x]. split; [exact K | reflexivity]. }
  split; [exact (HW (str "ab") eq_refl)|]. split; [right; vm_compute; lia|]. split; [eexists; split; [vm_compute; reflexivity | repeat split]|]. split; [exact (HW (str "x") eq_refl)|].
  split; [|vm_compute; reflexivity]. intros [(i & H & _)|H]; [discriminate H | vm_compute in H; lia].
Qed.
