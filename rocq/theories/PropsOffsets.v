(** Offsets of tokens, the BERT pipeline, normalization at encode level: C65, C69, C70. *)
From Verif Require Import Base BaseFacts Unicode UnicodeProofs Common Utils PostProcessor Decoder Normalizer PreTokenizer WordPiece Bpe AddedVocab Tokenizer Spec PostSpec
  NormSpec NormProofs PreSpec PreProofs AvSpec AvProofs ExtractProofs TzSpec TzProofs WpSpec WpProofs OffSpec OffProofs PropsEncode Env.
From Coq Require Import ZifyBool.

(** ** C65 *)
Lemma prepare_quiet E t s : (tz_av t <> None -> s <> []) -> forallb valid_cp s = true -> quiet E t s -> exists av junk n,
  prepare E t s = (p2 <- match tz_pre t with Some pt => pre_tokenize E pt (mkPt (numbered_ns (unit_sizes s) junk s) [mkSplit (utf8_encs s) (0, n) []])
                         | None => Ok (mkPt (numbered_ns (unit_sizes s) junk s) [mkSplit (utf8_encs s) (0, n) []]) end ;; Ok (av, p2)).
Proof.
  intros Hne Hv Hq. unfold prepare, quiet in *. unfold new_pretok. rewrite !fresh_numbered in *. cbn [ns_text numbered_ns]. unfold convert_to_string. rewrite Hv. cbn [bind]. destruct (tz_av t) as [av|].
  - specialize (Hne ltac:(discriminate)). destruct Hq as (Hn & Hr & Hm). destruct (extract_none E av (tz_norm t) s s Hne Hv Hr) as (junk & He); try assumption.
    { rewrite fresh_numbered. exact Hn. }
    rewrite He. cbn [bind]. eexists _, junk, (units s). reflexivity.
  - cbn [bind]. eexists _, [], (length s). reflexivity.
Qed.

Lemma valid_of_ok E fuel t s add r : snd (encode E fuel t s add) = Ok r -> forallb valid_cp s = true.
Proof.
  intros H. destruct (forallb valid_cp s) eqn:Ev; [reflexivity|]. exfalso. rewrite encode_text in H. unfold text_encoding, prepare, new_pretok in H. rewrite fresh_numbered in H. cbn [ns_text numbered_ns] in H. unfold convert_to_string in H. rewrite Ev in H. discriminate.
Qed.

(** Every token of the text lies where its offsets say: in every part of the result, a position with special mask 0 belongs to a piece of the text
    and its offsets delimit, in UTF-16 units of the original text, exactly the characters its token spells, or its whole word when it is the
    unknown token. *)
Theorem C65_offsets : forall E fuel t w s add r, tz_model t = Some (MWordPiece w) -> quiet E t s -> tz_cuts_only E t ->
  (forall p, tz_post t = Some p -> specials_ok p /\ no_trim p) -> snd (encode E fuel t s add) = Ok r ->
  exists pieces, text_pieces E t s = Ok pieces /\ forall x y, part r x -> In y (rows x) -> r_smask y = 0%Z -> located w s pieces y.
Proof.
  intros E fuel t w s add r Hm Hq Hc Hpp H. pose proof (valid_of_ok _ _ _ _ _ _ H) as Hv.
  apply (encode_located E fuel t w s s add r Hm Hpp); [|exact H]. intros core Hcore.
  assert (Hne : tz_av t <> None -> s <> []).
  { intros Hav ->. destruct (tz_av t) as [av|] eqn:Eav; [|congruence]. rewrite (C64_empty_text_refuted E fuel t add av Eav) in H; [discriminate|]. exists (new_nstring []). unfold quiet in Hq. rewrite Eav in Hq. apply Hq. }
  destruct (prepare_quiet E t s Hne Hv Hq) as (av & junk & n & Hprep).
  refine (text_located E t w s s _ av Hm Hv Hc Hprep _ _ core Hcore); cbn [pt_norm pt_splits].
  - intros sp base. apply base_defined, unit_sizes_pos.
  - apply Forall_cons; [apply whole_placed | apply Forall_nil].
Qed.
Print Assumptions C65_offsets.

(** ... and when no match of a pattern is empty the text is always encoded: no exception and no undefined behaviour before post-processing. *)
Theorem C65_defined : forall E t w s, tz_model t = Some (MWordPiece w) -> s <> [] -> forallb valid_cp s = true -> quiet E t s -> tz_cuts_nonempty E t ->
  exists core, text_encoding E t s = Ok core.
Proof.
  intros E t w s Hm Hne Hv Hq Hc. destruct (prepare_quiet E t s (fun _ => Hne) Hv Hq) as (av & junk & n & Hprep).
  refine (text_defined E t w s s _ av Hm Hv Hc Hprep _ _); cbn [pt_norm pt_splits].
  - intros sp Hsp. exists (fst (sp_off sp)). apply base_numbered; [apply unit_sizes_pos|]. rewrite valid_unit_sizes by exact Hv. exact Hsp.
  - apply Forall_cons; [|apply Forall_nil]. exists [], s. split; [|exact Hne]. split; [exists []; rewrite app_nil_r; reflexivity | split; reflexivity].
Qed.
Print Assumptions C65_defined.

(** A tokenizer without normalizer, on a text with a supplementary character: the hypotheses hold and the offsets are as stated. *)
Definition smile : wstr := (str "chess " ++ [0x1F600%N] ++ str " playing,")%list.
Example C65_case : quiet test_env (demo None None (Some demo_template)) smile /\ tz_cuts_nonempty test_env (demo None None (Some demo_template)) /\
  exists r, snd (encode test_env 10 (demo None None (Some demo_template)) smile true) = Ok r /\
  en_tokens r = [str "[CLS]"; str "chess"; str "[UNK]"; str "play"; str "##ing"; str ","; str "[SEP]"] /\
  en_offsets r = [(0, 0); (0, 5); (6, 8); (9, 13); (13, 16); (16, 17); (0, 0)].
Proof.
  split; [|split; [exact I|]].
  - split; [reflexivity|]. split; apply no_added_check_ok; vm_compute; reflexivity.
  - eexists. split; [vm_compute; reflexivity|]. split; reflexivity.
Qed.

(** ** C69 *)
Lemma printable_slice s a b : Forall printable s -> Forall printable (slice s a b).
Proof. apply slice_all. Qed.
Lemma printable_lower c : printable c -> printable (lower_ascii c).
Proof. unfold printable, lower_ascii. destruct ((65 <=? c) && (c <=? 90))%N eqn:E; lia. Qed.
Lemma printable_bmp s : Forall printable s -> bmp s.
Proof. apply Forall_impl. unfold printable. intros. lia. Qed.
Lemma printable_valid s : Forall printable s -> forallb valid_cp s = true.
Proof. intros H. apply forallb_forall. intros c Hc. apply valid_cp_spec. pose proof (proj1 (Forall_forall _ _) H c Hc) as K. unfold printable in K. lia. Qed.
Lemma printable_ascii s : Forall printable s -> ascii s.
Proof. apply Forall_impl. unfold printable. intros. lia. Qed.
Lemma bert_run E cl ch st lo s : ascii_env E -> Forall printable s -> run_norm E (Some (NBert cl ch st lo)) s = Ok (set_text (new_nstring s) (map (fun c => if lo then lower_ascii c else c) s)).
Proof.
  intros HE Hs. cbn [run_norm normalize]. destruct (fresh_packed s) as [HP Ht]. rewrite (bert_ascii E cl ch st lo _ _ HE HP); rewrite Ht; [reflexivity | | exact Hs]. rewrite unit_blocks_length. apply utf16_len_ge.
Qed.
Lemma lower_twice c : lower_ascii (lower_ascii c) = lower_ascii c.
Proof. unfold lower_ascii. destruct ((65 <=? c) && (c <=? 90))%N eqn:E; [|rewrite E; reflexivity]. destruct ((65 <=? c + 32) && (c + 32 <=? 90))%N eqn:E2; [lia | reflexivity]. Qed.

Section Bert.
Context (E : env) (t : tokenizer) (w : wordpiece) (av : added_vocab) (cl ch st : bool) (s : wstr).
Hypothesis HE : ascii_env E.
Hypothesis Hav : tz_av t = Some av.
Hypothesis Hnorm : tz_norm t = Some (NBert cl ch st true).
Hypothesis Hpre : tz_pre t = Some TBert.
Hypothesis Hmodel : tz_model t = Some (MWordPiece w).
Hypothesis Hplain : plain_added av.
Hypothesis Hs : Forall printable s.
Hypothesis Hne : s <> [].

Lemma bert_prepare : exists junk, prepare E t s = (p2 <- match tz_pre t with Some pt => pre_tokenize E pt (mkPt (numbered_ns (unit_sizes s) junk s) (flat_map (extracted_seg lower_ascii (av_trie_norm av) s) (segs_of (av_trie_raw av) s)))
   | None => Ok (mkPt (numbered_ns (unit_sizes s) junk s) (flat_map (extracted_seg lower_ascii (av_trie_norm av) s) (segs_of (av_trie_raw av) s))) end ;; Ok (Some (set_map_r av (av_map_r av)), p2)).
Proof.
  destruct Hplain as (Hp1 & Hp2 & Hp3). apply Forall_app in Hp3 as [Hp3 Hp4].
  destruct (extract_pointwise E av (tz_norm t) lower_ascii s Hne (printable_bmp s Hs) (printable_valid s Hs)) as (junk & Hj); try assumption.
  - intros a b. apply printable_bmp. rewrite Forall_map. eapply Forall_impl; [|apply printable_slice; exact Hs]. apply printable_lower.
  - intros a b. apply printable_valid. rewrite Forall_map. eapply Forall_impl; [|apply printable_slice; exact Hs]. apply printable_lower.
  - intros a b _ _. rewrite Hnorm, (bert_run E cl ch st true _ HE) by (apply printable_slice; exact Hs). reflexivity.
  - eapply Forall_impl; [|exact Hp3]. intros p K. apply K.
  - exists junk. unfold prepare. rewrite Hav, Hj. unfold new_pretok. rewrite fresh_numbered. cbn [ns_text numbered_ns]. unfold convert_to_string. rewrite printable_valid by exact Hs. reflexivity.
Qed.

Let text := seen lower_ascii s (segs_of (av_trie_raw av) s).
Lemma text_case : map lower_ascii text = map lower_ascii s /\ Forall printable text /\ length text = length s.
Proof.
  assert (H : Forall2 (fun c d => printable c -> lower_ascii d = lower_ascii c /\ printable d) s text).
  { apply (seen_related lower_ascii s (fun c d => printable c -> lower_ascii d = lower_ascii c /\ printable d)) with (a := 0); [auto | | apply segs_chained].
    intros c _ Hc. split; [apply lower_twice | apply printable_lower; exact Hc]. }
  clear - H Hs. induction H as [|c d s' t' Hcd _ IH]; [auto|]. inversion Hs as [|? ? H1 H2]; subst. destruct (IH H2) as (I1 & I2 & I3). destruct (Hcd H1) as [C1 C2]. split; [|split].
  - cbn [map]. rewrite C1, I1. reflexivity.
  - apply Forall_cons; assumption.
  - cbn [length]. congruence.
Qed.

Lemma bert_pieces_located : exists core pieces, text_encoding E t s = Ok core /\ text_pieces E t s = Ok pieces /\ forall y, In y (rows core) -> located w text pieces y.
Proof.
  destruct bert_prepare as (junk & Hprep). destruct text_case as (T1 & T2 & T3). pose proof Hplain as (_ & _ & Hp3). apply Forall_app in Hp3 as [Hp3 Hp4].
  assert (Hg : forall a b, bmp (map lower_ascii (slice s a b))) by (intros a b; apply printable_bmp; rewrite Forall_map; eapply Forall_impl; [|apply printable_slice; exact Hs]; apply printable_lower).
  assert (HN : Forall (placed_ne text) (flat_map (extracted_seg lower_ascii (av_trie_norm av) s) (segs_of (av_trie_raw av) s))).
  { apply seen_placed_ne; [apply printable_bmp; exact Hs | apply printable_valid; exact Hs | exact Hg | | apply segs_chained | apply seg_nonempty].
    - eapply Forall_impl; [|exact Hp4]. intros p K. apply K.
    - eapply Forall_impl; [|exact Hp3]. intros p K. apply K. }
  assert (Hcn : tz_cuts_nonempty E t) by (unfold tz_cuts_nonempty; rewrite Hpre; exact I). assert (Hco : tz_cuts_only E t) by (unfold tz_cuts_only; rewrite Hpre; exact I).
  pose proof (printable_valid text T2) as Hvt.
  destruct (text_defined E t w s text _ _ Hmodel Hvt Hcn Hprep) as (core & Hcore); cbn [pt_norm pt_splits].
  { intros sp Hsp. exists (fst (sp_off sp)). apply base_numbered; [apply unit_sizes_pos|]. rewrite valid_unit_sizes by (apply printable_valid; exact Hs).
    unfold units in *. rewrite bmp_utf16 in Hsp |- * by (apply printable_bmp; assumption). lia. }
  { exact HN. }
  destruct (text_located E t w s text _ _ Hmodel Hvt Hco Hprep) with (core := core) as (pieces & P1 & P2); cbn [pt_norm pt_splits]; [| |exact Hcore|].
  { intros sp base. apply base_defined, unit_sizes_pos. }
  { eapply Forall_impl; [|exact HN]. intros sp K. apply ne_placed. exact K. }
  exists core, pieces. auto.
Qed.
End Bert.

(** The uncased BERT pipeline encodes every non-empty printable ASCII text: no exception, no undefined behaviour, and every token of the text is
    located, by its offsets, in the text itself written with some letters in lower case. *)
Theorem C69_bert_ascii : forall E fuel t w av cl ch st single specials s add,
  ascii_env E -> tz_av t = Some av -> plain_added av -> tz_norm t = Some (NBert cl ch st true) -> tz_pre t = Some TBert -> tz_model t = Some (MWordPiece w) ->
  tz_post t = Some (PTemplate single specials) -> Forall (fun sp => length (st_tokens sp) = length (st_ids sp)) specials -> tz_trunc t = None -> tz_pad t = None ->
  s <> [] -> Forall printable s ->
  exists r text pieces, snd (encode E fuel t s add) = Ok r /\ map lower_ascii text = map lower_ascii s /\ text_pieces E t s = Ok pieces /\
  forall x y, part r x -> In y (rows x) -> r_smask y = 0%Z -> located w text pieces y.
Proof.
  intros E fuel t w av cl ch st single specials s add HE Hav Hpl Hn Hp Hm Hpost Hspec Htr Hpad Hne Hs.
  destruct (bert_pieces_located E t w av cl ch st s HE Hav Hn Hp Hm Hpl Hs Hne) as (core & pieces & H1 & H2 & H3). destruct (text_case av s Hs) as (T1 & _ & _).
  assert (Hok : exists r, snd (encode E fuel t s add) = Ok r) by (rewrite encode_text, H1; cbn [bind]; unfold do_post_process; rewrite Htr, Hpost, Hpad; cbn [bind process]; eexists; reflexivity).
  destruct Hok as (r & Hr). exists r, (seen lower_ascii s (segs_of (av_trie_raw av) s)), pieces. split; [exact Hr|]. split; [exact T1|]. split; [exact H2|].
  destruct (encode_located E fuel t w s (seen lower_ascii s (segs_of (av_trie_raw av) s)) add r Hm) as (pieces' & P1 & P2); [| |exact Hr|].
  - intros p Ep. rewrite Hpost in Ep. injection Ep as <-. split; [exact Hspec | exact I].
  - intros core' Hc'. rewrite H1 in Hc'. injection Hc' as <-. exists pieces. auto.
  - rewrite H2 in P1. injection P1 as <-. exact P2.
Qed.
Print Assumptions C69_bert_ascii.

(** In other words: the token of such a position, without the continuation prefix, is the original text between the offsets up to ASCII case; or it is the
    unknown token and the offsets delimit a non-empty part of the text. *)
Theorem C69_bert_ascii_text : forall E fuel t w av cl ch st single specials s add,
  ascii_env E -> tz_av t = Some av -> plain_added av -> tz_norm t = Some (NBert cl ch st true) -> tz_pre t = Some TBert -> tz_model t = Some (MWordPiece w) ->
  tz_post t = Some (PTemplate single specials) -> Forall (fun sp => length (st_tokens sp) = length (st_ids sp)) specials -> tz_trunc t = None -> tz_pad t = None ->
  s <> [] -> Forall printable s ->
  exists r, snd (encode E fuel t s add) = Ok r /\ forall x y, part r x -> In y (rows x) -> r_smask y = 0%Z ->
  fst (r_off y) <= snd (r_off y) <= length s /\
  (r_token y = wp_unk w \/
   exists sub, (r_token y = sub \/ r_token y = wp_prefix w ++ sub) /\ sub <> [] /\ map lower_ascii sub = map lower_ascii (slice s (fst (r_off y)) (snd (r_off y)))).
Proof.
  intros E fuel t w av cl ch st single specials s add HE Hav Hpl Hn Hp Hm Hpost Hspec Htr Hpad Hne Hs.
  destruct (bert_pieces_located E t w av cl ch st s HE Hav Hn Hp Hm Hpl Hs Hne) as (core & pieces & H1 & H2 & H3). destruct (text_case av s Hs) as (T1 & T2 & T3).
  set (text := seen lower_ascii s (segs_of (av_trie_raw av) s)) in *.
  assert (Hok : exists r, snd (encode E fuel t s add) = Ok r) by (rewrite encode_text, H1; cbn [bind]; unfold do_post_process; rewrite Htr, Hpost, Hpad; cbn [bind process]; eexists; reflexivity).
  destruct Hok as (r & Hr). exists r. split; [exact Hr|].
  destruct (encode_located E fuel t w s text add r Hm) as (pieces' & P1 & P2); [| |exact Hr|].
  - intros p Ep. rewrite Hpost in Ep. injection Ep as <-. split; [exact Hspec | exact I].
  - intros core' Hc'. rewrite H1 in Hc'. injection Hc' as <-. exists pieces. auto.
  - intros x y Hx Hy Hy0. destruct (P2 x y Hx Hy Hy0) as (i & sp & pre & word & _ & _ & ((post & Et) & _ & _) & HL). unfold piece_span in HL. cbn [fst snd] in HL.
    assert (Hlen : units pre + units word <= length s). { rewrite <- T3. assert (Hu : units text = length text) by (unfold units; rewrite bmp_utf16 by (apply printable_bmp; exact T2); reflexivity). rewrite <- Hu, Et, !units_app. lia. }
    destruct HL as [(L1 & L2 & L3 & L4 & _)|(L1 & L2 & _)].
    + split; [lia|]. right. rewrite bmp_utf16 in L4 by (apply printable_bmp; exact T2). rewrite ascii_to_utf8 in L4 by (apply printable_ascii, printable_slice; exact T2).
      exists (slice text (fst (r_off y)) (snd (r_off y))). split; [|split].
      * rewrite L4. destruct (fst (r_off y) =? units pre); auto.
      * intros E0. apply (f_equal (@length N)) in E0. rewrite slice_length in E0 by lia. cbn in E0. lia.
      * unfold slice. rewrite <- !firstn_map, <- !skipn_map. rewrite T1. reflexivity.
    + split; [|left; exact L1]. rewrite L2. cbn [fst snd]. lia.
Qed.
Print Assumptions C69_bert_ascii_text.

Lemma test_ascii : ascii_env test_env.
Proof.
  split.
  - intros s Hs. cbn [test_env e_norm test_norm]. f_equal. induction Hs as [|c s Hc _ IH]; [reflexivity|]. cbn [flat_map]. rewrite IH. unfold printable in Hc. unfold decompose1.
    repeat match goal with |- context [if ?b then _ else _] => destruct b eqn:?; try (exfalso; lia) end. reflexivity.
  - intros c Hc. unfold printable in Hc. cbn [test_env e_is_mn]. lia.
  - intros c Hc. unfold printable in Hc. cbn [test_env e_iswcntrl]. lia.
  - intros c Hc. unfold printable in Hc. cbn [test_env e_iswspace]. unfold ascii_space. lia.
  - intros c Hc. reflexivity.
  - intros c Hc. unfold printable in Hc. cbn [test_env e_u_space]. unfold ascii_space. lia.
Qed.
Definition bert_demo : tokenizer :=
  mkTz None None (Some demo_av) (Some (NBert true true true true)) (Some TBert) (Some (MWordPiece (mkWp demo_vocab (str "[UNK]") 100 (str "##")))) (Some (DWordPiece (str "##") false)) (Some demo_template).
Example C69_case : ascii_env test_env /\ plain_added demo_av /\ Forall printable (str "[CLS] Playing, CHESS x") /\
  exists r, snd (encode test_env 10 bert_demo (str "[CLS] Playing, CHESS x") true) = Ok r /\
  en_tokens r = [str "[CLS]"; str "[CLS]"; str "play"; str "##ing"; str ","; str "chess"; str "[UNK]"; str "[SEP]"] /\
  en_offsets r = [(0, 0); (0, 5); (6, 10); (10, 13); (13, 14); (15, 20); (21, 22); (0, 0)].
Proof.
  split; [exact test_ascii|]. split; [|split].
  - split; [|split].
    + vm_compute (av_trie_raw demo_av). repeat (apply Forall_nil || (apply Forall_cons; [eexists; split; [vm_compute; reflexivity | repeat split]|])).
    + apply Forall_nil.
    + vm_compute (av_trie_raw demo_av ++ av_trie_norm demo_av). repeat (apply Forall_cons || apply Forall_nil || split); cbn [fst]; try discriminate; repeat (apply Forall_cons || apply Forall_nil); reflexivity.
  - cbv [str]. repeat (apply Forall_cons || apply Forall_nil); unfold printable; vm_compute; split; congruence.
  - eexists. split; [vm_compute; reflexivity|]. split; reflexivity.
Qed.
