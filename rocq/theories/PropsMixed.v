(** BERT-style tokenizers on texts with added tokens: C89. *)
From Verif Require Import Base BaseFacts Unicode UnicodeProofs Common Utils PostProcessor Decoder Normalizer PreTokenizer WordPiece Bpe AddedVocab Tokenizer Spec EncFacts PostSpec
  NormSpec NormProofs PreSpec PreProofs AvSpec AvProofs ExtractProofs TzSpec TzProofs WpSpec WpProofs OffSpec OffProofs RefSpec RefProofs MixSpec MixProofs PropsAdded PropsPre PropsEncode PropsOffsets PropsReference Env.
From Coq Require Import ZifyBool.

(** ** The tokens of a history *)
Lemma assign_from v alias : forall l av av', assign_ids alias av (Some v) l = Ok av' -> forall i tok, zfind i (av_map_r av') = Some tok -> zfind i (av_map_r av) = Some tok \/ In tok l.
Proof.
  induction l as [|t l IH]; intros av av' H i tok Hi; cbn [assign_ids] in H; [injection H as <-; auto|]. destruct (is_nil (at_content t)); [destruct (IH _ _ H i tok Hi); cbn; auto|].
  apply bind_ok in H as (j & _ & H). destruct (smem (at_content t) (av_special_set av)); [|destruct alias; [discriminate|]]; (destruct (IH _ _ H i tok Hi) as [K|K]; [|cbn; auto]); cbn [av_map_r] in K; rewrite zfind_zset in K;
    destruct (i =? j)%Z; auto; injection K as <-; cbn; auto.
Qed.
Lemma add_from v alias l av av' n : av_add_tokens alias av (Some v) l = Ok (av', n) -> forall i tok, zfind i (av_map_r av') = Some tok -> zfind i (av_map_r av) = Some tok \/ In tok l.
Proof.
  intros H i tok Hi. unfold av_add_tokens in H. cbv zeta in H. apply bind_ok in H as (av2 & H2 & H). apply bind_ok in H as (av3 & H3 & H). injection H as <- _. cbn [refresh_added_tokens] in H3. injection H3 as <-. cbn [av_map_r] in Hi.
  destruct (assign_from v alias l _ _ H2 i tok Hi) as [K|K]; [|auto]. left. destruct (register_ok l av) as (_ & _ & A3 & _). rewrite A3 in K. exact K.
Qed.
Lemma history_from v ops av : history v ops av -> forall i tok, zfind i (av_map_r av) = Some tok -> In tok ops \/ tok = default_added_token.
Proof.
  induction 1 as [l av n H|ops av l av' n _ IH H|ops av E norm s _ IH]; intros i tok Hi.
  - destruct (add_from _ _ _ _ _ _ H i tok Hi) as [K|K]; [discriminate | auto].
  - rewrite in_app_iff. destruct (add_from _ _ _ _ _ _ H i tok Hi) as [K|K]; [destruct (IH i tok K); auto | auto].
  - cbn [av_map_r] in Hi. destruct (gr_new _ _ _ (extract_map_grow E av norm s) i tok Hi) as [K|[K _]]; [exact (IH i tok K) | auto].
Qed.
Lemma history_plain v ops av : dense v -> v <> [] -> history v ops av -> Forall simple_token ops -> plain_added av.
Proof.
  intros Hd Hne HH Hs. pose proof (history_ok v ops av Hd Hne HH) as HO. rewrite Forall_forall in Hs.
  assert (G : forall c i, In (c, i) (av_trie_norm av ++ av_trie_raw av) -> (exists t, zfind i (av_map_r av) = Some t /\ plain_token t) /\ c <> [] /\ Forall (fun b => (b < 128)%N) c).
  { intros c i Hin. destruct (trie_model v ops av c i HO Hin) as (Hv & tok & Hin' & <-). destruct (Hs tok Hin') as (_ & S2 & S3). split; [|auto].
    destruct (proj2 (ho_assigned _ _ _ HO (at_content tok))) as (j & Hj); [split; [exact S2 | apply in_map; exact Hin']|]. pose proof (io_model _ _ (ho_ids _ _ _ HO) _ _ Hj) as Hm. rewrite Hv in Hm. subst j.
    destruct (io_back _ _ (ho_ids _ _ _ HO) _ _ Hj) as (t & Ht & _). exists t. split; [exact Ht|]. destruct (history_from v ops av HH i t Ht) as [K| ->]; [apply (Hs t K) | repeat split]. }
  split; [|split]; apply Forall_forall; intros [c i] Hin; cbn [fst snd].
  - apply (G c i). apply in_app_iff. auto.
  - apply (G c i). apply in_app_iff. auto.
  - apply (G c i). apply in_app_iff. apply in_app_iff in Hin. tauto.
Qed.
Lemma sfind_some_in {V} (m : smap V) k : sfind k m <> None <-> exists x, In (k, x) m.
Proof.
  induction m as [|[k' x'] m IH]; cbn [sfind]; [split; [congruence | intros (x & [])]|]. destruct (leqb_spec k k') as [->|Hn].
  - split; [intros _; exists x'; left; reflexivity | intros _; discriminate].
  - rewrite IH. split; [intros (x & Hx); exists x; right; exact Hx | intros (x & [Hx|Hx]); [congruence | eauto]].
Qed.
Lemma known_takes_part v ops av b c : dense v -> v <> [] -> history v ops av -> one_flag ops -> Forall printable c -> c <> [] ->
  (takes_part v ops b c <-> id_of (if b then av_trie_norm av else av_trie_raw av) c <> None).
Proof.
  intros Hd Hne HH Hf Hp Hc. pose proof (history_ok v ops av Hd Hne HH) as HO. unfold id_of. rewrite ascii_to_utf8 by (apply printable_ascii; exact Hp). rewrite sfind_some_in.
  assert (Et : (if b then av_trie_norm av else av_trie_raw av) = known_tokens v b (av_specials av ++ av_added av)) by (destruct b; [apply (ho_norm _ _ _ HO) | apply (ho_raw _ _ _ HO)]). rewrite Et. clear Et.
  assert (Hall : forall tok, In tok (av_specials av ++ av_added av) -> In tok ops) by (intros tok K; apply in_app_iff in K as [K|K]; [apply (ho_specials _ _ _ HO); exact K | apply (ho_added _ _ _ HO); exact K]).
  split.
  - intros (Hv & t & Ht & <- & Hb). destruct (sfind (at_content t) v) as [i|] eqn:Ei; [|congruence]. exists i. apply in_rev. rewrite rev_involutive. apply known_in. split; [exact Ei|].
    destruct (ho_all _ _ _ HO t Ht Hc) as (tok' & Hin & Ec). exists tok'. split; [exact Hin|]. split; [exact Ec|]. rewrite <- Hb. apply Hf; auto.
  - intros (i & Hi). apply in_rev in Hi. apply known_in in Hi as (Hv & tok & Hin & Ec & Hb). split; [congruence|]. exists tok. auto.
Qed.

(** ** Shifting positions *)
Definition shift (d : nat) (W : list (nat * wstr)) : list (nat * wstr) := map (fun p => (fst p + d, snd p)) W.
Lemma shift_app d W1 W2 : shift d (W1 ++ W2) = shift d W1 ++ shift d W2.
Proof. apply map_app. Qed.
Lemma bert_shift sp pu d pos s l : bert_split sp pu pos s l -> bert_split sp pu (pos + d) s (shift d l).
Proof.
  induction 1 as [pos|pos c s l Hc H IH|pos c s l Hc Hpu H IH|pos x s l Hx Hw Hm H IH]; cbn [shift map fst snd].
  - constructor.
  - apply bs_space; [exact Hc|]. replace (pos + d + units [c]) with (pos + units [c] + d) by lia. exact IH.
  - apply bs_punct; [exact Hc | exact Hpu|]. replace (pos + d + units [c]) with (pos + units [c] + d) by lia. exact IH.
  - apply bs_word; [exact Hx | exact Hw | exact Hm|]. replace (pos + d + units x) with (pos + units x + d) by lia. exact IH.
Qed.
Lemma fields_shift tok (Q : nat -> wstr -> list (nat * wstr) -> Prop) d : (forall pos s l, Q pos s l -> Q (pos + d) s (shift d l)) -> forall pos s l, fields tok Q pos s l -> fields tok Q (pos + d) s (shift d l).
Proof.
  intros HQ pos s l H. induction H as [pos|pos s l H IH|pos c s l Hc Hn Ht Hk H IH|pos c s l1 l Hc Hn Hs Hk H1 H IH]; rewrite ?shift_app; cbn [shift map fst snd].
  - constructor.
  - apply fd_space. exact IH.
  - apply fd_token; try assumption. replace (pos + d + length c) with (pos + length c + d) by lia. exact IH.
  - apply fd_rest; try assumption; [apply HQ; exact H1|]. replace (pos + d + length c) with (pos + length c + d) by lia. exact IH.
Qed.

(** ** Rows of words *)
Lemma rows_of_words w ns W splits : Forall2 (fun p sp => sp_text sp = utf8_encs (snd p) /\ split_base ns sp = Ok (fst p) /\ forallb valid_cp (snd p) = true) W splits ->
  forall l i, Forall2 (fun s s' => sp_text s' = sp_text s /\ sp_off s' = sp_off s /\ wp_word w (sp_text s) = Ok (sp_tokens s')) splits l -> exists e, into_rows ns 0 i l = Ok e /\ words_rows w i W (rows e).
Proof.
  induction 1 as [|[pos x] sp W splits (A1 & A2 & A3) HF IH]; intros l i HL; inversion HL as [|? sp' ? l' (B1 & B2 & B3) HL']; subst; cbn [into_rows].
  - eexists. split; [reflexivity | constructor].
  - cbn [fst snd] in *. assert (Eb : split_base ns sp' = Ok pos) by (unfold split_base in *; rewrite B2; exact A2). rewrite Eb. cbn [bind]. destruct (IH l' (S i) HL') as (e & -> & He). cbn [bind]. eexists. split; [reflexivity|].
    rewrite rows_append by apply split_rows_flat. rewrite split_rows_rows. apply wr_cons; [|exact He]. rewrite A1 in B3. apply word_tokens_word; assumption.
Qed.

(** ** The words of the pieces *)
Definition word_split (n d : nat) (p : nat * wstr) (sp : split) : Prop := sp_text sp = utf8_encs (snd p) /\ fst (sp_off sp) = fst p + d /\ snd p <> [] /\ Forall printable (snd p) /\ fst p + length (snd p) <= n.
Lemma inner_words E (u : wstr) d : Forall printable u -> forall segs a, chained a (length u) (map snd segs) -> Forall (fun p => fst (snd p) < snd (snd p)) segs ->
  exists W, Forall2 (word_split (length u) d) W (flat_map (bert_out E) (map (seg_split u d) segs)) /\ seg_words (bert_split (e_u_space E) (e_u_punct E)) u segs W.
Proof.
  intros Hu. induction segs as [|[o [x y]] segs IH]; intros a Hc Hne; [exists []; split; constructor|]. cbn [map snd] in Hc. cbn [chained] in Hc. destruct Hc as (Ea & Hc2 & Hc). cbn [fst snd] in Ea, Hc2, Hc. subst a.
  inversion Hne as [|? ? Hxy Hne']; subst. cbn [fst snd] in Hxy. destruct (IH y Hc Hne') as (W & H1 & H2). assert (Hyl : y <= length u).
  { clear - Hc. revert y Hc. induction segs as [|[o [x y']] segs IH]; intros y Hc; cbn in Hc; [lia|]. destruct Hc as (-> & H & Hc). cbn in *. specialize (IH y' Hc). lia. }
  assert (Hsl : length (slice u x y) = y - x) by (apply slice_length; lia).
  cbn [map flat_map]. destruct o as [i|].
  - exists ((x, slice u x y) :: W). split; [|apply sw_token; exact H2]. unfold bert_out at 1. unfold seg_split at 1 2. cbn [fst snd sp_tokens is_nil app]. constructor; [|exact H1].
    unfold word_split. cbn [fst snd sp_text sp_off seg_split]. split; [reflexivity|]. split; [reflexivity|]. split; [intros E0; rewrite E0 in Hsl; cbn in Hsl; lia|]. split; [apply printable_slice; exact Hu | lia].
  - set (ps := bert_pieces (e_u_space E) (e_u_punct E) (slice u x y)). exists (shift x (map (fun p => (units (fst p), snd p)) ps) ++ W). split.
    + apply Forall2_app; [|exact H1]. unfold bert_out. cbn [seg_split fst snd sp_tokens is_nil sp_text sp_off]. rewrite decoded_encs by (apply printable_valid, printable_slice; exact Hu). fold ps.
      destruct (bert_pieces_words (e_u_space E) (e_u_punct E) (slice u x y)) as [HI _]. fold ps in HI. clear - HI Hu Hsl Hxy Hyl. unfold shift. rewrite map_map. cbn [fst snd].
      induction HI as [|p ps (K1 & (post & K2) & _) _ IH]; [constructor|]. cbn [map]. constructor; [|exact IH]. assert (Hps : Forall printable (slice u x y)) by (apply printable_slice; exact Hu). pose proof K2 as K2'. rewrite K2 in Hps. apply Forall_app in Hps as [P1 P2]. apply Forall_app in P2 as [P2 _].
      unfold word_split. cbn [fst snd piece_split sp_text sp_off piece_span]. split; [reflexivity|]. split; [lia|]. split; [exact K1|]. split; [exact P2|]. destruct p as [p1 p2]. cbn [fst snd] in *. pose proof (printable_units p1 P1) as Eu1. unfold wstr in *. rewrite Eu1. rewrite K2, !app_length in Hsl. lia.
    + apply sw_gap; [|exact H2]. apply (bert_shift _ _ x 0). apply bert_pieces_split.
Qed.

Section Outer.
Variables (E : env) (g : N -> N) (s : wstr) (v : smap Z) (ops : list added_token) (av : added_vocab).
Hypothesis HE : ascii_env E.
Hypothesis Hg : forall c, printable c -> printable (g c).
Hypothesis Hs : Forall printable s.
Hypothesis Hd : dense v.
Hypothesis Hv : v <> [].
Hypothesis HH : history v ops av.
Hypothesis Hf : one_flag ops.
Hypothesis Hsim : Forall simple_token ops.
Let Q2 := fun pos c l => fields (takes_part v ops true) (bert_split (e_u_space E) (e_u_punct E)) pos (map g c) l.

Lemma trie_nonempty : (forall k, ~ In ([], k) (av_trie_norm av)) /\ (forall k, ~ In ([], k) (av_trie_raw av)) /\ Forall (fun p => fst p <> []) (av_trie_norm av) /\ Forall (fun p => fst p <> []) (av_trie_raw av).
Proof.
  destruct (history_plain v ops av Hd Hv HH Hsim) as (_ & _ & H). apply Forall_app in H as [H1 H2]. rewrite Forall_forall in H1, H2. split; [|split; [|split]].
  - intros k Hk. destruct (H2 _ Hk) as [K _]. cbn in K. congruence.
  - intros k Hk. destruct (H1 _ Hk) as [K _]. cbn in K. congruence.
  - apply Forall_forall. intros p Hp. apply (H2 p Hp).
  - apply Forall_forall. intros p Hp. apply (H1 p Hp).
Qed.
Lemma outer_words : forall segs a, chained a (length s) (map snd segs) -> Forall (fun p => fst (snd p) < snd (snd p)) segs ->
  exists W, Forall2 (word_split (length s) 0) W (flat_map (bert_out E) (flat_map (extracted_seg g (av_trie_norm av) s) segs)) /\ seg_words Q2 s segs W.
Proof.
  destruct trie_nonempty as (T1 & T2 & T3 & T4).
  induction segs as [|[o [x y]] segs IH]; intros a Hc Hne; [exists []; split; constructor|]. cbn [map snd] in Hc. cbn [chained] in Hc. destruct Hc as (Ea & Hc2 & Hc). cbn [fst snd] in Ea, Hc2, Hc. subst a.
  inversion Hne as [|? ? Hxy Hne']; subst. cbn [fst snd] in Hxy. destruct (IH y Hc Hne') as (W & H1 & H2). assert (Hyl : y <= length s).
  { clear - Hc. revert y Hc. induction segs as [|[o [x y']] segs IH]; intros y Hc; cbn in Hc; [lia|]. destruct Hc as (-> & H & Hc). cbn in *. specialize (IH y' Hc). lia. }
  assert (Hsl : length (slice s x y) = y - x) by (apply slice_length; lia). cbn [flat_map]. rewrite flat_map_app. unfold extracted_seg at 1. cbn [fst snd]. destruct o as [i|].
  - exists ((x, slice s x y) :: W). split; [|apply sw_token; exact H2]. cbn [flat_map]. rewrite app_nil_r. unfold bert_out at 1. unfold seg_split at 1 2. cbn [fst snd sp_tokens is_nil app]. constructor; [|exact H1].
    unfold word_split. cbn [fst snd sp_text sp_off seg_split]. split; [reflexivity|]. split; [reflexivity|]. split; [intros E0; rewrite E0 in Hsl; cbn in Hsl; lia|]. split; [apply printable_slice; exact Hs | lia].
  - set (u := map g (slice s x y)). assert (Hu : Forall printable u) by (unfold u; rewrite Forall_map; eapply Forall_impl; [|apply printable_slice; exact Hs]; exact Hg).
    assert (Hul : length u = y - x) by (unfold u; rewrite map_length; exact Hsl).
    destruct (inner_words E u x Hu (segs_of (av_trie_norm av) u) 0) as (W0 & I1 & I2); [apply segs_chained | apply seg_nonempty; exact T3|].
    exists (shift x W0 ++ W). split.
    + apply Forall2_app; [|exact H1]. clear - I1 Hul Hxy Hyl. induction I1 as [|p sp W0 l (A1 & A2 & A3 & A4 & A5) _ IH]; [constructor|]. cbn [shift map]. constructor; [|exact IH].
      unfold word_split. cbn [fst snd]. split; [exact A1|]. split; [lia|]. split; [exact A3|]. split; [exact A4 | lia].
    + apply sw_gap; [|exact H2]. unfold Q2. fold u. apply (fields_shift _ _ x) with (pos := 0); [intros pos c l; apply bert_shift|].
      apply (found_fields (takes_part v ops true) _ (av_trie_norm av) u) with (l := raw_matches (word_ids (av_trie_norm av)) u (length u) 0 0).
      * apply bert_splits. rewrite (ae_uspace E HE) by (unfold printable; lia). reflexivity.
      * exact Hu.
      * intros c Hc' Hn. apply (known_takes_part v ops av true c Hd Hv HH Hf Hc' Hn).
      * apply (scan_found (av_trie_norm av) u T1 (length u) 0 0); try lia. cbn. intros [].
      * reflexivity.
      * reflexivity.
      * exact I2.
Qed.
End Outer.

(** ** C89 *)
Definition folded (lo : bool) (c : N) : N := if lo then lower_ascii c else c.
Lemma folded_printable lo c : printable c -> printable (folded lo c).
Proof. destruct lo; [apply printable_lower | auto]. Qed.

(** encode of a BERT-style WordPiece tokenizer on a printable ASCII text in which added tokens may occur: always succeeds, and returns exactly the rows of the words of the text, offsets included. The added vocabulary
    may be in any state reachable by constructing the tokenizer, adding tokens and encoding. *)
Theorem C89_reference_added : forall E fuel t w av ops cl ch st lo s add,
  ascii_env E -> dense (wp_vocab w) -> wp_vocab w <> [] -> history (wp_vocab w) ops av -> Forall simple_token ops -> one_flag ops ->
  tz_av t = Some av -> tz_norm t = Some (NBert cl ch st lo) -> tz_pre t = Some TBert -> tz_model t = Some (MWordPiece w) -> s <> [] -> Forall printable s ->
  exists r words, snd (encode E fuel (bare t) s add) = Ok r /\ en_overflowing r = [] /\ flat_parallel r /\
    text_words (wp_vocab w) ops (fun c => if lo then lower_ascii c else c) (e_u_space E) (e_u_punct E) s words /\ words_rows w 0 words (rows r).
Proof.
  intros E fuel t w av ops cl ch st lo s add HE Hd Hv HH Hsim Hf Hav Hnorm Hpre Hm Hne Hs. set (g := folded lo).
  assert (Hg : forall c, printable c -> printable (g c)) by (intros c; apply folded_printable).
  assert (Hgs : forall a b, Forall printable (map g (slice s a b))) by (intros a b; rewrite Forall_map; eapply Forall_impl; [|apply printable_slice; exact Hs]; exact Hg).
  destruct (history_plain _ _ _ Hd Hv HH Hsim) as (Hp1 & Hp2 & Hp3). apply Forall_app in Hp3 as [Hp3 Hp4].
  destruct (extract_pointwise E av (tz_norm t) g s Hne (printable_bmp s Hs) (printable_valid s Hs)) as (junk & Hj); try assumption.
  { intros a b. apply printable_bmp, Hgs. }
  { intros a b. apply printable_valid, Hgs. }
  { intros a b _ _. rewrite Hnorm, (bert_run E cl ch st lo _ HE) by (apply printable_slice; exact Hs). reflexivity. }
  { eapply Forall_impl; [|exact Hp3]. intros p K. apply K. }
  destruct (trie_nonempty (wp_vocab w) ops av Hd Hv HH Hsim) as (T1 & T2 & T3 & T4).
  destruct (outer_words E g s (wp_vocab w) ops av HE Hg Hs Hd Hv HH Hf Hsim (segs_of (av_trie_raw av) s) 0) as (W & H1 & H2); [apply segs_chained | apply seg_nonempty; exact T4|].
  set (ns := numbered_ns (unit_sizes s) junk s) in *. set (splits := flat_map (bert_out E) (flat_map (extracted_seg g (av_trie_norm av) s) (segs_of (av_trie_raw av) s))) in *.
  assert (Hprep : prepare E t s = Ok (Some (set_map_r av (av_map_r av)), mkPt ns splits)).
  { unfold prepare. rewrite Hav, Hj. unfold new_pretok. rewrite fresh_numbered. cbn [ns_text numbered_ns]. unfold convert_to_string. rewrite (printable_valid s Hs). cbn [bind]. rewrite Hpre. cbn [pre_tokenize]. rewrite bert_pre_spec. reflexivity. }
  destruct (wp_tokenize_ok w (mkPt ns splits)) as (l & Hl & HF). cbn [pt_splits pt_norm] in HF, Hl.
  destruct (rows_of_words w ns W splits) with (l := l) (i := 0) as (e & He & HR).
  { clear - H1 Hs. induction H1 as [|[pos x] sp W' l' (A1 & A2 & A3 & A4 & A5) _ IH]; constructor; [|exact IH]. cbn [fst snd] in *. split; [exact A1|]. split; [|apply printable_valid; exact A4].
    unfold ns. rewrite base_numbered; [rewrite A2; f_equal; lia | apply unit_sizes_pos|]. rewrite valid_unit_sizes by (apply printable_valid; exact Hs). rewrite (printable_units s Hs), A2. destruct x; [congruence|]. cbn [length] in A5. lia. }
  { exact HF. }
  exists e, W. rewrite encode_bare. destruct (into_rows_flat _ _ _ _ _ He) as [F1 F2].
  split; [unfold text_encoding; rewrite Hprep; cbn [bind]; rewrite Hm; cbn [model_tokenize snd]; rewrite Hl; cbn [bind]; unfold into_encoding; cbn [pt_norm pt_splits]; exact He|].
  split; [exact F2|]. split; [exact F1|]. split; [|exact HR].
  apply (found_fields (takes_part (wp_vocab w) ops false) _ (av_trie_raw av) s) with (l := raw_matches (word_ids (av_trie_raw av)) s (length s) 0 0).
  - apply (mapped_splits (fields (takes_part (wp_vocab w) ops true) (bert_split (e_u_space E) (e_u_punct E))) g Hg); [unfold g, folded; destruct lo; reflexivity | apply fields_splits].
  - exact Hs.
  - intros c Hc Hn. apply (known_takes_part (wp_vocab w) ops av false c Hd Hv HH Hf Hc Hn).
  - apply (scan_found (av_trie_raw av) s T2 (length s) 0 0); try lia. cbn. intros [].
  - reflexivity.
  - reflexivity.
  - exact H2.
Qed.
Print Assumptions C89_reference_added.

(** The words of a text are determined by it. *)
Lemma fields_fun tok (Q : nat -> wstr -> list (nat * wstr) -> Prop) : (forall pos s l l', Q pos s l -> Q pos s l' -> l = l') -> forall pos s l, fields tok Q pos s l -> forall l', fields tok Q pos s l' -> l = l'.
Proof.
  intros HQ pos s l H. induction H as [pos|pos r l H IH|pos c r l Hn Hs Ht Hk H IH|pos c r l1 l Hn Hs Hr Hk H1 H IH]; intros l' H'.
  - symmetry. apply (fields_splits tok Q) in H'. exact H'.
  - remember (32%N :: r) as u eqn:Eu. destruct H' as [pos|pos r' l' H'|pos c' r' l' Hn' Hs' Ht' Hk' H'|pos c' r' l1' l' Hn' Hs' Hr' Hk' H1' H']; [discriminate | injection Eu as ->; apply IH; exact H' | |];
      (destruct c' as [|x c']; [congruence|]); injection Eu as -> _; exfalso; apply Hs'; left; reflexivity.
  - remember (c ++ r) as u eqn:Eu. destruct H' as [pos|pos r' l' H'|pos c' r' l' Hn' Hs' Ht' Hk' H'|pos c' r' l1' l' Hn' Hs' Hr' Hk' H1' H'].
    + symmetry in Eu. apply app_eq_nil in Eu as [Eu _]. congruence.
    + destruct c as [|x c]; [congruence|]. injection Eu as <- _. exfalso. apply Hs. left. reflexivity.
    + assert (Hl : length c = length c').
      { destruct (Nat.lt_trichotomy (length c) (length c')) as [L|[L|L]]; [|exact L|].
        - assert (Ec : c = firstn (length c) c') by (eapply prefix_cases; [symmetry; exact Eu | lia]). exfalso. apply (Hk' (length c)); [destruct c; [congruence | cbn in *; lia] | rewrite <- Ec; exact Ht].
        - assert (Ec : c' = firstn (length c') c) by (eapply prefix_cases; [exact Eu | lia]). exfalso. apply (Hk (length c')); [destruct c'; [congruence | cbn in *; lia] | rewrite <- Ec; exact Ht']. }
      assert (c' = c) as -> by (pose proof (prefix_cases c' c r' r Eu ltac:(lia)) as E; rewrite <- Hl, firstn_all in E; exact E).
      apply app_inv_head in Eu. subst r'. f_equal. apply IH. exact H'.
    + exfalso. assert (L : length c <= length c').
      { destruct (Nat.le_gt_cases (length c) (length c')) as [L|L]; [exact L|]. exfalso. destruct Hr' as [->|(r'' & ->)].
        - rewrite app_nil_r in Eu. subst c'. rewrite app_length in L. lia.
        - apply Hs. assert (E : nth (length c') (c' ++ 32%N :: r'') 0%N = 32%N) by (rewrite app_nth2, Nat.sub_diag by lia; reflexivity). rewrite Eu, app_nth1 in E by lia. rewrite <- E. apply nth_In. exact L. }
      assert (Ec : c = firstn (length c) c') by (eapply prefix_cases; [symmetry; exact Eu | lia]). apply (Hk' (length c)); [destruct c; [congruence | cbn in *; lia] | rewrite <- Ec; exact Ht].
  - remember (c ++ r) as u eqn:Eu. destruct H' as [pos|pos r' l' H'|pos c' r' l' Hn' Hs' Ht' Hk' H'|pos c' r' l1' l' Hn' Hs' Hr' Hk' H1' H'].
    + symmetry in Eu. apply app_eq_nil in Eu as [Eu _]. congruence.
    + destruct c as [|x c]; [congruence|]. injection Eu as <- _. exfalso. apply Hs. left. reflexivity.
    + exfalso. assert (L : length c' <= length c).
      { destruct (Nat.le_gt_cases (length c') (length c)) as [L|L]; [exact L|]. exfalso. destruct Hr as [->|(r'' & ->)].
        - rewrite app_nil_r in Eu. subst c. rewrite app_length in L. lia.
        - apply Hs'. assert (E : nth (length c) (c ++ 32%N :: r'') 0%N = 32%N) by (rewrite app_nth2, Nat.sub_diag by lia; reflexivity). rewrite <- Eu, app_nth1 in E by lia. rewrite <- E. apply nth_In. exact L. }
      assert (Ec : c' = firstn (length c') c) by (eapply prefix_cases; [exact Eu | lia]). apply (Hk (length c')); [destruct c'; [congruence | cbn in *; lia] | rewrite <- Ec; exact Ht'].
    + destruct (split_space c' c r' r Eu Hs' Hs Hr' Hr) as [-> ->]. rewrite (HQ _ _ _ _ H1 H1'). f_equal. apply IH. exact H'.
Qed.
Theorem C89_words_once : forall v ops g sp pu s l l', text_words v ops g sp pu s l -> text_words v ops g sp pu s l' -> l = l'.
Proof.
  intros v ops g sp pu s l l' H H'. unfold text_words in *. revert H'. apply fields_fun; [|exact H]. intros pos c a b Ha Hb. revert Hb. apply fields_fun; [|exact Ha].
  intros p x y z Hy Hz. exact (bert_split_fun sp pu p x y Hy z Hz).
Qed.
Print Assumptions C89_words_once.

(** A word that is in the vocabulary and not too long, as every recognised added token is unless it is too long, becomes exactly one token: itself, with the id of the vocabulary. *)
Theorem C89_token_whole : forall w c i ts, Forall printable c -> c <> [] -> sfind c (wp_vocab w) = Some i -> (Z.of_nat (length c) <= wp_max w)%Z -> word_tokens w c ts -> ts = [mkTok i c (0, length c)].
Proof.
  intros w c i ts Hp Hne Hi Hmax H. assert (Eu : flat_map utf16_enc c = c) by (apply bmp_utf16, printable_bmp; exact Hp).
  assert (HG : greedy (wp_vocab w) (wp_prefix w) (flat_map utf16_enc c) 0 [mkTok i c (0, length c)]).
  { rewrite Eu. assert (Hl : 0 < length c) by (destruct c; [congruence | cbn; lia]).
    assert (Et : piece_text (wp_prefix w) c 0 (length c) = c) by (unfold piece_text; cbn [Nat.eqb skipn]; rewrite firstn_all, ascii_to_utf8 by (apply printable_ascii; exact Hp); reflexivity).
    pose proof (greedy_step (wp_vocab w) (wp_prefix w) c 0 (length c) i []) as K. rewrite Et in K. apply K; [exact Hl | lia | exact Hi | intros k' L1 L2; lia | apply greedy_end]. }
  destruct H as [[_ H]|[[H|H] _]].
  - exact (greedy_fun _ _ _ _ _ H _ HG).
  - rewrite (printable_units c Hp) in H. lia.
  - exfalso. exact (H _ HG).
Qed.
Print Assumptions C89_token_whole.

(** The hypotheses are met, with tokens of both kinds: [X] is looked for in the text as it is, abc in the lower-cased text. *)
Definition mix_vocab : smap Z := [(str "[UNK]", 0); (str "[X]", 1); (str "abc", 2); (str "play", 3); (str "##ing", 4); (str "[", 5); (str "]", 6); (str "x", 7); (str "##d", 8)]%Z.
Definition mix_ops : list added_token := [mkAt 1 (str "[X]") false false false false true; mkAt 2 (str "abc") false false false true true].
Definition mix_av : added_vocab := match av_add_tokens true (new_added_vocab mix_ops) (Some mix_vocab) mix_ops with Ok (av, _) => av | _ => new_added_vocab [] end.
Definition mix_wp : wordpiece := mkWp mix_vocab (str "[UNK]") 100 (str "##").
Definition mix_t : tokenizer := mkTz None None (Some mix_av) (Some (NBert true true true true)) (Some TBert) (Some (MWordPiece mix_wp)) (Some (DWordPiece (str "##") false)) None.
Example C89_case : ascii_env test_env /\ dense mix_vocab /\ history mix_vocab mix_ops mix_av /\ Forall simple_token mix_ops /\ one_flag mix_ops /\ Forall printable (str "[X]ABC Abc[x] Playing[X]") /\
  exists r, snd (encode test_env 10 (bare mix_t) (str "[X]ABC Abc[x] Playing[X]") true) = Ok r /\
  en_tokens r = [str "[X]"; str "abc"; str "abc"; str "["; str "x"; str "]"; str "play"; str "##ing"; str "["; str "x"; str "]"] /\
  en_ids r = [1; 2; 2; 5; 7; 6; 3; 4; 5; 7; 6]%Z /\
  en_offsets r = [(0, 3); (3, 6); (7, 10); (10, 11); (11, 12); (12, 13); (14, 18); (18, 21); (21, 22); (22, 23); (23, 24)].
Proof.
  split; [exact test_ascii|]. split; [|split; [|split; [|split; [|split]]]].
  - split; [|split]; vm_compute; repeat (constructor; [cbn; intuition discriminate|]); try constructor. all: repeat (constructor; [vm_compute; split; congruence|]); constructor.
  - eapply (h_new _ _ _ (snd (match av_add_tokens true (new_added_vocab mix_ops) (Some mix_vocab) mix_ops with Ok p => p | _ => (new_added_vocab [], 0%Z) end))). vm_compute. reflexivity.
  - repeat (apply Forall_cons || apply Forall_nil); (split; [repeat split|]; split; [discriminate|]); cbv [at_content str]; repeat (apply Forall_cons || apply Forall_nil); reflexivity.
  - intros t t' [<-|[<-|[]]] [<-|[<-|[]]] E; try reflexivity; discriminate.
  - cbv [str]. repeat (apply Forall_cons || apply Forall_nil); unfold printable; vm_compute; split; congruence.
  - eexists. split; [vm_compute; reflexivity|]. split; [reflexivity|]. split; reflexivity.
Qed.
