(** C125: what decoding the encoding of a text gives, and encoding that again. *)
From Verif Require Import Base BaseFacts Unicode UnicodeProofs Common Utils PostProcessor Decoder Normalizer PreTokenizer WordPiece Bpe AddedVocab Tokenizer Spec
  NormSpec NormProofs PreSpec PreProofs AvSpec AvProofs ExtractProofs TzSpec TzProofs WpSpec WpProofs DecSpec DecProofs HistSpec HistProofs OffSpec OffProofs RoundSpec RoundProofs
  RefSpec RefProofs TextProofs PropsDecoder PropsEncode PropsHistory PropsOffsets PropsAdded PropsRound PropsReference PropsText LenSpec FullSpec PropsFull PostSpec RespellSpec Env.
From Coq Require Import ZifyBool.
Import ListNotations.

(** *** Clean-up of one token *)
Lemma replaced_none rules s : (forall from to, In (from, to) rules -> forall i, ~ occurs_at from s i) -> replaced_all rules s s.
Proof. induction rules as [|[f t] rules IH]; intros H; [constructor|]. econstructor; [apply rep_none; exact (H f t (or_introl eq_refl))|]. apply IH. intros f' t' Hi. apply (H f' t'). right. exact Hi. Qed.
Lemma cleanup_none s : (forall from to, In (from, to) documented_cleanup -> forall i, ~ occurs_at from s i) -> cleanup_token s = Ok s.
Proof. intros H. destruct (C19_cleanup s) as (r & H1 & _ & H2). rewrite H1. f_equal. symmetry. apply H2. apply replaced_none. exact H. Qed.
Lemma rules_space from to : In (from, to) documented_cleanup -> exists q, from = 32%N :: q /\ (exists c, In c q /\ In c (32%N :: cleanup_marks)) /\ (forall c, q = [c] -> In c close_marks).
Proof.
  intros H. cbn [documented_cleanup In] in H.
  repeat (destruct H as [H|H]; [injection H as <- <-; eexists; split; [reflexivity|]; split; [vm_compute; eauto 12 | intros c Hc; first [discriminate Hc | injection Hc as <-; vm_compute; tauto]]|]). destruct H.
Qed.
Lemma occurs_in from s i c : occurs_at from s i -> In c from -> In c s.
Proof. intros (p & q & -> & _) H. rewrite !in_app_iff. auto. Qed.
Lemma cleanup_spaceless s : ~ In 32%N s -> cleanup_token s = Ok s.
Proof. intros H. apply cleanup_none. intros f t Hi i Ho. destruct (rules_space f t Hi) as (q & -> & _). apply H. eapply occurs_in; [exact Ho | left; reflexivity]. Qed.
Lemma cleanup_word v : ~ In 32%N v -> (markless v \/ v = [39%N]) -> cleanup_token (32%N :: v) = Ok (32%N :: v).
Proof.
  intros Hs Hv. destruct Hv as [Hv| ->]; [|vm_compute; reflexivity]. apply cleanup_none. intros f t Hi i Ho. destruct (rules_space f t Hi) as (q & -> & (c & Hc & Hm) & _).
  destruct Ho as (p & r & E & _). assert (Hin : In c v).
  { destruct p as [|d p]; cbn [app] in E; [injection E as ->; apply in_app_iff; left; exact Hc|]. injection E as _ E. exfalso. apply Hs. rewrite E. apply in_app_iff. right. left. reflexivity. }
  exact (proj1 (Forall_forall _ _) Hv c Hin Hm).
Qed.
Lemma cleanup_mark c : In c close_marks -> cleanup_token [32%N; c] = Ok [c].
Proof. intros H. repeat (destruct H as [<-|H]; [vm_compute; reflexivity|]). destruct H. Qed.
Lemma no_gap_true b : no_gap true b = true -> exists c, b = [c] /\ In c close_marks.
Proof. unfold no_gap. destruct b as [|c [|]]; try discriminate. cbn [andb]. intros H. apply existsb_exists in H as (d & H1 & H2). apply N.eqb_eq in H2 as ->. eauto. Qed.
(** a token that begins a word, after the first *)
Definition simple (v : bytes) : Prop := ~ In 32%N v /\ (markless v \/ v = [39%N] \/ exists c, v = [c] /\ In c close_marks).
Lemma cleanup_simple v : simple v -> cleanup_token (32%N :: v) = Ok (gapped true v) /\ cleanup_token v = Ok v.
Proof.
  intros (Hs & Hv). split; [|apply cleanup_spaceless; exact Hs]. unfold gapped. destruct (no_gap true v) eqn:EG.
  - apply no_gap_true in EG as (c & -> & Hc). apply cleanup_mark. exact Hc.
  - destruct Hv as [Hv|[Hv|(c & -> & Hc)]]; [apply cleanup_word; auto | apply cleanup_word; auto|]. exfalso. unfold no_gap in EG. cbn [andb] in EG.
    assert (existsb (N.eqb c) close_marks = true); [|congruence]. apply existsb_exists. exists c. split; [exact Hc | apply N.eqb_refl].
Qed.

(** *** The tokens of one word *)
Definition word_shows (prefix : bytes) (cleanup : bool) (ts : list token) (b : bytes) : Prop :=
  exists v vs vs' g, map tk_value ts = v :: vs /\ wp_decode_one prefix cleanup true v = Ok v /\ mapM (wp_decode_one prefix cleanup false) vs = Ok vs' /\ v ++ concat vs' = b /\
  wp_decode_one prefix cleanup false v = Ok g /\ g ++ concat vs' = gapped cleanup b.
Lemma mapM_app {A B} (f : A -> res B) l l' : mapM f (l ++ l') = (x <- mapM f l ;; y <- mapM f l' ;; Ok (x ++ y)).
Proof. induction l as [|a l IH]; cbn [app mapM bind]; [destruct (mapM f l'); reflexivity|]. destruct (f a); cbn [bind]; try reflexivity. rewrite IH. destruct (mapM f l); cbn [bind]; try reflexivity. destruct (mapM f l'); reflexivity. Qed.
Lemma shows_later prefix cleanup tss bs : Forall2 (word_shows prefix cleanup) tss bs -> exists out, mapM (wp_decode_one prefix cleanup false) (flat_map (map tk_value) tss) = Ok out /\ concat out = flat_map (gapped cleanup) bs.
Proof.
  induction 1 as [|ts b tss bs (v & vs & vs' & g & H1 & _ & H3 & _ & H5 & H6) _ (out & IH1 & IH2)]; [exists []; split; reflexivity|].
  exists ((g :: vs') ++ out). split; [|rewrite concat_app, IH2; cbn [concat flat_map]; rewrite H6; reflexivity]. cbn [flat_map]. rewrite mapM_app, H1. cbn [mapM]. rewrite H5. cbn [bind]. rewrite H3. cbn [bind]. rewrite IH1. reflexivity.
Qed.
Lemma shows_all prefix cleanup tss bs : Forall2 (word_shows prefix cleanup) tss bs -> (out <- decode_chain (DWordPiece prefix cleanup) (flat_map (map tk_value) tss) ;; Ok (concat out)) = Ok (respelled cleanup bs).
Proof.
  intros H. destruct H as [|ts b tss bs (v & vs & vs' & g & H1 & H2 & H3 & H4 & _) H]; [reflexivity|]. destruct (shows_later _ _ _ _ H) as (out & O1 & O2). cbn [flat_map]. rewrite H1. cbn [app decode_chain wp_decode]. rewrite H2. cbn [bind]. rewrite mapM_app, H3. cbn [bind]. rewrite O1. cbn [bind].
  cbn [concat respelled]. rewrite concat_app, O2, app_assoc, H4. reflexivity.
Qed.
Lemma one_dec prefix cleanup y : wp_decode_one prefix cleanup false y = if cleanup then cleanup_token (dec prefix y) else Ok (dec prefix y).
Proof. reflexivity. Qed.
Lemma ascii_byte x b : In b (utf8_encs x) -> (b < 128)%N -> In b x.
Proof.
  intros H Hb. unfold utf8_encs in H. apply in_flat_map in H as (c & Hc & H). replace b with c; [exact Hc|]. unfold utf8_enc in H. destruct (N.ltb_spec c 128); [destruct H as [H|[]]; exact H|].
  repeat (destruct (_ <? _)%N in H); cbn [In] in H; exfalso; lia.
Qed.
Lemma word_spaceless sp pu x : marks_ok sp pu -> plain_word sp pu x -> ~ In 32%N (utf8_encs x).
Proof. intros (Hs & _) (_ & H & _) Hi. apply ascii_byte in Hi; [|lia]. pose proof (proj1 (Forall_forall _ _) H _ Hi). congruence. Qed.
Lemma marks_small c : In c cleanup_marks -> (c < 128)%N.
Proof. intros H. repeat (destruct H as [<-|H]; [lia|]). destruct H. Qed.
Lemma markless_word sp pu x : marks_ok sp pu -> plain_word sp pu x -> markless (utf8_encs x) \/ exists c, x = [c] /\ In c cleanup_marks.
Proof.
  intros HM HP. pose proof (word_spaceless sp pu x HM HP) as Hs. destruct HM as (_ & HM). destruct HP as (_ & _ & [H|(c & -> & Hc)]).
  - left. apply Forall_forall. intros b Hb [<-|Hm]; [exact (Hs Hb)|]. apply ascii_byte in Hb; [|apply marks_small; exact Hm]. pose proof (proj1 (Forall_forall _ _) H _ Hb). pose proof (proj1 (Forall_forall _ _) HM _ Hm). cbn beta in *. congruence.
  - destruct (in_dec N.eq_dec c cleanup_marks) as [Hi|Hi]; [right; eauto|]. left. apply Forall_forall. intros b Hb [<-|Hm]; [exact (Hs Hb)|]. apply ascii_byte in Hb; [|apply marks_small; exact Hm]. destruct Hb as [<-|[]]. contradiction.
Qed.
Lemma gapped_markless cleanup b : markless b -> gapped cleanup b = 32%N :: b.
Proof.
  intros H. unfold gapped. destruct (no_gap cleanup b) eqn:E; [|reflexivity]. exfalso. destruct cleanup; [|discriminate]. apply no_gap_true in E as (c & -> & Hc). inversion H as [|? ? H1 _]; subst. apply H1. right. clear -Hc. unfold close_marks, cleanup_marks in *. cbn [In] in *. tauto.
Qed.
Lemma mapM_decs (f : bytes -> res bytes) (g : bytes -> bytes) l : (forall y, In y l -> f y = Ok (g y)) -> mapM f l = Ok (map g l).
Proof. induction l as [|y l IH]; intros H; [reflexivity|]. cbn [mapM map]. rewrite (H y (or_introl eq_refl)). cbn [bind]. rewrite IH; [reflexivity|]. intros z Hz. apply H. right. exact Hz. Qed.
Lemma units_text u : u <> [] -> to_utf8 u <> [].
Proof.
  destruct u as [|x r]; [congruence|]. intros _ H. unfold to_utf8 in H. cbn [utf16_cps] in H.
  assert (K : forall c l, utf8_of_cp c ++ l <> []). { intros c l. unfold utf8_of_cp, utf8_enc. destruct (is_surrogate c); repeat (destruct (_ <? _)%N); discriminate. }
  destruct (is_lead x); [destruct r as [|y r']; [|destruct (is_trail y)]|]; cbn [flat_map fst] in H; eapply K; exact H.
Qed.
Lemma first_nonempty w x v vs ts : greedy (wp_vocab w) (wp_prefix w) (flat_map utf16_enc x) 0 ts -> map tk_value ts = v :: vs -> v <> [].
Proof.
  intros H E. inversion H as [K|start k id ts' Hk Hl _ _ _]; subst; [discriminate|]. cbn [map tk_value] in E. injection E as <- _. unfold piece_text. cbn [app Nat.eqb]. apply units_text. intros E. apply (f_equal (@length _)) in E. rewrite firstn_length, skipn_length in E. cbn in E. lia.
Qed.
Lemma known_shows sp pu w cleanup x ts : (cleanup = true -> marks_ok sp pu) -> plain_word sp pu x -> forallb valid_cp x = true -> whole_chars (wp_vocab w) x -> (forall r, utf8_encs x <> wp_prefix w ++ r) ->
  greedy (wp_vocab w) (wp_prefix w) (flat_map utf16_enc x) 0 ts -> word_shows (wp_prefix w) cleanup ts (utf8_encs x).
Proof.
  intros HM HP Hv Hw Hpre Hg. destruct (greedy_decode w x ts (proj1 HP) Hv Hw Hpre Hg) as (v & vs & E1 & E2 & E3). pose proof (first_nonempty w x v vs ts Hg E1) as Hne. destruct cleanup.
  - specialize (HM eq_refl). pose proof (word_spaceless sp pu x HM HP) as Hs. rewrite <- E2 in Hs.
    assert (Hs1 : ~ In 32%N v) by (intros Hi; apply Hs, in_app_iff; auto).
    assert (HD : mapM (wp_decode_one (wp_prefix w) true false) vs = Ok (map (dec (wp_prefix w)) vs)).
    { apply mapM_decs. intros y Hy. rewrite one_dec. apply cleanup_spaceless. intros Hi. apply Hs. apply in_app_iff. right. apply in_concat. exists (dec (wp_prefix w) y). split; [apply in_map; exact Hy | exact Hi]. }
    destruct (markless_word sp pu x HM HP) as [Hm|(c & -> & Hc)].
    + exists v, vs, (map (dec (wp_prefix w)) vs), (32%N :: v). split; [exact E1|]. split; [apply cleanup_spaceless; exact Hs1|]. split; [exact HD|]. split; [exact E2|]. rewrite one_dec, E3. assert (Hvm : markless v) by (rewrite <- E2 in Hm; apply Forall_app in Hm as [Hm _]; exact Hm).
      split; [apply cleanup_word; auto|]. rewrite (gapped_markless true _ Hm), <- E2. reflexivity.
    + assert (Ec : utf8_encs [c] = [c]). { apply marks_small in Hc. unfold utf8_encs. cbn [flat_map]. unfold utf8_enc. destruct (N.ltb_spec c 128); [reflexivity | lia]. }
      rewrite Ec in *. destruct v as [|d v]; [congruence|]. cbn [app] in E2. assert (Hd := f_equal (hd 0%N) E2). assert (Hr := f_equal (@tl N) E2). cbn [hd tl] in Hd, Hr. subst d. apply app_eq_nil in Hr as [-> Hr].
      assert (HS : simple [c]). { split; [exact Hs1|]. destruct Hc as [<-|[<-|[<-|[<-|[<-|[]]]]]]; [right; right; exists 46%N | right; right; exists 63%N | right; right; exists 33%N | right; right; exists 44%N | right; left; reflexivity]; (split; [reflexivity | vm_compute; tauto]). }
      destruct (cleanup_simple _ HS) as [S1 S2]. exists [c], vs, (map (dec (wp_prefix w)) vs), (gapped true [c]). split; [exact E1|]. split; [exact S2|]. split; [exact HD|]. rewrite Hr. split; [reflexivity|]. rewrite one_dec, E3. split; [exact S1 | apply app_nil_r].
  - exists v, vs, (map (dec (wp_prefix w)) vs), (32%N :: v). split; [exact E1|]. split; [reflexivity|]. split; [apply mapM_decs; reflexivity|]. split; [exact E2|]. split; [rewrite one_dec, E3; reflexivity|]. cbn [app]. rewrite E2. reflexivity.
Qed.
Lemma unknown_shows w cleanup n : (cleanup = true -> markless (wp_unk w)) -> (forall r, wp_unk w <> wp_prefix w ++ r) -> word_shows (wp_prefix w) cleanup [unknown_token w n] (wp_unk w).
Proof.
  intros HM Hpre. exists (wp_unk w), [], [], (32%N :: wp_unk w). split; [reflexivity|]. rewrite one_dec, (dec_word _ _ Hpre). destruct cleanup.
  - specialize (HM eq_refl). assert (Hs : ~ In 32%N (wp_unk w)) by (intros Hi; apply (proj1 (Forall_forall _ _) HM _ Hi); left; reflexivity).
    split; [apply cleanup_spaceless; exact Hs|]. split; [reflexivity|]. split; [apply app_nil_r|]. split; [apply cleanup_word; auto|]. rewrite app_nil_r, (gapped_markless true _ HM). reflexivity.
  - split; [reflexivity|]. split; [reflexivity|]. split; [apply app_nil_r|]. split; [reflexivity | apply app_nil_r].
Qed.
Lemma split_plain sp pu pos s l : bert_split sp pu pos s l -> Forall (fun x => plain_word sp pu x /\ forall c, In c x -> In c s) (map snd l).
Proof.
  induction 1 as [pos|pos c s l Hs H IH|pos c s l Hs Hp H IH|pos x s l Hx HF Hm H IH]; cbn [map snd].
  - constructor.
  - eapply Forall_impl; [|exact IH]. intros x [H1 H2]. split; [exact H1|]. intros d Hd. right. apply H2. exact Hd.
  - constructor; [|eapply Forall_impl; [|exact IH]; intros x [H1 H2]; split; [exact H1|]; intros d Hd; right; apply H2; exact Hd].
    split; [split; [discriminate|]; split; [constructor; [exact Hs | constructor]|]; right; eauto | intros d [<-|[]]; left; reflexivity].
  - constructor; [|eapply Forall_impl; [|exact IH]; intros y [H1 H2]; split; [exact H1|]; intros d Hd; apply in_app_iff; right; apply H2; exact Hd].
    split; [split; [exact Hx|]; split; [eapply Forall_impl; [|exact HF]; intros c [K _]; exact K|]; left; eapply Forall_impl; [|exact HF]; intros c [_ K]; exact K | intros d Hd; apply in_app_iff; left; exact Hd].
Qed.
Lemma rows_of_tokens w i l rs : words_rows w i l rs -> exists tss, Forall2 (word_tokens w) (map snd l) tss /\ map r_id rs = flat_map (map tk_id) tss /\ map r_token rs = flat_map (map tk_value) tss.
Proof.
  induction 1 as [i|i pos x l ts rs Ht _ (tss & I1 & I2 & I3)]; [exists []; split; [constructor | split; reflexivity]|].
  exists (ts :: tss). cbn [map snd flat_map]. split; [constructor; assumption|]. rewrite !map_app, I2, I3. unfold word_rows. rewrite !map_map. cbn [r_id r_token]. split; reflexivity.
Qed.

(** Decoding the encoding of any text: its words (the unknown token for those that have none) with one space between neighbours. *)
Theorem C125_decoded : forall E fuel t w s n l add cleanup r, tz_model t = Some (MWordPiece w) -> dense (wp_vocab w) -> tz_pre t = Some TBert -> s <> [] -> forallb valid_cp n = true ->
  normalized_to E t s n -> bert_split (e_u_space E) (e_u_punct E) 0 n l -> legible w cleanup (e_u_space E) (e_u_punct E) n (map snd l) ->
  snd (encode E fuel (bare t) s add) = Ok r -> exists bs, Forall2 (shown w) (map snd l) bs /\
  forall t2 ops av skip, tz_model t2 = Some (MWordPiece w) -> tz_av t2 = Some av -> history (wp_vocab w) ops av -> tz_dec t2 = Some (DWordPiece (wp_prefix w) cleanup) ->
  (skip = true -> Forall (fun x => ~ registered_special ops x) (en_tokens r)) -> decode t2 (en_ids r) skip = Ok (respelled cleanup bs).
Proof.
  intros E fuel t w s n l add cleanup r Hm Hd Hp Hne Hv HN HS (L1 & L2 & L3 & L4 & L5) HE.
  assert (Hvn : wp_vocab w <> []) by (intros E0; rewrite E0 in L3; apply L3; reflexivity).
  destruct (C81_reference_ids E fuel t w s n add r Hm Hp Hne HN HE) as (rs & (l' & HS' & HR) & HF).
  pose proof (split_bw _ _ _ _ _ HS) as B1. pose proof (split_bw _ _ _ _ _ HS') as B2. destruct (rows_of_tokens _ _ _ _ HR) as (tss & T1 & T2 & T3). rewrite B2, <- B1 in T1.
  assert (FP : flat_parallel r).
  { rewrite encode_bare in HE. unfold text_encoding in HE. apply bind_ok in HE as ([av p] & _ & HE). apply bind_ok in HE as (p' & _ & HE). unfold into_encoding in HE. apply (into_rows_flat _ _ _ _ _ HE). }
  destruct (rows_cols r FP) as (C1 & _ & C3 & _).
  assert (Ei : en_ids r = flat_map (map tk_id) tss). { rewrite <- C1, <- T2. clear - HF. induction HF as [|a b x y (H & _) _ IH]; [reflexivity|]. cbn [map]. rewrite H, IH. reflexivity. }
  assert (Et : en_tokens r = flat_map (map tk_value) tss). { rewrite <- C3, <- T3. clear - HF. induction HF as [|a b x y (_ & _ & H & _) _ IH]; [reflexivity|]. cbn [map]. rewrite H, IH. reflexivity. }
  pose proof (split_plain _ _ _ _ _ HS) as HPW.
  assert (HW : exists bs, Forall2 (shown w) (map snd l) bs /\ Forall2 (word_shows (wp_prefix w) cleanup) tss bs).
  { clear - T1 HPW L1 L2 L4 L5 Hv. revert HPW L5. induction T1 as [|x ts ws tss Hx _ IH]; intros HPW L5; [exists []; split; constructor|]. inversion HPW as [|? ? [P1 P2] HPW']; subst. inversion L5 as [|? ? L5a L5b]; subst.
    destruct (IH HPW' L5b) as (bs & I1 & I2). destruct Hx as [[Hl Hg]|[Hn ->]].
    - exists (utf8_encs x :: bs). split; constructor; try assumption; [left; split; [split; [exact Hl | eauto] | reflexivity]|]. eapply known_shows; [intros Ec; apply L1; exact Ec | exact P1 | | | exact L5a | exact Hg].
      + apply forallb_forall. intros c Hc. apply (proj1 (forallb_forall _ _) Hv). apply P2. exact Hc.
      + destruct L2 as [Hb|Hr]; [left | right; exact Hr]. apply Forall_forall. intros c Hc. apply (proj1 (Forall_forall _ _) Hb). apply P2. exact Hc.
    - exists (wp_unk w :: bs). split; constructor; try assumption; [right; split; [|reflexivity]; intros (Hl & ts & Hg); destruct Hn as [Hn|Hn]; [lia | exact (Hn _ Hg)]|]. apply unknown_shows; [intros Ec; apply L1; exact Ec | exact L4]. }
  destruct HW as (bs & W1 & W2). exists bs. split; [exact W1|]. intros t2 ops av skip Hm2 Hav Hh Hdec Hskip.
  assert (HD : Forall2 (denotes (wp_vocab w) av) (en_ids r) (en_tokens r)).
  { rewrite Ei, Et. clear - T1 Hd Hvn Hh L3. induction T1 as [|x ts ws tss Hx _ IH]; [constructor|]. cbn [flat_map]. apply Forall2_app; [|exact IH]. destruct Hx as [[_ Hg]|[_ ->]].
    - destruct (greedy_tiles _ _ _ _ _ Hg) as [_ HF]. clear - HF Hd Hvn Hh. induction HF as [|y ts [_ Hy] _ IH]; [constructor|]. cbn [map]. constructor; [|exact IH]. eapply vocab_denotes; eassumption.
    - constructor; [|constructor]. unfold unknown_token. cbn [tk_id tk_value]. destruct (sfind (wp_unk w) (wp_vocab w)) as [i|] eqn:Eu; [|congruence]. eapply vocab_denotes; eassumption. }
  assert (HWo : without (fun s => skip = true /\ registered_special ops s) (en_tokens r) (en_tokens r)).
  { clear - Hskip. revert Hskip. induction (en_tokens r) as [|x q IH]; intros H; [constructor|]. apply wo_keep; [intros [Hs Hx]; specialize (H Hs); inversion H; contradiction|]. apply IH. intros Hs. specialize (H Hs). inversion H; assumption. }
  rewrite (C21_decode (wp_vocab w) ops av t2 (MWordPiece w) _ Hd Hvn Hh Hav Hm2 eq_refl Hdec _ _ skip _ HD HWo), Et. apply shows_all. exact W2.
Qed.
Print Assumptions C125_decoded.

(** Ids of special tokens vanish from decode with skip_special_tokens, wherever they stand. *)
Theorem C125_specials_vanish : forall v ops av t m, dense v -> v <> [] -> history v ops av -> tz_av t = Some av -> tz_model t = Some m -> model_vocab m = v ->
  forall ids ids', some_removed (special_id v ops av) ids ids' -> decode t ids true = decode t ids' true.
Proof.
  intros v ops av t m Hd Hne H Ha Hm Hv ids ids' HR. unfold decode. assert (K : decode_ids t true ids = decode_ids t true ids'); [|rewrite K; reflexivity].
  induction HR as [|i l l' (x & Hx & Hs) _ IH|i l l' _ IH]; [reflexivity | | cbn [decode_ids]; rewrite IH; reflexivity].
  cbn [decode_ids]. rewrite Ha. apply (denotes_resolve v ops av t m Hd Hne H Hm Hv) in Hx. unfold resolve in Hx. rewrite Hm in *.
  assert (HS : is_special_token av x = true). { unfold is_special_token. rewrite smem_in. apply (ho_special _ _ _ (history_ok v ops av Hd Hne H)). exact Hs. }
  destruct (av_id_to_token av i) as [y|]; [injection Hx as ->|rewrite Hx]; cbn [bind]; rewrite IH; destruct (decode_ids t true l'); cbn [bind]; rewrite ?HS; reflexivity.
Qed.
Print Assumptions C125_specials_vanish.
Lemma map_rep {A B} (f : A -> B) x k : map f (repeat x k) = repeat (f x) k.
Proof. induction k; cbn; congruence. Qed.
Lemma removed_refl {A} (P : A -> Prop) l : some_removed P l l.
Proof. induction l; constructor; assumption. Qed.
Lemma removed_front {A} (P : A -> Prop) a l : Forall P a -> some_removed P (a ++ l) l.
Proof. induction 1; [apply removed_refl|]. cbn [app]. apply sr_remove; assumption. Qed.
Lemma removed_app {A} (P : A -> Prop) a a' b b' : some_removed P a a' -> some_removed P b b' -> some_removed P (a ++ b) (a' ++ b').
Proof. induction 1; intros; cbn [app]; [assumption | apply sr_remove; auto | apply sr_keep; auto]. Qed.
Lemma removed_all {A} (P : A -> Prop) a : Forall P a -> some_removed P a [].
Proof. intros H. rewrite <- (app_nil_r a). apply removed_front. exact H. Qed.

(** The usual call: a template [CLS] text [SEP] and perhaps padding, all of them special tokens, decoded with skip_special_tokens. *)
Theorem C125_template : forall E fuel t w s core r single specials c x d cs ct ds dt,
  snd (encode E fuel (bare t) s true) = Ok core -> snd (encode E fuel t s true) = Ok r ->
  tz_trunc t = None -> tz_post t = Some (PTemplate single specials) -> single = [c; x; d] ->
  pc_kind c = str "SpecialToken" -> pc_kind x = str "Sequence" -> pc_id x = str "A" -> pc_kind d = str "SpecialToken" ->
  find (fun s => leqb (st_id s) (pc_id c)) specials = Some (mkSpecial (pc_id c) [cs] [ct]) -> find (fun s => leqb (st_id s) (pc_id d)) specials = Some (mkSpecial (pc_id d) [ds] [dt]) ->
  int_config t -> (forall p, tz_post t = Some p -> specials_ok p) -> (Z.of_nat (length (en_ids core)) + 2 < 2 ^ 31)%Z ->
  forall t2 ops av, tz_model t2 = Some (MWordPiece w) -> dense (wp_vocab w) -> wp_vocab w <> [] -> tz_av t2 = Some av -> history (wp_vocab w) ops av ->
  special_id (wp_vocab w) ops av cs -> special_id (wp_vocab w) ops av ds -> (forall p, tz_pad t = Some p -> special_id (wp_vocab w) ops av (p_id p)) ->
  decode t2 (en_ids r) true = decode t2 (en_ids core) true.
Proof.
  intros E fuel t w s core r single specials c x d cs ct ds dt HC HE Htr Hpo Hsi K1 K2 K3 K4 F1 F2 HI HO HL t2 ops av Hm2 Hd Hne Hav Hh S1 S2 S3.
  assert (HP : forall e, snd (encode E fuel (bare t) s true) = Ok e -> parallel e). { intros e He. rewrite encode_bare in He. unfold text_encoding in He. apply bind_ok in He as ([av' p] & _ & He). apply bind_ok in He as (p' & _ & He). unfold into_encoding in He. destruct (into_rows_flat _ _ _ _ _ He) as [G1 G2]. constructor; [exact G1 | rewrite G2; constructor]. }
  pose proof (HP core HC) as HPC. assert (FC : flat_parallel core) by (inversion HPC; assumption). assert (FR : flat_parallel r) by (pose proof (C10_parallel_columns E fuel t s true r HO HE) as K; inversion K; assumption).
  assert (LP : forall k, k <= length (en_ids core) -> (Z.of_nat (tz_post_length t true k) < 2 ^ 31)%Z).
  { intros k Hk. unfold tz_post_length. rewrite Hpo, Hsi. cbn [post_length map]. unfold piece_length. rewrite K1, K2, K4, F1, F2. match goal with |- (Z.of_nat ?X < _)%Z => replace X with (k + 2) end; [lia|]. rewrite !leqb_refl. replace (leqb (str "SpecialToken") (str "Sequence")) with false by reflexivity. cbn. lia. }
  pose proof (C109_rows E fuel t s true core r HC HE HI HO ltac:(lia) LP) as HFin. destruct (C109_cls_sep t single specials c x d cs ct ds dt (rows core) (rows r) Hpo Hsi K1 K2 K3 K4 F1 F2) as [HF _].
  destruct (HF HFin) as (ks & Hk & Hpad). rewrite Htr in Hk. cbn [kept_rows] in Hk. subst ks.
  destruct (rows_cols r FR) as (C1 & _). destruct (rows_cols core FC) as (C2 & _).
  eapply C125_specials_vanish; [exact Hd | exact Hne | exact Hh | exact Hav | exact Hm2 | reflexivity|]. rewrite <- C1, <- C2. set (P := special_id (wp_vocab w) ops av) in *.
  assert (HB : some_removed P (map r_id (mkRow cs (pc_type c) ct None (0, 0) 1 1 :: map (retyped (pc_type x)) (rows core) ++ [mkRow ds (pc_type d) dt None (0, 0) 1 1])) (map r_id (rows core))).
  { cbn [map r_id]. apply sr_remove; [exact S1|]. rewrite map_app, map_map. cbn [map r_id retyped]. rewrite <- (app_nil_r (map r_id (rows core))). apply (removed_app P (map r_id (rows core)) _ [ds] []); [apply removed_refl|]. apply removed_all. constructor; [exact S2 | constructor]. }
  unfold padded_rows in Hpad. destruct (tz_pad t) as [p|]; [|rewrite Hpad; exact HB]. specialize (S3 p eq_refl).
  destruct (p_dir p) eqn:Ed; [destruct Hpad as (target & _ & ->) | destruct Hpad as (target & _ & ->) | rewrite Hpad; exact HB]; cbn [padded_col]; rewrite map_app, map_rep; cbn [r_id].
  - rewrite <- (app_nil_r (map r_id (rows core))). apply removed_app; [exact HB|]. apply removed_all, Forall_forall; intros z Hz; apply repeat_spec in Hz as ->; exact S3.
  - apply (removed_app P (repeat (p_id p) _) [] _ _); [apply removed_all, Forall_forall; intros z Hz; apply repeat_spec in Hz as ->; exact S3 | exact HB].
Qed.
Print Assumptions C125_template.

(** *** Encoding the decoded text again *)
Lemma bw_tail sp pu cleanup ws : sp 32%N = true -> (cleanup = true -> marks_ok sp pu) -> Forall (plain_word sp pu) ws -> forall cur, bw sp pu cur (flat_map (gapped cleanup) ws) = keep cur ++ ws.
Proof.
  intros Hsp HM HW. induction HW as [|x ws (Hx & Hs & Hp) _ IH]; intros cur; cbn [flat_map bw]; [rewrite app_nil_r; reflexivity|].
  assert (K : forall r, (forall c, bw sp pu c r = keep c ++ ws) -> bw sp pu [] (x ++ r) = x :: ws).
  { intros r Hr. destruct Hp as [Hp|(c & -> & Hc)].
    - rewrite bw_plain by (apply Forall_forall; intros d Hd; split; [exact (proj1 (Forall_forall _ _) Hs d Hd) | exact (proj1 (Forall_forall _ _) Hp d Hd)]). cbn [app]. rewrite Hr. destruct x; [congruence | reflexivity].
    - cbn [app bw]. inversion Hs as [|? ? Hs1 _]; subst. rewrite Hs1, Hc. cbn [keep app]. rewrite Hr. reflexivity. }
  unfold gapped at 1. destruct (no_gap cleanup x) eqn:EG.
  - destruct cleanup; [|discriminate]. destruct (no_gap_true _ EG) as (c & -> & Hc). cbn [app bw]. inversion Hs as [|? ? Hs1 _]; subst. rewrite Hs1. destruct (HM eq_refl) as (_ & HM2).
    assert (Hpc : pu c = true). { apply (proj1 (Forall_forall _ _) HM2). unfold close_marks, cleanup_marks in *. cbn [In] in *. tauto. }
    rewrite Hpc, (IH []). reflexivity.
  - cbn [app bw]. rewrite Hsp, (K _ IH). reflexivity.
Qed.
Lemma bw_respelled sp pu cleanup ws : sp 32%N = true -> (cleanup = true -> marks_ok sp pu) -> Forall (plain_word sp pu) ws -> bw sp pu [] (respelled cleanup ws) = ws.
Proof.
  intros Hsp HM HW. destruct HW as [|x ws (Hx & Hs & Hp) HW]; [reflexivity|]. cbn [respelled]. pose proof (bw_tail sp pu cleanup ws Hsp HM HW) as HT. destruct Hp as [Hp|(c & -> & Hc)].
  - rewrite bw_plain by (apply Forall_forall; intros d Hd; split; [exact (proj1 (Forall_forall _ _) Hs d Hd) | exact (proj1 (Forall_forall _ _) Hp d Hd)]). cbn [app]. rewrite HT. destruct x; [congruence | reflexivity].
  - cbn [app bw]. inversion Hs as [|? ? Hs1 _]; subst. rewrite Hs1, Hc, HT. reflexivity.
Qed.
Lemma no_gap_encs cleanup x : no_gap cleanup (utf8_encs x) = no_gap cleanup x.
Proof.
  unfold no_gap. destruct cleanup; [|reflexivity]. cbn [andb].
  assert (L : forall c, utf8_enc c <> []) by (intros c; unfold utf8_enc; repeat (destruct (_ <? _)%N); discriminate).
  destruct x as [|c [|d x]].
  - reflexivity.
  - unfold utf8_encs. cbn [flat_map]. rewrite app_nil_r. unfold utf8_enc. destruct (N.ltb_spec c 128); [reflexivity|].
    assert (K : existsb (N.eqb c) close_marks = false). { cbn [existsb close_marks]. repeat (rewrite (proj2 (N.eqb_neq c _)) by lia). reflexivity. }
    rewrite K. repeat (destruct (_ <? _)%N); reflexivity.
  - unfold utf8_encs. cbn [flat_map]. pose proof (L c) as L1. pose proof (L d) as L2. destruct (utf8_enc c) as [|b1 [|b2 e1]]; [congruence | | reflexivity]. destruct (utf8_enc d) as [|b3 e2]; [congruence | reflexivity].
Qed.
Lemma respelled_encs cleanup ws : utf8_encs (respelled cleanup ws) = respelled cleanup (map utf8_encs ws).
Proof.
  destruct ws as [|x ws]; [reflexivity|]. cbn [respelled map]. rewrite utf8_encs_app. f_equal. induction ws as [|y ws IH]; [reflexivity|]. cbn [flat_map map]. rewrite utf8_encs_app, IH. f_equal. unfold gapped. rewrite no_gap_encs. destruct (no_gap cleanup y); reflexivity.
Qed.

(** If no word is unknown, decoding gives the words with canonical spacing, and encoding that text gives the same encoding again, up to offsets. *)
Theorem C125_stable : forall E fuel t w s n l cleanup, tz_model t = Some (MWordPiece w) -> dense (wp_vocab w) -> tz_pre t = Some TBert -> s <> [] -> forallb valid_cp s = true -> forallb valid_cp n = true ->
  normalized_in_place E t s n -> bert_split (e_u_space E) (e_u_punct E) 0 n l -> l <> [] -> legible w cleanup (e_u_space E) (e_u_punct E) n (map snd l) -> e_u_space E 32%N = true -> Forall (segmentable w) (map snd l) ->
  let s' := respelled cleanup (map snd l) in
  (exists r, (forall add, snd (encode E fuel (bare t) s add) = Ok r) /\
   forall t2 ops av skip, tz_model t2 = Some (MWordPiece w) -> tz_av t2 = Some av -> history (wp_vocab w) ops av -> tz_dec t2 = Some (DWordPiece (wp_prefix w) cleanup) ->
   (skip = true -> Forall (fun x => ~ registered_special ops x) (en_tokens r)) -> decode t2 (en_ids r) skip = Ok (utf8_encs s')) /\
  (normalized_in_place E t s' s' -> forall add, (r <- snd (encode E fuel t s' add) ;; Ok (forget_offsets r)) = (r <- snd (encode E fuel t s add) ;; Ok (forget_offsets r))).
Proof.
  intros E fuel t w s n l cleanup Hm Hd Hp Hne Hv Hvn HN HS Hl HL Hsp Hseg s'. pose proof (split_plain _ _ _ _ _ HS) as HPW.
  assert (HW : Forall (plain_word (e_u_space E) (e_u_punct E)) (map snd l)) by (eapply Forall_impl; [|exact HPW]; intros x [H _]; exact H).
  split.
  - destruct (C81_reference E fuel t w s n true Hm Hp Hne Hv Hvn HN) as (r & H1 & _). exists r. assert (HA : forall add, snd (encode E fuel (bare t) s add) = Ok r) by (intros add; rewrite encode_bare in *; exact H1). split; [exact HA|].
    destruct (C125_decoded E fuel t w s n l true cleanup r Hm Hd Hp Hne Hvn (proj1 HN) HS HL H1) as (bs & B1 & B2). intros t2 ops av skip A1 A2 A3 A4 A5. rewrite (B2 t2 ops av skip A1 A2 A3 A4 A5). unfold s'. rewrite respelled_encs. do 2 f_equal.
    clear - B1 Hseg. induction B1 as [|x b ws bs Hb _ IH]; [reflexivity|]. inversion Hseg as [|? ? S1 S2]; subst. cbn [map]. rewrite <- (IH S2). f_equal. destruct Hb as [[_ ->]|[Hn _]]; [reflexivity | contradiction].
  - intros HN' add.
    assert (Hv' : forallb valid_cp s' = true).
    { apply forallb_forall. intros c Hc. assert (K : c = 32%N \/ exists x, In x (map snd l) /\ In c x).
      { unfold s' in Hc. clear -Hc. destruct (map snd l) as [|x ws]; [destruct Hc|]. cbn [respelled] in Hc. apply in_app_iff in Hc as [Hc|Hc]; [right; exists x; split; [left; reflexivity | exact Hc]|]. apply in_flat_map in Hc as (y & Hy & Hc). unfold gapped in Hc.
        destruct (no_gap cleanup y); [right; exists y; split; [right; exact Hy | exact Hc]|]. destruct Hc as [<-|Hc]; [left; reflexivity | right; exists y; split; [right; exact Hy | exact Hc]]. }
      destruct K as [->|(x & Hx & Hcx)]; [reflexivity|]. destruct (proj1 (Forall_forall _ _) HPW x Hx) as [_ H]. apply (proj1 (forallb_forall _ _) Hvn). apply H. exact Hcx. }
    assert (Hne' : s' <> []). { unfold s'. destruct l as [|p l]; [congruence|]. cbn [map respelled]. cbn [map] in HW. inversion HW as [|? ? (Hx & _) _]; subst. destruct (snd p); [congruence | discriminate]. }
    destruct (C81_reference E fuel t w s n add Hm Hp Hne Hv Hvn HN) as (r & H1 & H2 & H3 & H4). destruct (C81_reference E fuel t w s' s' add Hm Hp Hne' Hv' Hv' HN') as (r' & K1 & K2 & K3 & K4).
    rewrite !(encode_stages E fuel t _ add), H1, K1. cbn [bind]. apply post_alike. apply rows_forget; try assumption. eapply reference_words; [|exact K4 | exact H4]. unfold s'. rewrite (bw_respelled _ _ cleanup _ Hsp); [|intros Ec; apply (proj1 HL); exact Ec | exact HW]. apply (split_bw _ _ _ _ _ HS).
Qed.
Print Assumptions C125_stable.

(** *** A small tokenizer with [CLS] and [SEP] as special tokens, clean-up on, and the text "playing ,chess" *)
Definition rsp_ops : list added_token := [mkAt 1 (str "[CLS]") false false false false true; mkAt 2 (str "[SEP]") false false false false true].
Definition rsp_av : added_vocab := match av_add_tokens true (new_added_vocab rsp_ops) (Some demo_vocab) rsp_ops with Ok p => fst p | _ => new_added_vocab [] end.
Definition rsp_t (pd : option padding) : tokenizer := mkTz None pd (Some rsp_av) None (Some TBert) (Some (MWordPiece demo_wp)) (Some (DWordPiece (str "##") true)) (Some demo_template).
Definition rsp_text : wstr := str "playing ,chess".
Definition rsp_words : list (nat * wstr) := [(0, str "playing"); (8, str ","); (9, str "chess")].
Lemma rsp_history : history demo_vocab rsp_ops rsp_av.
Proof. eapply (h_new _ _ _ (snd (match av_add_tokens true (new_added_vocab rsp_ops) (Some demo_vocab) rsp_ops with Ok p => p | _ => (new_added_vocab [], 0%Z) end))). vm_compute. reflexivity. Qed.
Example C125_case :
  normalized_in_place test_env (rsp_t None) rsp_text rsp_text /\ bert_split (e_u_space test_env) (e_u_punct test_env) 0 rsp_text rsp_words /\
  legible demo_wp true (e_u_space test_env) (e_u_punct test_env) rsp_text (map snd rsp_words) /\ Forall (segmentable demo_wp) (map snd rsp_words) /\
  respelled true (map snd rsp_words) = str "playing, chess" /\ normalized_in_place test_env (rsp_t None) (str "playing, chess") (str "playing, chess") /\
  special_id demo_vocab rsp_ops rsp_av 1%Z /\ special_id demo_vocab rsp_ops rsp_av 2%Z /\ int_config (rsp_t None) /\
  exists r r', snd (encode test_env 10 (rsp_t None) rsp_text true) = Ok r /\ en_ids r = [1; 3; 4; 6; 5; 2]%Z /\ decode (rsp_t None) (en_ids r) true = Ok (str "playing, chess") /\
    snd (encode test_env 10 (rsp_t None) (str "playing, chess") true) = Ok r' /\ en_ids r' = en_ids r /\ r' <> r.
Proof.
  assert (Q : forall s, s <> [] -> quiet test_env (rsp_t None) s -> normalized_in_place test_env (rsp_t None) s s) by (intros; apply quiet_in_place; assumption).
  assert (S : forall i x, sfind x demo_vocab = Some i -> registered_special rsp_ops x -> special_id demo_vocab rsp_ops rsp_av i).
  { intros i x Hx Hr. exists x. split; [|exact Hr]. eapply vocab_denotes; [apply demo_dense | discriminate | apply rsp_history | exact Hx]. }
  split; [|split; [|split; [|split; [|split; [|split; [|split; [|split; [|split]]]]]]]].
  - apply Q; [discriminate|]. split; [reflexivity|]. split; apply no_added_check_ok; vm_compute; reflexivity.
  - unfold rsp_text, rsp_words. apply (bs_word _ _ 0 (str "playing") (str " ,chess")); [discriminate | repeat constructor | left; reflexivity|]. apply bs_space; [reflexivity|]. apply bs_punct; [reflexivity | reflexivity|].
    rewrite <- (app_nil_r (str "chess")). apply (bs_word _ _ _ (str "chess") []); [discriminate | repeat constructor | exact I | apply bs_end].
  - split; [intros _; split; [split; [reflexivity | repeat constructor]|]|split; [|split; [|split]]].
    + repeat (apply Forall_cons; [vm_compute; intuition discriminate|]). apply Forall_nil.
    + left. repeat constructor.
    + discriminate.
    + intros r. discriminate.
    + repeat (apply Forall_cons; [intros r; discriminate|]). apply Forall_nil.
  - repeat (apply Forall_cons; [eapply segmentable_check; [vm_compute; discriminate | reflexivity | vm_compute; reflexivity | vm_compute; discriminate]|]). apply Forall_nil.
  - reflexivity.
  - apply Q; [discriminate|]. split; [reflexivity|]. split; apply no_added_check_ok; vm_compute; reflexivity.
  - apply (S 1%Z (str "[CLS]")); [reflexivity|]. split; [discriminate|]. eexists. split; [left; reflexivity | split; reflexivity].
  - apply (S 2%Z (str "[SEP]")); [reflexivity|]. split; [discriminate|]. eexists. split; [right; left; reflexivity | split; reflexivity].
  - split; intros ? H; discriminate H.
  - eexists. eexists. split; [vm_compute; reflexivity|]. split; [reflexivity|]. split; [vm_compute; reflexivity|]. split; [vm_compute; reflexivity|]. split; [reflexivity | discriminate].
Qed.

(** With an unknown word the second encoding differs: [dog] is the unknown token, decoded as "[UNK]", which is three words. *)
Theorem C125_unknown_refuted : exists r r', snd (encode test_env 10 (rsp_t None) (str "dog") false) = Ok r /\ en_ids r = [0]%Z /\ decode (rsp_t None) (en_ids r) true = Ok (str "[UNK]") /\
  snd (encode test_env 10 (rsp_t None) (str "[UNK]") false) = Ok r' /\ en_ids r' = [0; 0; 0]%Z.
Proof. eexists. eexists. split; [vm_compute; reflexivity|]. split; [reflexivity|]. split; [vm_compute; reflexivity|]. split; [vm_compute; reflexivity | reflexivity]. Qed.
Print Assumptions C125_unknown_refuted.
