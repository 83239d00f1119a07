(** C140: words and positions of a text with a special token in it, when everything is normalized in place. Specification: BoundSpec.v, LaidSpec.v. *)
From Verif Require Import Base BaseFacts Unicode UnicodeProofs Common Utils PostProcessor Decoder Normalizer PreTokenizer WordPiece Bpe AddedVocab Tokenizer Config ConfigSpec
  Spec PostSpec DecSpec NormSpec NormProofs PreSpec PreProofs AvSpec AvProofs ExtractProofs TzSpec TzProofs WpSpec WpProofs OffSpec OffProofs RefSpec RefProofs MixSpec MixProofs HistSpec HistProofs LenSpec FullSpec BpeSpec BpeProofs BpeWord UnkSpec ByteSpec
  PropsReference PropsConfig PropsAdded PropsLifetime PropsText PropsMixed OutSpec PropsFinish PropsFull PropsNorm PropsPre PropsOffsets PropsEncode PropsBpe PropsByteBpe BpeRefSpec PropsBpeText CutSpec PropsCut PropsBertConfig PartsSpec PropsParts PropsTotal TextsSpec PropsTexts LaidSpec PropsLaid PropsLaidAt BoundSpec PropsBound PropsBoundAt Env.
From Coq Require Import ZifyBool ZifyNat ZifyN.
Import ListNotations.

(** ** The words of the text put together *)
Lemma words_at_shift E pre d : (forall t, pre = Some t -> keeps_characters E t) -> forall pos x l, words_at E pre pos x l -> words_at E pre (d + pos) x (moved d l).
Proof. intros HK pos x l H. destruct pre as [t|]; cbn [words_at] in *; [exact (cuts_shift E d t (HK t eq_refl) _ _ H) | subst l; reflexivity]. Qed.
Lemma shift_moved d l : shift d l = moved d l.
Proof. unfold shift, moved. apply map_ext. intros p. f_equal. lia. Qed.
Lemma parts_shift tok (Q : nat -> wstr -> list (nat * wstr) -> Prop) d : (forall pos x l, Q pos x l -> Q (d + pos) x (moved d l)) -> forall pos n l, parts tok Q pos n l -> parts tok Q (d + pos) n (moved d l).
Proof.
  intros HQ pos n l (tokens & segs & out & F & D & O & ->). exists (shift d tokens), (map (moved_seg d) segs), (map (moved d) out). split; [|split; [|split]].
  - rewrite Nat.add_comm. apply fields_shift; [intros p s k ->; reflexivity | exact F].
  - apply (divided_shift d) in D. rewrite map_map in D. unfold shift. rewrite map_map. erewrite map_ext; [exact D|]. intros p. cbn [fst snd]. f_equal; lia.
  - clear - O HQ. induction O as [|[[o x] f] ws segs out Hq _ IH]; cbn [map]; constructor; [|exact IH]. cbn [moved_seg fst snd] in *. destruct f; [subst ws; reflexivity | apply HQ; exact Hq].
  - unfold moved. rewrite concat_map. reflexivity.
Qed.
Lemma laid_shift E v ops norm pre d : (forall t, pre = Some t -> keeps_characters E t) -> forall pos segs l, laid E v ops norm pre pos segs l -> laid E v ops norm pre (d + pos) (map (moved_seg d) segs) (moved d l).
Proof.
  intros HK. induction 1 as [pos|pos o x segs l _ IH|pos o x n segs l k Hi Hp _ IH]; cbn [map moved_seg fst snd].
  - constructor.
  - change (moved d ((pos, x) :: l)) with ((d + pos, x) :: moved d l). constructor. rewrite <- Nat.add_assoc. exact IH.
  - unfold moved. rewrite map_app. fold (moved d l). fold (moved d k). apply laid_stretch with (n := n); [exact Hi | apply parts_shift; [apply words_at_shift; exact HK | exact Hp] | rewrite <- Nat.add_assoc; exact IH].
Qed.
Definition seg_sum (segs : list ((nat * wstr) * bool)) : nat := list_sum (map (fun q => length (snd (fst q))) segs).
Lemma laid_glue E v ops norm pre : (forall x n, in_place_to E norm x n -> length n = length x) -> forall pos segs l, laid E v ops norm pre pos segs l ->
  forall segs' l', laid E v ops norm pre (pos + seg_sum segs) segs' l' -> laid E v ops norm pre pos (segs ++ segs') (l ++ l').
Proof.
  intros HL. induction 1 as [pos|pos o x segs l _ IH|pos o x n segs l k Hi Hp _ IH]; intros segs' l' H'.
  - change (seg_sum []) with 0 in H'. rewrite Nat.add_0_r in H'. exact H'.
  - change (seg_sum (((o, x), true) :: segs)) with (length x + seg_sum segs) in H'. rewrite Nat.add_assoc in H'. cbn [app]. constructor. exact (IH _ _ H').
  - change (seg_sum (((o, x), false) :: segs)) with (length x + seg_sum segs) in H'. rewrite <- (HL x n Hi), Nat.add_assoc in H'. cbn [app]. rewrite <- app_assoc. apply laid_stretch with (n := n); [exact Hi | exact Hp | exact (IH _ _ H')].
Qed.
Lemma divided_sum pos x ms segs : divided pos x ms segs -> seg_sum segs = length x.
Proof.
  induction 1 as [pos|pos x Hx|pos x rest a b ms segs Hx Ha H IH|pos x rest ms segs H IH]; [reflexivity | unfold seg_sum; cbn; lia | |]; rewrite app_length, <- IH; reflexivity.
Qed.

Section Rows.
Variables (E : env) (v : smap Z) (ops : list added_token) (norm : option normalizer) (pre : option pre_tokenizer).
Hypothesis HL : forall x n, in_place_to E norm x n -> length n = length x.
Definition opened (s : wstr) (l : list (nat * wstr)) : Prop :=
  exists tokens segs, fields (takes_part v ops false) no_words 0 s tokens /\ divided 0 s (tok_spans tokens) segs /\ laid E v ops norm pre 0 segs l.
Lemma laid_opened s l : s <> [] -> laid_words E v ops norm pre s l <-> opened s l.
Proof.
  intros Hs. assert (N : forall tokens : list (nat * wstr), ~ (tokens = [] /\ in_place_to E norm s [])) by (intros tokens [_ H]; apply HL in H; destruct s; [congruence | discriminate]). split.
  - intros (tokens & segs & F & D & [[H _]|[_ H]]); [exfalso; exact (N tokens H) | exists tokens, segs; auto].
  - intros (tokens & segs & F & D & H). exists tokens, segs. split; [exact F|]. split; [exact D|]. right. auto.
Qed.
Lemma opened_nothing : opened [] [].
Proof. exists [], []. repeat split; constructor. Qed.
Lemma opened_glue a c b la lb : (forall t, pre = Some t -> keeps_characters E t) -> delimiter v ops c -> at_boundary a -> bmp a -> bmp c -> opened a la -> opened b lb ->
  opened (a ++ c ++ b) (la ++ (length a, c) :: moved (length a + length c) lb).
Proof.
  intros HK HC Ha Ba Bc (ta & sa & F1 & D1 & L1) (tb & sb & F2 & D2 & L2). destruct (glued v ops c a b ta sa tb sb HC Ha Ba Bc F1 D1 F2 D2) as [G1 G2]. eexists _, _. split; [exact G1|]. split; [exact G2|].
  apply laid_glue; [exact HL | exact L1|]. rewrite (divided_sum _ _ _ _ D1). cbn [Nat.add]. constructor. pose proof (laid_shift E v ops norm pre (length a + length c) HK _ _ _ L2) as K. rewrite Nat.add_0_r in K. exact K.
Qed.
Lemma opened_alone c : delimiter v ops c -> opened c [(0, c)].
Proof.
  intros (C1 & C2 & C3 & C4). exists [(0, c)], [((0, c), true)]. split; [|split; [|repeat constructor]].
  - pose proof (fd_token (takes_part v ops false) no_words 0 c [] [] C1 C2 C3 C4 (fd_end _ _ _)) as K. rewrite app_nil_r in K. exact K.
  - pose proof (dv_match 0 c [] [] [] (dv_end _)) as K. rewrite app_nil_r in K. exact K.
Qed.
End Rows.

Lemma works_inside E norm whole s : inside whole s -> works_in_place E norm whole -> works_in_place E norm s.
Proof. intros (a & b & ->) H a' x b' -> Hx. apply (H (a ++ a') x (b' ++ b)); [rewrite <- !app_assoc; reflexivity | exact Hx]. Qed.
Lemma inside_plane whole s : inside whole s -> bmp whole -> forallb valid_cp whole = true -> bmp s /\ forallb valid_cp s = true.
Proof. intros (a & b & ->) H1 H2. apply Forall_app in H1 as [_ H1]. apply Forall_app in H1 as [H1 _]. rewrite !forallb_app in H2. apply andb_prop in H2 as [_ H2]. apply andb_prop in H2 as [H2 _]. auto. Qed.

Section Glue.
Variables (E : env) (v : smap Z) (ops : list added_token) (u : tokenizer) (R : wstr -> list token -> Prop) (a c b : wstr).
Let norm := tz_norm u. Let pre := tz_pre u. Let s := a ++ c ++ b.
Hypothesis (HR : forall x ts, R x ts -> x <> [] -> ts <> []) (HC : delimiter v ops c) (Ha : at_boundary a) (Hb : bmp s) (Hv : forallb valid_cp s = true) (Hw : works_in_place E norm s).
Hypothesis (HL : forall x n, in_place_to E norm x n -> length n = length x) (Hpre : forall t, pre = Some t -> cuttable E t /\ keeps_characters E t).
Hypothesis HT : forall x, x <> [] -> inside s x -> exists l, laid_words E v ops norm pre x l /\
  forall rs, (exists core, text_encoding E u x = Ok core /\ rows core = rs) <-> Forall (fun p => fst p < length x) l /\ BpeRefSpec.rows_of_words R 0 l rs.
Lemma inside_rows x : inside s x -> exists l, opened E v ops norm pre x l /\ Forall (fun p : nat * wstr => snd p <> []) l /\ forall rs, text_rows E u x rs <-> BpeRefSpec.rows_of_words R 0 l rs.
Proof.
  intros Hi. destruct (list_eq_dec N.eq_dec x []) as [->|Hx].
  - exists []. split; [apply opened_nothing|]. split; [constructor|]. intros rs. rewrite text_rows_none. split; [intros ->; constructor | intros H; inversion H; reflexivity].
  - destruct (HT x Hx Hi) as (l & L1 & L2). destruct (inside_plane s x Hi Hb Hv) as [Bx Vx]. pose proof (C139_inside E v ops norm pre x l Hpre Hx Bx Vx (works_inside E norm s x Hi Hw) L1) as HF. rewrite Forall_forall in HF.
    exists l. split; [apply laid_opened; assumption|]. split; [apply Forall_forall; intros p Hp; apply (HF p Hp)|]. intros rs. rewrite text_rows_some by exact Hx. rewrite L2. split; [intros [_ K]; exact K | intros K; split; [|exact K]]. apply Forall_forall. intros p Hp. apply (HF p Hp).
Qed.
Lemma opened_one x l l' : x <> [] -> opened E v ops norm pre x l -> opened E v ops norm pre x l' -> l = l'.
Proof. intros Hx H H'. eapply C139_determined; apply laid_opened; eassumption. Qed.
Lemma rows_glue rs : text_rows E u s rs <-> exists ra rc rb, text_rows E u a ra /\ text_rows E u c rc /\ text_rows E u b rb /\
  rs = ra ++ later (words_in ra) (length a) rc ++ later (words_in (ra ++ later (words_in ra) (length a) rc)) (length (a ++ c)) rb.
Proof.
  assert (Cn : c <> []) by apply HC. assert (Sn : s <> []) by (unfold s; intros K; apply app_eq_nil in K as [_ K]; apply app_eq_nil in K as [K _]; exact (Cn K)).
  destruct (inside_rows a) as (la & A1 & A2 & A3); [exists [], (c ++ b); reflexivity|]. destruct (inside_rows c) as (lc & C1 & C2 & C3); [exists a, b; reflexivity|].
  destruct (inside_rows b) as (lb & B1 & B2 & B3); [exists (a ++ c), []; unfold s; rewrite app_nil_r, <- app_assoc; reflexivity|]. destruct (inside_rows s) as (l & S1 & S2 & S3); [exists [], []; rewrite app_nil_r; reflexivity|].
  assert (Bs : bmp a /\ bmp c) by (unfold s in Hb; apply Forall_app in Hb as [K1 K2]; apply Forall_app in K2 as [K2 _]; auto). destruct Bs as [Ba Bc].
  pose proof (opened_one c _ _ Cn C1 (opened_alone E v ops norm pre c HC)) as Ec. subst lc. pose proof (opened_one s _ _ Sn S1 (opened_glue E v ops norm pre HL a c b la lb (fun t K => proj2 (Hpre t K)) HC Ha Ba Bc A1 B1)) as El. clear S1 S2. subst l. rewrite S3. clear S3.
  assert (W : forall ra rc, BpeRefSpec.rows_of_words R 0 la ra -> BpeRefSpec.rows_of_words R 0 [(0, c)] rc -> words_in ra = length la /\ words_in (ra ++ later (words_in ra) (length a) rc) = S (length la)).
  { intros ra rc Ra Rc. pose proof (words_counted R HR la 0 ra A2 Ra) as Wa. assert (Wa' : words_in ra = length la) by (rewrite Wa; destruct la; reflexivity). split; [exact Wa'|]. rewrite Wa'.
    inversion Rc as [|? ? ? ? tc r0 Htc Rn]; subst. inversion Rn; subst. rewrite app_nil_r, later_word, words_in_app, Wa', words_in_word by (apply (HR c tc Htc Cn)). lia. }
  split.
  - intros H. apply rows_app in H as (ra & r' & -> & Ra & H). inversion H as [|? ? ? ? tc r0 Htc Rb]; subst. cbn [Nat.add] in *. replace (S (length la)) with (S (length la) + 0) in Rb by lia. apply rows_later in Rb as (rb & -> & Rb).
    assert (Rc : BpeRefSpec.rows_of_words R 0 [(0, c)] (word_rows 0 0 tc ++ [])) by (constructor; [exact Htc | constructor]). rewrite app_nil_r in Rc. destruct (W _ _ Ra Rc) as [W1 W2].
    exists ra, (word_rows 0 0 tc), rb. split; [apply A3; exact Ra|]. split; [apply C3; exact Rc|]. split; [apply B3; exact Rb|]. rewrite W2, W1, later_word, !Nat.add_0_r, app_length. reflexivity.
  - intros (ra & rc & rb & Ra & Rc & Rb & ->). apply A3 in Ra. apply C3 in Rc. apply B3 in Rb. destruct (W _ _ Ra Rc) as [W1 W2]. rewrite W2, W1. apply rows_app. exists ra. eexists. split; [reflexivity|]. split; [exact Ra|]. cbn [Nat.add].
    inversion Rc as [|? ? ? ? tc r0 Htc Rn]; subst. inversion Rn; subst. rewrite app_nil_r, later_word, !Nat.add_0_r. constructor; [exact Htc|]. replace (S (length la)) with (S (length la) + 0) at 1 by lia. apply rows_later. exists rb. rewrite app_length. auto.
Qed.
End Glue.

(** ** The models *)
Section Models.
Variables (E : env) (s : wstr) (v : smap Z) (ops : list added_token) (av : added_vocab) (t : tokenizer).
Hypothesis (Hav : tz_av t = Some av) (Hpre : forall p, tz_pre t = Some p -> cuttable E p) (Hne : s <> []) (Hs : Forall plane s) (Hd : dense v) (Hv : v <> []) (HH : history v ops av) (Hf : one_flag ops) (Hsim : Forall printable_token ops).
Hypothesis Hw : works_in_place E (tz_norm t) s.
Lemma wp_laid_rows w : tz_model t = Some (MWordPiece w) -> exists l, laid_words E v ops (tz_norm t) (tz_pre t) s l /\
  forall rs, (exists core, text_encoding E t s = Ok core /\ rows core = rs) <-> Forall (fun p => fst p < length s) l /\ BpeRefSpec.rows_of_words (word_tokens w) 0 l rs.
Proof.
  intros Hm. destruct (wp_laid E s v ops av t Hav Hpre Hne Hs Hd Hv HH Hf Hsim Hw w Hm) as (l & L1 & L2 & L3). exists l. split; [exact L1|]. intros rs.
  destruct (all_before_dec (fun p : nat * wstr => fst p) (length s) l) as [HB|HB].
  - destruct (L2 HB) as (core & K1 & K2). split; [intros (core' & K & <-); assert (core' = core) by congruence; subst core'; auto|]. intros [_ K]. exists core. split; [exact K1|]. exact (rows_functional_any _ (word_tokens_fun w) _ _ _ _ K2 K).
  - pose proof (L3 HB) as K1. split; [intros (core & K & _); congruence | intros [K _]; contradiction].
Qed.
Lemma bpe_laid_rows vocab merges d unk bpre suf fu bf ig b c : pq_ok E -> new_bpe vocab merges d unk bpre suf fu bf ig = Ok b -> reach_cache E b c -> tz_model t = Some (MBpe b c) ->
  exists l, laid_words E v ops (tz_norm t) (tz_pre t) s l /\
  forall rs, (exists core, text_encoding E t s = Ok core /\ rows core = rs) <-> Forall (fun p => fst p < length s) l /\ BpeRefSpec.rows_of_words (runs E b) 0 l rs.
Proof.
  intros Hq Hb Hr Hm. destruct (prepare_laid E (tz_norm t) (tz_pre t) s v ops av Hpre Hne Hs Hd Hv HH Hf Hsim Hw t Hav eq_refl eq_refl) as (l & z & junk & ss & W1 & W2 & W3 & W4 & W5 & W6).
  exists l. split; [exact W1|]. intros rs. destruct (splits_shape l ss W5) as (q & Q1 & <-).
  assert (Hmt : forall p, snd (model_tokenize E (MBpe b c) p) = snd (bpe_tokenize E b c p)) by (intros p; cbn [model_tokenize]; destruct (bpe_tokenize E b c p); reflexivity).
  assert (HT : text_encoding E t s = (l <- plain_words E b (map (fun p => mkSplit (utf8_encs (fst p)) (snd p) []) q) ;; into_rows (numbered_ns z junk s) 0 0 l)).
  { unfold text_encoding. rewrite W2. cbn [bind]. rewrite Hm, Hmt, (proj1 (bpe_tokenize_transparent E b c _ (reach_cache_ok E b c Hr))). cbn [pt_splits pt_norm]. rewrite plain_untokened, Q1. destruct (plain_words E b _); reflexivity. }
  destruct (words_cases E b vocab merges d unk bpre suf fu bf ig Hq Hb q) as [(Hl & out & O1 & O2)|(Hl & O1)]; rewrite O1 in HT; cbn [bind] in HT; rewrite HT.
  - destruct (all_before_dec (fun p : nat * wstr => fst p) (length z) (map (fun p : wstr * (nat * nat) => (fst (snd p), fst p)) q)) as [HB|HB].
    + destruct (bpe_into_rows E b (numbered_ns z junk s) q out 0 O2) as (e & E1 & E2).
      { apply Forall_forall. intros [x o] Hin tx ts. cbn [fst snd]. pose proof (bases_z z junk s q W4 x o ts Hin HB) as K. unfold split_base in *. exact K. }
      rewrite W3 in HB. rewrite E1. split; [intros (core & [= <-] & <-); split; [exact HB | exact E2] | intros [_ K]; exists e; split; [reflexivity | exact (rows_functional_any _ (runs_fun E b) _ _ _ _ E2 K)]].
    + split; [|intros [K _]; exfalso; apply HB; rewrite W3; exact K]. intros (core & K & _). exfalso. apply not_all_before in HB. rewrite (into_rows_past_z z junk s W4 out 0) in K; [discriminate|].
      clear - O2 HB. induction O2 as [|[x o] y q out [A1 A2] _ IH]; cbn [map] in HB; inversion HB as [? ? H|? ? H]; subst; [left; rewrite A1; exact H | right; apply IH; assumption].
  - split; [intros (core & K & _); discriminate|]. intros [_ K]. exfalso. apply Hl. clear - K Hq Hb. remember 0 as i eqn:Ei. clear Ei. revert i rs K. induction q as [|[x o] q IH]; intros i rs K; [constructor|]. cbn [map fst snd] in K. inversion K as [|? ? ? ? ts rs0 Ht K']; subst. constructor; [|exact (IH _ _ K')].
    cbn [fst]. unfold runs in Ht. destruct (word_cases E b vocab merges d unk bpre suf fu bf ig Hq Hb x) as [(He & _)|(_ & T1)]; [exact He | congruence].
Qed.
End Models.
Lemma inside_not_long (s x : wstr) : inside s x -> Forall plane s -> Forall plane x.
Proof. intros (a & b & ->) H. apply Forall_app in H as [_ H]. apply Forall_app in H as [H _]. exact H. Qed.
Lemma text_rows_finish E u t0 cf s rs add : s <> [] -> build cf = Ok t0 -> config_ok cf -> same_setup t0 u -> sane t0 -> (forall p, cf_post cf = Some p -> specials_ok p) -> text_rows E u s rs ->
  (Z.of_nat (length rs) < 2 ^ 31)%Z -> (forall k, k <= length rs -> (Z.of_nat (tz_post_length t0 add k) < 2 ^ 31)%Z) ->
  exists r, (forall fuel, length rs + 2 <= fuel -> snd (encode E fuel u s add) = Ok r) /\ parallel r /\ finished t0 add rs (rows r).
Proof.
  intros Hs Hb Hok S Hsane Hsp H. apply text_rows_some in H as (core & ET & <-); [|exact Hs]. destruct (text_encoding_parallel _ _ _ _ ET) as [Hfl _]. apply (bound_total E u t0 cf s add core Hb Hok S Hsane Hsp); [rewrite encode_bare; exact ET | exact Hfl].
Qed.

(** ** C140, rows *)
(** A tokenizer constructed from a configuration with special added tokens and a pre-tokenizer that keeps the characters, at any later time; a text that is put together of [a], a special token [c] at a boundary
    and [b], whose stretches are normalized in place and keep their length: its rows are those of [a], those of [c], with the words numbered on and the positions counted from the end of [a], and those of [b],
    counted from the end of [c]. Encode returns them truncated, given the special tokens and padded. *)
Theorem C140_wordpiece : forall load parse path cfg text cf t0 w toks E fuel0,
  source load path cfg (Some text) -> parse text = Some (render cf) -> config_ok cf -> build cf = Ok t0 ->
  cf_model cf = Some (CWordPiece w) -> dense (wp_vocab w) -> wp_vocab w <> [] -> (forall p, cf_pre cf = Some p -> cuttable E p /\ keeps_characters E p) ->
  cf_added cf = Some toks -> Forall (fun x => at_special x = true) toks -> sane t0 -> (forall p, cf_post cf = Some p -> specials_ok p) ->
  (forall x n, in_place_to E (cf_norm cf) x n -> length n = length x) ->
  exists t, construct load parse path cfg = Ok t /\
  forall h a c b, bmp (a ++ c ++ b) -> forallb valid_cp (a ++ c ++ b) = true -> Forall printable_token (toks ++ given h) -> one_flag (toks ++ given h) ->
  delimiter (wp_vocab w) (toks ++ given h) c -> at_boundary a -> works_in_place E (cf_norm cf) (a ++ c ++ b) ->
  let u := HistSpec.after E fuel0 t h in
  (exists ra rc rb, text_rows E u a ra /\ text_rows E u c rc /\ text_rows E u b rb) /\
  forall ra rc rb, text_rows E u a ra -> text_rows E u c rc -> text_rows E u b rb ->
  let before := ra ++ later (words_in ra) (length a) rc in let rs := before ++ later (words_in before) (length (a ++ c)) rb in
  text_rows E u (a ++ c ++ b) rs /\
  forall add, (Z.of_nat (length rs) < 2 ^ 31)%Z -> (forall k, k <= length rs -> (Z.of_nat (tz_post_length t0 add k) < 2 ^ 31)%Z) ->
  exists r, (forall fuel, length rs + 2 <= fuel -> snd (encode E fuel u (a ++ c ++ b) add) = Ok r) /\ parallel r /\ finished t0 add rs (rows r).
Proof.
  intros load parse path cfg text cf t0 w toks E fuel0 Hs Hp Hok Hb Hm Hd Hne Hpre Ha Hspec Hsane Hsp HL. destruct (wp_setup load parse path cfg text cf t0 w toks E fuel0 Hs Hp Hok Hb Hm Hd Hne Ha Hspec) as (t & T1 & T2).
  exists t. split; [exact T1|]. intros h a c b Hbm Hvs Hsim Hf HC Hab Hw u. destruct (T2 h) as (av & A1 & A2 & A3 & A4 & A5 & A6). fold u in A1, A3, A4, A5, A6. clearbody u. rewrite <- A3 in Hw, HL. rewrite <- A4 in Hpre.
  assert (HT : forall x, x <> [] -> inside (a ++ c ++ b) x -> exists l, laid_words E (wp_vocab w) (toks ++ given h) (tz_norm u) (tz_pre u) x l /\
    forall rs, (exists core, text_encoding E u x = Ok core /\ rows core = rs) <-> Forall (fun p => fst p < length x) l /\ BpeRefSpec.rows_of_words (word_tokens w) 0 l rs).
  { intros x Hx Hi. apply (wp_laid_rows E x (wp_vocab w) (toks ++ given h) av u A1 (fun p K => proj1 (Hpre p K)) Hx (inside_not_long _ _ Hi (plane_text _ Hbm Hvs)) Hd Hne A2 Hf Hsim (works_inside _ _ _ _ Hi Hw) w A5). }
  pose proof (rows_glue E (wp_vocab w) (toks ++ given h) u (word_tokens w) a c b (word_tokens_nonempty w) HC Hab Hbm Hvs Hw HL Hpre HT) as G.
  assert (Sn : a ++ c ++ b <> []) by (intros K; apply app_eq_nil in K as [_ K]; apply app_eq_nil in K as [K _]; exact (proj1 HC K)).
  split.
  - assert (K : exists rs, text_rows E u (a ++ c ++ b) rs).
    { destruct (wp_laid E (a ++ c ++ b) (wp_vocab w) (toks ++ given h) av u A1 (fun p K => proj1 (Hpre p K)) Sn (plane_text _ Hbm Hvs) Hd Hne A2 Hf Hsim Hw w A5) as (l & L1 & L2 & _).
      destruct L2 as (core & K1 & _); [|exists (rows core); apply text_rows_some; [exact Sn | eauto]]. eapply Forall_impl; [|exact (C139_inside E _ _ _ _ _ l Hpre Sn Hbm Hvs Hw L1)]. intros p [_ K]. exact K. }
    destruct K as (rs & K). apply G in K as (ra & rc & rb & K1 & K2 & K3 & _). exists ra, rc, rb. auto.
  - intros ra rc rb Ra Rc Rb before rs. assert (K : text_rows E u (a ++ c ++ b) rs) by (apply G; exists ra, rc, rb; split; [exact Ra|]; split; [exact Rc|]; split; [exact Rb|]; unfold rs, before; rewrite <- app_assoc; reflexivity).
    split; [exact K|]. intros add B1 B2. exact (text_rows_finish E u t0 cf _ rs add Sn Hb Hok A6 Hsane Hsp K B1 B2).
Qed.
Print Assumptions C140_wordpiece.
Theorem C140_bpe : forall load parse path cfg text cf t0 vocab merges d unk pre suf fu bf ig bp toks E fuel0,
  source load path cfg (Some text) -> parse text = Some (render cf) -> config_ok cf -> build cf = Ok t0 -> pq_ok E ->
  cf_model cf = Some (CBpe vocab merges d unk pre suf fu bf ig) -> new_bpe vocab merges d unk pre suf fu bf ig = Ok bp -> dense vocab -> vocab <> [] -> (forall p, cf_pre cf = Some p -> cuttable E p /\ keeps_characters E p) ->
  cf_added cf = Some toks -> Forall (fun x => at_special x = true) toks -> sane t0 -> (forall p, cf_post cf = Some p -> specials_ok p) ->
  (forall x n, in_place_to E (cf_norm cf) x n -> length n = length x) ->
  exists t, construct load parse path cfg = Ok t /\
  forall h a c b, bmp (a ++ c ++ b) -> forallb valid_cp (a ++ c ++ b) = true -> Forall printable_token (toks ++ given h) -> one_flag (toks ++ given h) ->
  delimiter vocab (toks ++ given h) c -> at_boundary a -> works_in_place E (cf_norm cf) (a ++ c ++ b) ->
  let u := HistSpec.after E fuel0 t h in
  ((exists rs, text_rows E u (a ++ c ++ b) rs) -> exists ra rc rb, text_rows E u a ra /\ text_rows E u c rc /\ text_rows E u b rb) /\
  forall ra rc rb, text_rows E u a ra -> text_rows E u c rc -> text_rows E u b rb ->
  let before := ra ++ later (words_in ra) (length a) rc in let rs := before ++ later (words_in before) (length (a ++ c)) rb in
  text_rows E u (a ++ c ++ b) rs /\
  forall add, (Z.of_nat (length rs) < 2 ^ 31)%Z -> (forall k, k <= length rs -> (Z.of_nat (tz_post_length t0 add k) < 2 ^ 31)%Z) ->
  exists r, (forall fuel, length rs + 2 <= fuel -> snd (encode E fuel u (a ++ c ++ b) add) = Ok r) /\ parallel r /\ finished t0 add rs (rows r).
Proof.
  intros load parse path cfg text cf t0 vocab merges d unk pre suf fu bf ig bp toks E fuel0 Hs Hp Hok Hb Hq Hm Hbp Hd Hne Hpre Ha Hspec Hsane Hsp HL. destruct (bpe_setup load parse path cfg text cf t0 vocab merges d unk pre suf fu bf ig bp toks E fuel0 Hs Hp Hok Hb Hm Hbp Hd Hne Ha Hspec) as (t & T1 & T2).
  exists t. split; [exact T1|]. intros h a c b Hbm Hvs Hsim Hf HC Hab Hw u. destruct (T2 h) as (av & c' & A1 & A2 & A3 & A4 & A5 & A7 & A6). fold u in A1, A3, A4, A5, A6. clearbody u. rewrite <- A3 in Hw, HL. rewrite <- A4 in Hpre.
  assert (HT : forall x, x <> [] -> inside (a ++ c ++ b) x -> exists l, laid_words E vocab (toks ++ given h) (tz_norm u) (tz_pre u) x l /\
    forall rs, (exists core, text_encoding E u x = Ok core /\ rows core = rs) <-> Forall (fun p => fst p < length x) l /\ BpeRefSpec.rows_of_words (runs E bp) 0 l rs).
  { intros x Hx Hi. apply (bpe_laid_rows E x vocab (toks ++ given h) av u A1 (fun p K => proj1 (Hpre p K)) Hx (inside_not_long _ _ Hi (plane_text _ Hbm Hvs)) Hd Hne A2 Hf Hsim (works_inside _ _ _ _ Hi Hw) vocab merges d unk pre suf fu bf ig bp c' Hq Hbp A7 A5). }
  pose proof (rows_glue E vocab (toks ++ given h) u (runs E bp) a c b (runs_nonempty E bp vocab merges d unk pre suf fu bf ig Hq Hbp) HC Hab Hbm Hvs Hw HL Hpre HT) as G.
  assert (Sn : a ++ c ++ b <> []) by (intros K; apply app_eq_nil in K as [_ K]; apply app_eq_nil in K as [K _]; exact (proj1 HC K)).
  split.
  - intros (rs & K). apply G in K as (ra & rc & rb & K1 & K2 & K3 & _). exists ra, rc, rb. auto.
  - intros ra rc rb Ra Rc Rb before rs. assert (K : text_rows E u (a ++ c ++ b) rs) by (apply G; exists ra, rc, rb; split; [exact Ra|]; split; [exact Rc|]; split; [exact Rb|]; unfold rs, before; rewrite <- app_assoc; reflexivity).
    split; [exact K|]. intros add B1 B2. exact (text_rows_finish E u t0 cf _ rs add Sn Hb Hok A6 Hsane Hsp K B1 B2).
Qed.
Print Assumptions C140_bpe.

(** *** Cases *)
Lemma bert_length E cl ch st lo x n : in_place_to E (Some (NBert cl ch st lo)) x n -> length n = length x.
Proof. cbn [in_place_to in_place]. intros (_ & _ & _ & ->). destruct lo, cl; rewrite ?map_length; reflexivity. Qed.
Lemma mask_delimiter : delimiter base_vocab (base_tokens ++ given base_history) (str "[MASK]").
Proof.
  split; [discriminate|]. split; [cbn; intuition discriminate|]. split; [apply mask_takes; cbn; auto 10|]. intros k Hk K. apply mask_takes in K. do 6 (destruct k as [|k]; [first [lia | vm_compute in K; intuition discriminate]|]). cbn in Hk. lia.
Qed.
(** The small bert-base-uncased of C112 after its history: the Cyrillic letter Zhe and a space, "[MASK]", "Chess!". *)
Example C140_case : let a := [0x416; 32]%N in let c := str "[MASK]" in let b := str "Chess!" in
  Forall printable_token (base_tokens ++ given base_history) /\ one_flag (base_tokens ++ given base_history) /\ bmp (a ++ c ++ b) /\ forallb valid_cp (a ++ c ++ b) = true /\
  works_in_place test_env (cf_norm base_config) (a ++ c ++ b) /\ (forall p, cf_pre base_config = Some p -> cuttable test_env p /\ keeps_characters test_env p) /\
  (forall x n, in_place_to test_env (cf_norm base_config) x n -> length n = length x) /\ delimiter base_vocab (base_tokens ++ given base_history) c /\ at_boundary a /\
  exists t, construct (fun _ => None) (fun _ => Some (render base_config)) [] (str "{}") = Ok t /\
  let u := HistSpec.after test_env 10 t base_history in
  text_rows test_env u a [mkRow 1 0 (str "[UNK]") (Some 0) (0, 1) 0 1] /\ text_rows test_env u c [mkRow 4 0 (str "[MASK]") (Some 0) (0, 6) 0 1] /\
  text_rows test_env u b [mkRow 7 0 (str "chess") (Some 0) (0, 5) 0 1; mkRow 8 0 (str "!") (Some 1) (5, 6) 0 1] /\
  text_rows test_env u (a ++ c ++ b) [mkRow 1 0 (str "[UNK]") (Some 0) (0, 1) 0 1; mkRow 4 0 (str "[MASK]") (Some 1) (2, 8) 0 1; mkRow 7 0 (str "chess") (Some 2) (8, 13) 0 1; mkRow 8 0 (str "!") (Some 3) (13, 14) 0 1].
Proof.
  destruct C139_case as (H1 & H2 & H3 & H4 & H5 & H6 & _). intros a c b. split; [exact H1|]. split; [exact H2|]. split; [exact H3|]. split; [exact H4|]. split; [exact H5|]. split; [exact H6|]. split; [intros x n; apply bert_length|].
  split; [exact mask_delimiter|]. split; [right; exists [0x416]%N; reflexivity|]. eexists. split; [vm_compute; reflexivity|]. intros u.
  split; [|split; [|split]]; (right; split; [discriminate|]; eexists; split; [intros fuel add; rewrite encode_bare; vm_compute; reflexivity | vm_compute; reflexivity]).
Qed.
(** With e-acute, which is not normalized in place, the claim about the tokens applies. *)
Example C140_tokens_case : let a := [0xE9; 32]%N in let c := str "[MASK]" in let b := str "Chess!" in
  bmp (a ++ c ++ b) /\ (forall a' x b' n, a ++ c ++ b = a' ++ x ++ b' -> normalized_to test_env (cf_norm base_config) x n -> bmp n) /\
  ~ normalized_to test_env (cf_norm base_config) a [] /\ ~ normalized_to test_env (cf_norm base_config) b [] /\
  exists t, construct (fun _ => None) (fun _ => Some (render base_config)) [] (str "{}") = Ok t /\
  let u := HistSpec.after test_env 10 t base_history in
  exists ra rc rb rs, text_rows test_env u a ra /\ text_rows test_env u c rc /\ text_rows test_env u b rb /\ text_rows test_env u (a ++ c ++ b) rs /\ map r_token rs = map str ["[UNK]"; "[MASK]"; "chess"; "!"].
Proof.
  destruct C137_case as (_ & _ & H3 & H4 & _). intros a c b. split; [exact H3|]. split; [exact H4|].
  assert (N : forall x y, run_norm test_env (cf_norm base_config) x = Ok y -> ns_text y <> [] -> ~ normalized_to test_env (cf_norm base_config) x []) by (intros x y H Hy (z & H' & Hz); congruence).
  split; [eapply N; [vm_compute; reflexivity | discriminate]|]. split; [eapply N; [vm_compute; reflexivity | discriminate]|]. eexists. split; [vm_compute; reflexivity|]. intros u. eexists _, _, _, _.
  split; [|split; [|split; [|split]]]; [right; split; [discriminate|]; eexists; split; [intros fuel add; rewrite encode_bare; vm_compute; reflexivity | vm_compute; reflexivity]..|]. reflexivity.
Qed.
(** Without the boundary the token is not recognised. *)
Example C140_no_boundary : exists t, construct (fun _ => None) (fun _ => Some (render base_config)) [] (str "{}") = Ok t /\
  let u := HistSpec.after test_env 10 t base_history in exists rs, text_rows test_env u (str "x[MASK]") rs /\ ~ In (str "[MASK]") (map r_token rs).
Proof.
  eexists. split; [vm_compute; reflexivity|]. intros u. eexists. split; [right; split; [discriminate|]; eexists; split; [intros fuel add; rewrite encode_bare; vm_compute; reflexivity | vm_compute; reflexivity]|]. cbn. intuition discriminate.
Qed.
