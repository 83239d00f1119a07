(** C140: the tokens, words and positions of a text with a special token in it. Specification: BoundSpec.v. *)
From Verif Require Import Base BaseFacts Unicode UnicodeProofs Common Utils PostProcessor Decoder Normalizer PreTokenizer WordPiece Bpe AddedVocab Tokenizer Config ConfigSpec
  Spec PostSpec DecSpec NormSpec NormProofs PreSpec PreProofs AvSpec AvProofs ExtractProofs TzSpec TzProofs WpSpec WpProofs OffSpec OffProofs RefSpec RefProofs MixSpec MixProofs HistSpec HistProofs LenSpec FullSpec BpeSpec BpeProofs BpeWord UnkSpec ByteSpec
  PropsReference PropsConfig PropsAdded PropsLifetime PropsText PropsMixed OutSpec PropsFinish PropsFull PropsNorm PropsPre PropsOffsets PropsEncode PropsBpe PropsByteBpe BpeRefSpec PropsBpeText CutSpec PropsCut PropsBertConfig PartsSpec PropsParts PropsTotal TextsSpec PropsTexts LaidSpec PropsLaid PropsLaidAt BoundSpec PropsBound Env.
From Coq Require Import ZifyBool ZifyNat ZifyN.
Import ListNotations.

(** ** Rows of words *)
Definition mark (r : row) : Z * bytes := (r_id r, r_token r).
Lemma rows_app (R : wstr -> list token -> Prop) : forall l1 l2 i rs, BpeRefSpec.rows_of_words R i (l1 ++ l2) rs <-> exists rs1 rs2, rs = rs1 ++ rs2 /\ BpeRefSpec.rows_of_words R i l1 rs1 /\ BpeRefSpec.rows_of_words R (i + length l1) l2 rs2.
Proof.
  induction l1 as [|[p x] l1 IH]; intros l2 i rs; cbn [app length].
  - rewrite Nat.add_0_r. split; [intros H; exists [], rs; split; [reflexivity|]; split; [constructor | exact H] | intros (rs1 & rs2 & -> & H1 & H2); inversion H1; subst; exact H2].
  - rewrite Nat.add_succ_r. change (S (i + length l1)) with (S i + length l1). split.
    + intros H. inversion H as [|? ? ? ? ts rs' Ht H']; subst. apply IH in H' as (rs1 & rs2 & -> & H1 & H2). exists (word_rows i p ts ++ rs1), rs2. split; [apply app_assoc|]. split; [constructor; assumption | exact H2].
    + intros (rs1 & rs2 & -> & H1 & H2). inversion H1 as [|? ? ? ? ts rs' Ht H']; subst. rewrite <- app_assoc. constructor; [exact Ht|]. apply IH. exists rs', rs2. auto.
Qed.
Lemma later_app k d a b : later k d (a ++ b) = later k d a ++ later k d b.
Proof. apply map_app. Qed.
Lemma later_word k d i p ts : later k d (word_rows i p ts) = word_rows (k + i) (d + p) ts.
Proof. unfold later, word_rows. rewrite map_map. apply map_ext. intros t. cbn [r_id r_type r_token r_word r_off r_smask r_amask fst snd option_map]. rewrite !Nat.add_assoc. reflexivity. Qed.
Lemma rows_later (R : wstr -> list token -> Prop) k d : forall l i rs, BpeRefSpec.rows_of_words R (k + i) (moved d l) rs <-> exists rs0, rs = later k d rs0 /\ BpeRefSpec.rows_of_words R i l rs0.
Proof.
  induction l as [|[p x] l IH]; intros i rs.
  - cbn [moved map]. split; [intros H; inversion H; subst; exists []; split; [reflexivity | constructor] | intros (rs0 & -> & H); inversion H; subst; constructor].
  - change (moved d ((p, x) :: l)) with ((d + p, x) :: moved d l). split.
    + intros H. inversion H as [|? ? ? ? ts rs' Ht H']; subst. rewrite <- Nat.add_succ_r in H'. apply IH in H' as (rs0 & -> & H0). exists (word_rows i p ts ++ rs0). split; [rewrite later_app, later_word; reflexivity | constructor; assumption].
    + intros (rs0 & -> & H). inversion H as [|? ? ? ? ts rs' Ht H']; subst. rewrite later_app, later_word. constructor; [exact Ht|]. rewrite <- Nat.add_succ_r. apply IH. exists rs'. auto.
Qed.
Lemma words_in_app a b : words_in (a ++ b) = Nat.max (words_in a) (words_in b).
Proof. unfold words_in. rewrite map_app. apply list_max_app. Qed.
Lemma words_in_word i p ts : ts <> [] -> words_in (word_rows i p ts) = S i.
Proof.
  unfold words_in, word_rows. rewrite map_map. cbn [r_word]. destruct ts as [|t ts]; [congruence|]. intros _. cbn [map]. change (list_max (S i :: map (fun _ : token => S i) ts)) with (Nat.max (S i) (list_max (map (fun _ : token => S i) ts))).
  assert (H : list_max (map (fun _ : token => S i) ts) <= S i) by (apply list_max_le; apply Forall_map, Forall_forall; intros; lia). lia.
Qed.
Lemma words_counted (R : wstr -> list token -> Prop) : (forall x ts, R x ts -> x <> [] -> ts <> []) -> forall l i rs, Forall (fun p : nat * wstr => snd p <> []) l -> BpeRefSpec.rows_of_words R i l rs -> words_in rs = match l with [] => 0 | _ => i + length l end.
Proof.
  intros HR l i rs HF H. revert HF. induction H as [i|i pos x l ts rs Ht H IH]; intros HF; [reflexivity|]. rewrite words_in_app, words_in_word by (apply (HR x ts Ht); exact (Forall_inv HF)). rewrite (IH (Forall_inv_tail HF)). destruct l; cbn [length]; lia.
Qed.
Lemma marks_of (R : wstr -> list token -> Prop) : (forall x a b, R x a -> R x b -> a = b) -> forall l i rs l' i' rs', BpeRefSpec.rows_of_words R i l rs -> BpeRefSpec.rows_of_words R i' l' rs' -> map snd l' = map snd l -> map mark rs' = map mark rs.
Proof.
  intros HR l i rs l' i' rs' H. revert l' i' rs'. induction H as [i|i pos x l ts rs Ht H IH]; intros l' i' rs' H' E; inversion H' as [|? ? ? ? ts' rs0 Ht' H0]; subst; cbn [map snd] in E; try discriminate; [reflexivity|]. injection E as -> E.
  rewrite (HR _ _ _ Ht' Ht), !map_app, (IH _ _ _ H0 E). f_equal. unfold word_rows. rewrite !map_map. reflexivity.
Qed.
Lemma rows_functional_any (R : wstr -> list token -> Prop) : (forall x a b, R x a -> R x b -> a = b) -> forall l i rs rs', BpeRefSpec.rows_of_words R i l rs -> BpeRefSpec.rows_of_words R i l rs' -> rs = rs'.
Proof. intros HR l i rs rs' H. revert rs'. induction H as [i|i pos x l ts rs Ht H IH]; intros rs' H'; inversion H' as [|? ? ? ? ts' rs0 Ht' H0]; subst; [reflexivity|]. rewrite (HR _ _ _ Ht' Ht), (IH _ H0). reflexivity. Qed.

Lemma text_rows_some E t s rs : s <> [] -> text_rows E t s rs <-> exists core, text_encoding E t s = Ok core /\ rows core = rs.
Proof.
  intros Hs. split.
  - intros [[H _]|(_ & r & H & Hr)]; [contradiction|]. specialize (H 0 false). rewrite encode_bare in H. eauto.
  - intros (core & H & Hr). right. split; [exact Hs|]. exists core. split; [intros fuel add; rewrite encode_bare; exact H | exact Hr].
Qed.
Lemma text_rows_none E t rs : text_rows E t [] rs <-> rs = [].
Proof. split; [intros [[_ H]|[H _]]; [exact H | congruence] | intros ->; left; auto]. Qed.
Lemma text_rows_one E t s rs rs' : text_rows E t s rs -> text_rows E t s rs' -> rs = rs'.
Proof.
  intros H H'. destruct s as [|x s]; [apply text_rows_none in H, H'; congruence|]. apply text_rows_some in H as (c & H1 & H2); [|discriminate]. apply text_rows_some in H' as (c' & H1' & H2'); [|discriminate]. congruence.
Qed.

(** ** The tokens, whatever the normalizer *)
Definition inside (whole s : wstr) : Prop := exists a b, whole = a ++ s ++ b.
Lemma all_words_nothing E v ops norm pre : all_words E v ops norm pre [] [].
Proof. exists []. split; [|reflexivity]. exists [], [], []. split; [constructor|]. split; [constructor|]. split; [constructor | reflexivity]. Qed.
Lemma delimiter_alone E v ops norm pre c : delimiter v ops c -> all_words E v ops norm pre c [c].
Proof.
  intros (C1 & C2 & C3 & C4). exists [(0, c)]. split; [|reflexivity]. exists [(0, c)], [((0, c), true)], [[(0, c)]]. split; [|split; [|split; [repeat constructor | reflexivity]]].
  - pose proof (fd_token (takes_part v ops false) no_words 0 c [] [] C1 C2 C3 C4 (fd_end _ _ _)) as K. rewrite app_nil_r in K. exact K.
  - pose proof (dv_match 0 c [] [] [] (dv_end _)) as K. rewrite app_nil_r in K. exact K.
Qed.
Section Tokens.
Variables (E : env) (v : smap Z) (ops : list added_token) (u : tokenizer) (R : wstr -> list token -> Prop) (a c b : wstr).
Hypothesis (HR : forall x a b, R x a -> R x b -> a = b) (HC : delimiter v ops c) (Ha : at_boundary a) (Hb : bmp (a ++ c ++ b)).
Hypothesis (Na : a <> [] -> ~ normalized_to E (tz_norm u) a []) (Nb : b <> [] -> ~ normalized_to E (tz_norm u) b []).
Hypothesis HT : forall s core, s <> [] -> inside (a ++ c ++ b) s -> text_encoding E u s = Ok core -> exists ws l, all_words E v ops (tz_norm u) (tz_pre u) s ws /\ map snd l = ws /\ BpeRefSpec.rows_of_words R 0 l (rows core).
Lemma rows_words s rs : inside (a ++ c ++ b) s -> text_rows E u s rs -> exists l, all_words E v ops (tz_norm u) (tz_pre u) s (map snd l) /\ BpeRefSpec.rows_of_words R 0 l rs.
Proof.
  intros Hi H. destruct s as [|x s]; [apply text_rows_none in H as ->; exists []; split; [apply all_words_nothing | constructor]|]. apply text_rows_some in H as (core & H1 & <-); [|discriminate].
  destruct (HT (x :: s) core ltac:(discriminate) Hi H1) as (ws & l & W1 & <- & W3). exists l. auto.
Qed.
Lemma tokens_glue ra rc rb rs : text_rows E u a ra -> text_rows E u c rc -> text_rows E u b rb -> text_rows E u (a ++ c ++ b) rs -> map mark rs = map mark (ra ++ rc ++ rb).
Proof.
  intros Hra Hrc Hrb Hrs. assert (Bs : bmp a /\ bmp c) by (apply Forall_app in Hb as [B1 B2]; apply Forall_app in B2 as [B2 _]; auto). destruct Bs as [Ba Bc].
  destruct (rows_words a ra) as (la & A1 & A2); [exists [], (c ++ b); reflexivity | exact Hra|]. destruct (rows_words c rc) as (lc & C1 & C2); [exists a, b; reflexivity | exact Hrc|].
  destruct (rows_words b rb) as (lb & B1 & B2); [exists (a ++ c), []; rewrite app_nil_r, <- app_assoc; reflexivity | exact Hrb|]. destruct (rows_words (a ++ c ++ b) rs) as (l & W1 & W2); [exists [], []; rewrite app_nil_r; reflexivity | exact Hrs|].
  pose proof (C137_determined _ _ _ _ _ _ _ _ W1 (C140_words E v ops _ _ a c b _ _ HC Ha Ba Bc Na Nb A1 B1)) as EW. pose proof (C137_determined _ _ _ _ _ _ _ _ C1 (delimiter_alone E v ops (tz_norm u) (tz_pre u) c HC)) as EC.
  rewrite <- EC in EW. apply map_eq_app in EW as (l1 & l' & -> & M1 & EW). apply map_eq_app in EW as (l2 & l3 & -> & M2 & M3).
  apply rows_app in W2 as (r1 & r' & -> & W1' & W2). apply rows_app in W2 as (r2 & r3 & -> & W2 & W3). rewrite !map_app. f_equal; [|f_equal]; eapply marks_of; eauto.
Qed.
End Tokens.

(** ** What a constructed tokenizer is at any later time *)
Lemma wp_setup load parse path cfg text c t0 w toks E fuel0 : source load path cfg (Some text) -> parse text = Some (render c) -> config_ok c -> build c = Ok t0 ->
  cf_model c = Some (CWordPiece w) -> dense (wp_vocab w) -> wp_vocab w <> [] -> cf_added c = Some toks -> Forall (fun x => at_special x = true) toks ->
  exists t, construct load parse path cfg = Ok t /\ forall h, let u := HistSpec.after E fuel0 t h in
    exists av, tz_av u = Some av /\ history (wp_vocab w) (toks ++ given h) av /\ tz_norm u = cf_norm c /\ tz_pre u = cf_pre c /\ tz_model u = Some (MWordPiece w) /\ same_setup t0 u.
Proof.
  intros Hs Hp Hok Hb Hm Hd Hne Ha Hspec.
  assert (Ht0 : t0 = mkTz (cf_trunc c) (cf_pad c) (Some (new_added_vocab toks)) (cf_norm c) (cf_pre c) (Some (MWordPiece w)) (cf_dec c) (cf_post c)).
  { unfold build in Hb. rewrite Hm, Ha in Hb. cbn [build_model bind option_map] in Hb. injection Hb as <-. reflexivity. }
  assert (Ha0 : tz_av t0 = Some (new_added_vocab toks)) by (rewrite Ht0; reflexivity). assert (Hm0 : tz_model t0 = Some (MWordPiece w)) by (rewrite Ht0; reflexivity).
  destruct (proj1 (C45_construction t0 toks (MWordPiece w) Ha0 Hm0 Hd Hne)) as (t & Hc).
  { apply Forall_forall. intros x Hx. right. exists x. split; [exact Hx|]. split; [exact (proj1 (Forall_forall _ _) Hspec x Hx) | reflexivity]. }
  exists t. split; [rewrite (C79_construct load parse path cfg text c t0 Hs Hp Hok Hb); exact Hc|]. intros h u.
  destruct (C38_lifetime E fuel0 t0 (MWordPiece w) toks t Hd Hne Ha0 Hm0 ltac:(discriminate) Hc h) as ((av & A1 & A2) & (m & M1 & M2) & S). cbn [same_model model_vocab] in *.
  destruct m as [w'|b' c']; [|contradiction]. subst w'. exists av. split; [exact A1|]. split; [exact A2|].
  split; [destruct S as (_ & _ & S3 & _); unfold u; rewrite S3, Ht0; reflexivity|]. split; [destruct S as (_ & _ & _ & S4 & _); unfold u; rewrite S4, Ht0; reflexivity|]. split; [exact M1 | exact S].
Qed.
Lemma bpe_setup load parse path cfg text c t0 vocab merges d unk pre suf fu bf ig b toks E fuel0 : source load path cfg (Some text) -> parse text = Some (render c) -> config_ok c -> build c = Ok t0 ->
  cf_model c = Some (CBpe vocab merges d unk pre suf fu bf ig) -> new_bpe vocab merges d unk pre suf fu bf ig = Ok b -> dense vocab -> vocab <> [] -> cf_added c = Some toks -> Forall (fun x => at_special x = true) toks ->
  exists t, construct load parse path cfg = Ok t /\ forall h, let u := HistSpec.after E fuel0 t h in
    exists av c', tz_av u = Some av /\ history vocab (toks ++ given h) av /\ tz_norm u = cf_norm c /\ tz_pre u = cf_pre c /\ tz_model u = Some (MBpe b c') /\ reach_cache E b c' /\ same_setup t0 u.
Proof.
  intros Hs Hp Hok Hb Hm Hbp Hd Hne Ha Hspec.
  assert (Ht0 : t0 = mkTz (cf_trunc c) (cf_pad c) (Some (new_added_vocab toks)) (cf_norm c) (cf_pre c) (Some (MBpe b [])) (cf_dec c) (cf_post c)).
  { unfold build in Hb. rewrite Hm, Ha in Hb. cbn [build_model bind option_map] in Hb. rewrite Hbp in Hb. cbn [bind] in Hb. injection Hb as <-. reflexivity. }
  assert (Hvo : model_vocab (MBpe b []) = vocab) by (apply new_bpe_vocab in Hbp as (_ & Ev & _); exact Ev).
  assert (Ha0 : tz_av t0 = Some (new_added_vocab toks)) by (rewrite Ht0; reflexivity). assert (Hm0 : tz_model t0 = Some (MBpe b [])) by (rewrite Ht0; reflexivity). rewrite <- Hvo in Hd, Hne.
  destruct (proj1 (C45_construction t0 toks (MBpe b []) Ha0 Hm0 Hd Hne)) as (t & Hc).
  { apply Forall_forall. intros x Hx. right. exists x. split; [exact Hx|]. split; [exact (proj1 (Forall_forall _ _) Hspec x Hx) | reflexivity]. }
  exists t. split; [rewrite (C79_construct load parse path cfg text c t0 Hs Hp Hok Hb); exact Hc|]. intros h u.
  destruct (C38_lifetime E fuel0 t0 (MBpe b []) toks t Hd Hne Ha0 Hm0 ltac:(congruence) Hc h) as ((av & A1 & A2) & (m & M1 & M2) & S). rewrite Hvo in A2.
  destruct m as [w'|b' c']; [contradiction|]. cbn [same_model] in M2. destruct M2 as [<- M2]. exists av, c'. split; [exact A1|]. split; [exact A2|].
  split; [destruct S as (_ & _ & S3 & _); unfold u; rewrite S3, Ht0; reflexivity|]. split; [destruct S as (_ & _ & _ & S4 & _); unfold u; rewrite S4, Ht0; reflexivity|]. split; [exact M1|]. split; [exact M2 | exact S].
Qed.
Lemma runs_fun E b x ts ts' : runs E b x ts -> runs E b x ts' -> ts = ts'.
Proof. unfold runs. congruence. Qed.
Lemma runs_nonempty E b vocab merges d unk bpre suf fu bf ig : pq_ok E -> new_bpe vocab merges d unk bpre suf fu bf ig = Ok b -> forall x ts, runs E b x ts -> x <> [] -> ts <> [].
Proof.
  intros Hq Hb x ts H _. unfold runs in H. destruct (word_cases E b vocab merges d unk bpre suf fu bf ig Hq Hb x) as [(_ & ts' & T1 & T2)|(_ & T1)]; [|congruence]. assert (ts' = ts) by congruence. subst ts'. clear H T1.
  destruct T2 as [i Hi|start ts Hn Hw Hne Hst _ _ _]; [discriminate|]. intros ->. assert (K : forall y z, steps (step (b_merges b)) y z -> y <> [] -> z <> []).
  { clear. intros y z H. induction H as [y|y z z' Hs _ IH]; intros Hy; [exact Hy|]. apply IH. destruct Hs as (rank & Hs). inversion Hs; subst. destruct A; discriminate. }
  exact (K _ _ Hst Hne eq_refl).
Qed.
Lemma word_tokens_nonempty w x ts : word_tokens w x ts -> x <> [] -> ts <> [].
Proof.
  intros [(_ & H)|(_ & ->)] Hx; [|discriminate]. apply units_pos in Hx. unfold units in Hx. destruct ts; [|discriminate]. inversion H as [E0|]; subst. rewrite <- E0 in Hx. lia.
Qed.
Lemma bpe_texts_runs E s v ops av t vocab merges d unk bpre suf fu bf ig b c core : tz_av t = Some av -> (forall p, tz_pre t = Some p -> cuttable E p) -> s <> [] -> bmp s -> dense v -> v <> [] -> history v ops av -> one_flag ops -> Forall printable_token ops ->
  (forall a x b n, s = a ++ x ++ b -> normalized_to E (tz_norm t) x n -> bmp n) ->
  pq_ok E -> new_bpe vocab merges d unk bpre suf fu bf ig = Ok b -> reach_cache E b c -> tz_model t = Some (MBpe b c) -> text_encoding E t s = Ok core ->
  exists ws l, all_words E v ops (tz_norm t) (tz_pre t) s ws /\ map snd l = ws /\ BpeRefSpec.rows_of_words (runs E b) 0 l (rows core).
Proof.
  intros Hav Hpre Hne Hs Hd Hv HH Hf Hsim Hnb Hq Hb Hr Hm H. unfold text_encoding in H. destruct (prepare E t s) as [[a p]| | |] eqn:Ep; cbn [bind] in H; try discriminate. rewrite Hm in H. destruct (prepared_plane E s v ops av t Hav Hpre Hne Hs Hd Hv HH Hf Hsim Hnb a p Ep) as (ws & W1 & W2 & W3).
  assert (Hmt : snd (model_tokenize E (MBpe b c) p) = snd (bpe_tokenize E b c p)) by (cbn [model_tokenize]; destruct (bpe_tokenize E b c p); reflexivity).
  rewrite Hmt, (proj1 (bpe_tokenize_transparent E b c _ (reach_cache_ok E b c Hr))), plain_untokened in H. destruct (texts_shape _ _ W2) as (q & Q1 & <-). rewrite Q1 in H. set (z := plain_words E b _) in H.
  destruct (words_cases E b vocab merges d unk bpre suf fu bf ig Hq Hb q) as [(Hl & out & O1 & O2)|(Hl & O1)]; [assert (Ez : z = Ok out) by exact O1 | assert (Ez : z = Undef OobIndex) by exact O1]; rewrite Ez in H; cbn [bind] in H; [|discriminate]. unfold into_encoding in H. cbn [pt_norm pt_splits] in H. exists (map fst q).
  destruct (rows_any (runs E b) (pt_norm p) (map fst q) out 0 core) as (l & L1 & L2); [|exact H|exists l; auto]. clear - O2. induction O2 as [|[x o] y q out [A1 A2] _ IH]; cbn [map fst] in *; constructor; [exact A2 | exact IH].
Qed.

(** ** C140, tokens *)
(** A tokenizer constructed from a configuration with special added tokens, at any later time, any normalizer and pre-tokenizer: of a text that is put together of [a], a special token [c] at a boundary and
    [b], the ids and token strings are those of [a], [c] and [b]. *)
Theorem C140_wordpiece_tokens : forall load parse path cfg text cf t0 w toks E fuel0,
  source load path cfg (Some text) -> parse text = Some (render cf) -> config_ok cf -> build cf = Ok t0 ->
  cf_model cf = Some (CWordPiece w) -> dense (wp_vocab w) -> wp_vocab w <> [] -> (forall p, cf_pre cf = Some p -> cuttable E p) ->
  cf_added cf = Some toks -> Forall (fun x => at_special x = true) toks ->
  exists t, construct load parse path cfg = Ok t /\
  forall h a c b, bmp (a ++ c ++ b) -> Forall printable_token (toks ++ given h) -> one_flag (toks ++ given h) -> delimiter (wp_vocab w) (toks ++ given h) c -> at_boundary a ->
  (forall a' x b' n, a ++ c ++ b = a' ++ x ++ b' -> normalized_to E (cf_norm cf) x n -> bmp n) ->
  (a <> [] -> ~ normalized_to E (cf_norm cf) a []) -> (b <> [] -> ~ normalized_to E (cf_norm cf) b []) ->
  let u := HistSpec.after E fuel0 t h in
  forall ra rc rb rs, text_rows E u a ra -> text_rows E u c rc -> text_rows E u b rb -> text_rows E u (a ++ c ++ b) rs ->
  map (fun r => (r_id r, r_token r)) rs = map (fun r => (r_id r, r_token r)) (ra ++ rc ++ rb).
Proof.
  intros load parse path cfg text cf t0 w toks E fuel0 Hs Hp Hok Hb Hm Hd Hne Hpre Ha Hspec. destruct (wp_setup load parse path cfg text cf t0 w toks E fuel0 Hs Hp Hok Hb Hm Hd Hne Ha Hspec) as (t & T1 & T2).
  exists t. split; [exact T1|]. intros h a c b Hbm Hsim Hf HC Hab Hnb Na Nb u. destruct (T2 h) as (av & A1 & A2 & A3 & A4 & A5 & _). fold u in A1, A3, A4, A5. clearbody u. rewrite <- A3 in Hnb, Na, Nb. rewrite <- A4 in Hpre.
  apply (tokens_glue E (wp_vocab w) (toks ++ given h) u (word_tokens w) a c b (word_tokens_fun w) HC Hab Hbm Na Nb).
  intros s core Hs0 (x & y & Hxy) HT. rewrite Hxy in Hbm. apply Forall_app in Hbm as [_ Hbm]. apply Forall_app in Hbm as [Hbm _].
  apply (wp_texts E s (wp_vocab w) (toks ++ given h) av u A1 Hpre Hs0 Hbm Hd Hne A2 Hf Hsim); [|exact A5 | exact HT].
  intros a' x' b' n E0. apply (Hnb (x ++ a') x' (b' ++ y)). rewrite Hxy, E0, <- !app_assoc. reflexivity.
Qed.
Print Assumptions C140_wordpiece_tokens.
Theorem C140_bpe_tokens : forall load parse path cfg text cf t0 vocab merges d unk pre suf fu bf ig bp toks E fuel0,
  source load path cfg (Some text) -> parse text = Some (render cf) -> config_ok cf -> build cf = Ok t0 -> pq_ok E ->
  cf_model cf = Some (CBpe vocab merges d unk pre suf fu bf ig) -> new_bpe vocab merges d unk pre suf fu bf ig = Ok bp -> dense vocab -> vocab <> [] -> (forall p, cf_pre cf = Some p -> cuttable E p) ->
  cf_added cf = Some toks -> Forall (fun x => at_special x = true) toks ->
  exists t, construct load parse path cfg = Ok t /\
  forall h a c b, bmp (a ++ c ++ b) -> Forall printable_token (toks ++ given h) -> one_flag (toks ++ given h) -> delimiter vocab (toks ++ given h) c -> at_boundary a ->
  (forall a' x b' n, a ++ c ++ b = a' ++ x ++ b' -> normalized_to E (cf_norm cf) x n -> bmp n) ->
  (a <> [] -> ~ normalized_to E (cf_norm cf) a []) -> (b <> [] -> ~ normalized_to E (cf_norm cf) b []) ->
  let u := HistSpec.after E fuel0 t h in
  forall ra rc rb rs, text_rows E u a ra -> text_rows E u c rc -> text_rows E u b rb -> text_rows E u (a ++ c ++ b) rs ->
  map (fun r => (r_id r, r_token r)) rs = map (fun r => (r_id r, r_token r)) (ra ++ rc ++ rb).
Proof.
  intros load parse path cfg text cf t0 vocab merges d unk pre suf fu bf ig bp toks E fuel0 Hs Hp Hok Hb Hq Hm Hbp Hd Hne Hpre Ha Hspec. destruct (bpe_setup load parse path cfg text cf t0 vocab merges d unk pre suf fu bf ig bp toks E fuel0 Hs Hp Hok Hb Hm Hbp Hd Hne Ha Hspec) as (t & T1 & T2).
  exists t. split; [exact T1|]. intros h a c b Hbm Hsim Hf HC Hab Hnb Na Nb u. destruct (T2 h) as (av & c' & A1 & A2 & A3 & A4 & A5 & A6 & _). fold u in A1, A3, A4, A5. clearbody u. rewrite <- A3 in Hnb, Na, Nb. rewrite <- A4 in Hpre.
  apply (tokens_glue E vocab (toks ++ given h) u (runs E bp) a c b (runs_fun E bp) HC Hab Hbm Na Nb).
  intros s core Hs0 (x & y & Hxy) HT. rewrite Hxy in Hbm. apply Forall_app in Hbm as [_ Hbm]. apply Forall_app in Hbm as [Hbm _].
  apply (bpe_texts_runs E s vocab (toks ++ given h) av u vocab merges d unk pre suf fu bf ig bp c' core A1 Hpre Hs0 Hbm Hd Hne A2 Hf Hsim); try assumption.
  intros a' x' b' n E0. apply (Hnb (x ++ a') x' (b' ++ y)). rewrite Hxy, E0, <- !app_assoc. reflexivity.
Qed.
Print Assumptions C140_bpe_tokens.
