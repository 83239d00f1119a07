(** C130: how many tokens a text can have. *)
From Verif Require Import Base BaseFacts Unicode Common Utils PostProcessor Decoder Normalizer PreTokenizer WordPiece Bpe AddedVocab Tokenizer Config Jni Android Spec
  DecSpec DecProofs HistSpec HistProofs PropsHistory ConfigSpec ConfigProofs PropsConfig UnicodeProofs NormProofs AvSpec AvProofs PostSpec NormSpec PreSpec PreProofs TzSpec TzProofs WpSpec WpProofs OffSpec OffProofs RefSpec RefProofs UnkSpec PropsUnknown
  BpeSpec BpeProofs BpeWord ByteSpec BpeRefSpec CutSpec PropsBpeText PropsPre PropsPrefix PropsCut MixSpec MixProofs PadProofs LenSpec PropsLength FullSpec PropsAdded PropsText PropsMixed OutSpec PropsFinish PropsFull PropsOffsets Env PropsBertConfig AndroidSpec PropsActivity CountSpec.
From Coq Require Import ZifyBool ZifyNat ZifyN.
Import ListNotations.

(** *** One word *)
Lemma tiles_count l : forall a b, tiles a b l -> a + length l <= b /\ (a < b -> l <> []).
Proof. induction l as [|x l IH]; intros a b H; inversion H; subst; cbn [length]; [split; lia|]. match goal with K : tiles _ _ _ |- _ => apply IH in K as [K _] end. split; [lia | discriminate]. Qed.
(** A word of a WordPiece model has at least one token and no more tokens than UTF-16 units. *)
Theorem C130_wordpiece_word : forall w x ts, x <> [] -> word_tokens w x ts -> 1 <= length ts <= units x.
Proof.
  intros w x ts Hx H. pose proof (units_pos x Hx) as Hp. destruct H as [[_ H]|[_ ->]]; [|cbn; lia].
  destruct (greedy_tiles _ _ _ _ _ H) as [Ht _]. fold (units x) in Ht. apply tiles_count in Ht as [K1 K2]. rewrite map_length in K1. specialize (K2 Hp). destruct ts; [cbn in K2; congruence | cbn [length] in *; lia].
Qed.
Print Assumptions C130_wordpiece_word.

Definition weight (b : bpe) (l : list bytes) : nat := fold_right (fun p n => piece_weight b p + n) 0 l.
Lemma weight_app b x y : weight b (x ++ y) = weight b x + weight b y.
Proof. induction x as [|p x IH]; [reflexivity|]. cbn [app]. unfold weight in *. cbn [fold_right]. rewrite IH. lia. Qed.
Lemma fallback_total b l : total_len (flat_map (fallback_ids b) l) = fold_right (fun p n => length (fallback_ids b p) + n) 0 l.
Proof. induction l as [|p l IH]; [reflexivity|]. cbn [flat_map fold_right]. rewrite total_len_app, fallback_len, IH. reflexivity. Qed.
Lemma replaced_total b l : Forall (unknown b) l -> Forall (replaced b) l -> total_len (flat_map (fallback_ids b) l) = weight b l.
Proof.
  intros HU HR. rewrite fallback_total. induction l as [|p l IH]; [reflexivity|]. inversion HU as [|? ? U1 U2]; inversion HR as [|? ? R1 R2]; subst. unfold weight in *. cbn [fold_right]. rewrite (IH U2 R2).
  unfold piece_weight. rewrite U1. unfold replaced in R1. destruct (fallback_ids b p) eqn:Ef; [congruence | cbn [length]; lia].
Qed.
Lemma delayed_total b u run out : unk_id b = Some u -> delayed b u run out -> Forall (unknown b) run -> total_len out = weight b run.
Proof.
  intros Hu. induction 1 as [g HR|run out m g H IH HM HR]; intros HU; [apply replaced_total; assumption|]. apply Forall_app in HU as [U1 U2]. inversion U2 as [|? ? U3 U4]; subst. rewrite !total_len_app, (IH U1), (replaced_total b g U4 HR), weight_app. unfold weight. cbn [fold_right total_len snd].
  assert (W : piece_weight b m = 1) by (unfold piece_weight, missed in *; rewrite U3, HM; cbn [length]; rewrite Hu; reflexivity). rewrite W. lia.
Qed.
Lemma run_total b run out : Forall (unknown b) run -> run_symbols b run out -> total_len out = weight b run.
Proof.
  unfold run_symbols. intros HU H. destruct (unk_id b) as [u|] eqn:Eu; [destruct (b_fuse_unk b)|].
  - assert (G : fold_right (fun p n => length (fallback_ids b p) + n) 0 run + missed_count b run = weight b run).
    { clear H. unfold missed_count. induction run as [|p run IH]; [reflexivity|]. inversion HU as [|? ? U1 U2]; subst. specialize (IH U2). unfold weight in *. cbn [fold_right filter]. unfold piece_weight at 1. rewrite U1, Eu. destruct (fallback_ids b p); cbn [is_nil length]; lia. }
    subst out. rewrite total_len_app, fallback_total, <- G. f_equal. destruct (missed_count b run); cbn; lia.
  - exact (delayed_total b u run out Eu H HU).
  - subst out. rewrite fallback_total. induction run as [|p run IH]; [reflexivity|]. inversion HU as [|? ? U1 U2]; subst. unfold weight in *. cbn [fold_right]. rewrite (IH U2). unfold piece_weight at 2. rewrite U1, Eu. destruct (fallback_ids b p); reflexivity.
Qed.
Lemma symbols_total b ps out : word_symbols b ps out -> total_len out = weight b ps.
Proof.
  induction 1 as [run out HU HR|run out p i rest more HU HR Hp _ IH]; [exact (run_total b run out HU HR)|]. rewrite total_len_app, weight_app, (run_total b run out HU HR). assert (W : piece_weight b p = 1) by (unfold piece_weight; rewrite Hp; reflexivity). change (weight b (p :: rest)) with (piece_weight b p + weight b rest). change (total_len ((i, 1) :: more)) with (1 + total_len more). rewrite W, IH. lia.
Qed.
Lemma piece_bound b s : Forall (fun p => piece_weight b p <= per_byte b) (pieces (b_prefix b) (b_suffix b) s).
Proof.
  unfold pieces. apply Forall_map. apply Forall_forall. intros [i c] _. cbn [fst snd]. unfold piece_weight, per_byte, fallback_ids. destruct (sfind _ _); [destruct (b_byte_fallback b); lia|]. destruct (b_byte_fallback b); [|cbn [length]; destruct (unk_id b); lia].
  assert (K : length (piece_at (b_prefix b) (b_suffix b) (length s) i c) <= S (length (b_prefix b) + length (b_suffix b))). { unfold piece_at. destruct (i =? 0), (S i =? length s); rewrite ?app_length; cbn [length]; lia. }
  assert (L : forall p, length (flat_map (fun y => match sfind (str "<000" ++ [y] ++ str ">") (b_vocab b) with Some i => [(i, 1)] | None => [] end) p) <= length p). { induction p as [|y p IH]; [cbn; lia|]. cbn [flat_map]. rewrite app_length. destruct (sfind _ _); cbn [length]; lia. }
  specialize (L (piece_at (b_prefix b) (b_suffix b) (length s) i c)). destruct (length (flat_map _ _)) eqn:El; [destruct (unk_id b); lia | lia].
Qed.
Lemma covered_bound b s : covered b s <= length s * per_byte b.
Proof.
  unfold covered. assert (Hl : length (pieces (b_prefix b) (b_suffix b) s) = length s) by (unfold pieces; rewrite map_length, combine_length, seq_length; lia). rewrite <- Hl. generalize (piece_bound b s). generalize (pieces (b_prefix b) (b_suffix b) s). induction 1 as [|p l H _ IH]; cbn [fold_right length]; lia.
Qed.
Lemma steps_none m x y : steps (step m) x y -> y = [] -> x = [].
Proof. induction 1 as [|x y z (rank & Hs) _ IH]; intros Ez; [exact Ez|]. rewrite (IH Ez) in Hs. inversion Hs as [A a la b lb B n Hm H1 H2]. destruct A; discriminate. Qed.
(** A word of a BPE model has at least one token, and at most one for every byte of its UTF-8 text, or with byte fallback for every byte and affix byte. *)
Theorem C130_bpe_word : forall b x ts, x <> [] -> bpe_tokens b x ts -> 1 <= length ts <= length (utf8_encs x) * per_byte b.
Proof.
  intros b x ts Hx H. assert (HL : 1 <= length (utf8_encs x)). { destruct x as [|c x]; [congruence|]. unfold utf8_encs. cbn [flat_map]. rewrite app_length. assert (1 <= length (utf8_enc c)) by (unfold utf8_enc; repeat match goal with |- context [if ?y then _ else _] => destruct y end; cbn; lia). lia. }
  assert (HP : 1 <= per_byte b) by (unfold per_byte; destruct (b_byte_fallback b); lia).
  destruct H as [i _|start ts _ HS Hne Hst _ HT _]; [cbn [length]; nia|].
  pose proof (symbols_total _ _ _ HS) as E1. pose proof (covered_bound b (utf8_encs x)) as E2. unfold covered in E2. unfold weight in E1. apply tiles_count in HT as [K1 K2]. rewrite map_length in K1.
  split; [|lia]. destruct ts; [|cbn; lia]. exfalso. exact (Hne (steps_none _ _ _ Hst eq_refl)).
Qed.
Print Assumptions C130_bpe_word.

(** *** Whole texts *)
Definition total (m : wstr -> nat) (l : list (nat * wstr)) : nat := list_sum (map (fun p => m (snd p)) l).
Lemma total_app m a b : total m (a ++ b) = total m a + total m b.
Proof. unfold total. rewrite map_app, list_sum_app. reflexivity. Qed.
Lemma total_cons m p l : total m (p :: l) = m (snd p) + total m l.
Proof. reflexivity. Qed.
Lemma rows_count (P : wstr -> list token -> Prop) (f : wstr -> nat) : (forall x ts, x <> [] -> P x ts -> 1 <= length ts <= f x) -> forall i l rs, BpeRefSpec.rows_of_words P i l rs -> Forall (fun p => snd p <> []) l -> length l <= length rs <= total f l.
Proof.
  intros HP i l rs H. induction H as [i|i pos x l ts rs Hx _ IH]; intros HF; [cbn; lia|]. inversion HF as [|? ? F1 F2]; subst. specialize (IH F2). specialize (HP x ts F1 Hx). unfold total in *. cbn [map list_sum fold_right length snd] in *. fold (list_sum (map (fun p : nat * wstr => f (snd p)) l)). unfold word_rows. rewrite app_length, map_length. lia.
Qed.
Lemma words_rows_of w i l rs : words_rows w i l rs <-> BpeRefSpec.rows_of_words (word_tokens w) i l rs.
Proof. split; induction 1; constructor; assumption. Qed.
Section Additive.
Variable m : wstr -> nat.
Hypothesis m_app : forall a b, m (a ++ b) = m a + m b.
Lemma m_nil : m [] = 0. Proof. specialize (m_app [] []). cbn in m_app. lia. Qed.
Lemma split_total sp pu pos s l : bert_split sp pu pos s l -> total m l <= m s.
Proof.
  induction 1 as [pos|pos c s l Hs _ IH|pos c s l Hs Hp _ IH|pos x s l Hx HF Hm _ IH]; unfold total in *; cbn [map list_sum fold_right snd] in *.
  - lia.
  - change (c :: s) with ([c] ++ s). rewrite m_app. lia.
  - change (c :: s) with ([c] ++ s). rewrite m_app. fold (list_sum (map (fun p : nat * wstr => m (snd p)) l)). lia.
  - rewrite m_app. fold (list_sum (map (fun p : nat * wstr => m (snd p)) l)). lia.
Qed.
Lemma divided_total pos x ms segs : divided pos x ms segs -> total m (map fst segs) = m x.
Proof. pose proof m_nil as Hn. induction 1 as [pos|pos x Hx|pos x rest a b ms segs Hx Ha _ IH|pos x rest ms segs _ IH]; unfold total in *; cbn [map list_sum fold_right fst snd] in *; [lia | lia | |]; rewrite m_app; fold (list_sum (map (fun p : nat * wstr => m (snd p)) (map fst segs))); lia. Qed.
Lemma each_total (R : nat * wstr -> list (nat * wstr) -> Prop) (k : nat) : (forall p ps, R p ps -> total m ps <= k * m (snd p)) -> forall l l', each R l l' -> total m l' <= k * total m l.
Proof.
  intros HR l l' (out & HF & ->). induction HF as [|p ps l out Hp _ IH]; [cbn; lia|]. cbn [concat]. rewrite total_app. specialize (HR p ps Hp). unfold total in *. cbn [map list_sum fold_right]. fold (list_sum (map (fun p : nat * wstr => m (snd p)) l)). lia.
Qed.
Lemma cuts_total E : forall t l l', keeps_characters E t -> cuts_into E t l l' -> total m l' <= total m l.
Proof.
  fix IH 1. intros [|pat bh iv|aps rx|ts] l l' HK HC; cbn [cuts_into keeps_characters] in *; [| |contradiction|].
  - rewrite <- (Nat.mul_1_l (total m l)). eapply each_total; [|exact HC]. intros p ps H. rewrite Nat.mul_1_l. exact (split_total _ _ _ _ _ H).
  - rewrite <- (Nat.mul_1_l (total m l)). eapply each_total; [|exact HC]. intros p ps (ms & segs & _ & HD & ->). rewrite Nat.mul_1_l, <- (divided_total _ _ _ _ HD).
    assert (K : forall (g : list ((nat * wstr) * bool)) a, total m (map (fun q => (a + fst (fst q), snd (fst q))) g) = total m (map fst g)) by (intros g a; unfold total; rewrite !map_map; reflexivity).
    destruct bh; rewrite K; [|lia]. clear. induction segs as [|[[d y] f] segs IH]; [cbn; lia|]. unfold total in *. cbn [filter map list_sum fold_right fst snd]. destruct f; cbn [negb map list_sum fold_right fst snd]; fold (list_sum (map (fun p : nat * wstr => m (snd p)) (map fst segs))) in *; try fold (list_sum (map (fun p : nat * wstr => m (snd p)) (map fst (filter (fun q : nat * wstr * bool => negb (snd q)) segs)))); lia.
  - revert l HC. induction ts as [|q ts IHs]; intros l HC; [subst l'; lia|]. destruct HK as [K1 K2]. destruct HC as (mid & M1 & M2). specialize (IHs K2 mid M2). specialize (IH q l mid K1 M1). lia.
Qed.
End Additive.
Lemma utf8_length_app a b : length (utf8_encs (a ++ b)) = length (utf8_encs a) + length (utf8_encs b).
Proof. unfold utf8_encs. rewrite flat_map_app, app_length. reflexivity. Qed.

(** A WordPiece tokenizer gives a text at least as many tokens as it has words and at most as many as it has UTF-16 units. *)
Theorem C130_wordpiece : forall E fuel t w s n add r, tz_model t = Some (MWordPiece w) -> s <> [] -> forallb valid_cp s = true -> forallb valid_cp n = true -> normalized_in_place E t s n ->
  (forall p, tz_pre t = Some p -> cuttable E p /\ keeps_characters E p) -> snd (encode E fuel (bare t) s add) = Ok r ->
  exists words, words_of E (tz_pre t) n words /\ length words <= length (en_ids r) <= units n /\ units n <= units s.
Proof.
  intros E fuel t w s n add r Hm Hne Hv Hvn HN Hp Hr. destruct (C95_words E (tz_pre t) n (fun p H => proj1 (Hp p H)) Hvn) as (l & Hl & _).
  assert (Hnn : n <> []) by (destruct HN as (HN & _); unfold normalized_to in HN; destruct (tz_av t); [apply HN | subst n; exact Hne]).
  pose proof (C95_inside E (tz_pre t) n l Hnn (fun p H => proj2 (Hp p H)) Hl) as HI.
  destruct (C95_reference E fuel t w s n l add Hm Hne Hv Hvn HN Hl) as (r' & R & _ & HP & HR). { destruct HN as (_ & Hu & _). eapply Forall_impl; [|exact HI]. intros [pos x] (_ & H & _). cbn [fst snd] in *. lia. }
  assert (r' = r) by congruence. subst r'. exists l. split; [exact Hl|]. split; [|apply HN].
  assert (HL : length (rows r) = length (en_ids r)) by (apply rows_length; exact HP). rewrite <- HL.
  pose proof (rows_count _ units (fun x ts H1 H2 => C130_wordpiece_word w x ts H1 H2) 0 l (rows r) HR) as K.
  assert (KT : total units l <= units n). { destruct (tz_pre t) as [p|]; cbn [words_of] in Hl; [|subst l; unfold total; cbn [map list_sum fold_right snd]; lia]. pose proof (cuts_total units units_app E p _ _ (proj2 (Hp p eq_refl)) Hl) as K'. unfold total in K' at 2. cbn [map list_sum fold_right snd] in K'. lia. }
  assert (HN0 : Forall (fun p => snd p <> []) l) by (eapply Forall_impl; [|exact HI]; intros p H; apply H). specialize (K HN0). lia.
Qed.
Print Assumptions C130_wordpiece.

Lemma gpt2_length b : (b < 256)%N -> length (utf8_enc (gpt2_cp b)) <= 2.
Proof. intros H. destruct (gpt2_cp_range b H) as [K _]. unfold utf8_enc. destruct (gpt2_cp b <? 0x80)%N; [cbn; lia|]. replace (gpt2_cp b <? 0x800)%N with true by lia. cbn. lia. Qed.
Lemma bytes_length l : Forall (fun b => (b < 256)%N) l -> length (utf8_encs (map gpt2_cp l)) <= 2 * length l.
Proof. induction 1 as [|b l H _ IH]; [cbn; lia|]. cbn [map]. change (gpt2_cp b :: map gpt2_cp l) with ([gpt2_cp b] ++ map gpt2_cp l). rewrite utf8_length_app. pose proof (gpt2_length b H). unfold utf8_encs at 1. cbn [flat_map]. rewrite app_nil_r. cbn [length]. lia. Qed.
(** How much longer the words are than the text, in bytes. *)
Definition blow_up (pre : option pre_tokenizer) : nat := match pre with Some (TByteLevel _ _) => 2 | _ => 1 end.
(** A BPE tokenizer, whose pre-tokenizer keeps the characters or is ByteLevel: at most one token for every byte of the text (two for ByteLevel, whose characters take up to two bytes), or with
    byte fallback for every byte and affix byte. *)
Theorem C130_bpe : forall E fuel t vocab merges d unk pre suf fu bf ig b c s n add r, pq_ok E -> new_bpe vocab merges d unk pre suf fu bf ig = Ok b ->
  tz_model t = Some (MBpe b c) -> reach_cache E b c -> s <> [] -> forallb valid_cp s = true -> forallb valid_cp n = true -> normalized_in_place E t s n ->
  (forall p, tz_pre t = Some p -> cuttable E p /\ (keeps_characters E p \/ exists rx, p = TByteLevel false rx)) -> snd (encode E fuel (bare t) s add) = Ok r ->
  exists words, words_of E (tz_pre t) n words /\ length words <= length (en_ids r) <= blow_up (tz_pre t) * length (utf8_encs n) * per_byte b.
Proof.
  intros E fuel t vocab merges d unk pre suf fu bf ig b c s n add r HQ Hb Hm HC Hne Hv Hvn HN Hp Hr. destruct (C95_words E (tz_pre t) n (fun p H => proj1 (Hp p H)) Hvn) as (l & Hl & _).
  assert (Hnn : n <> []) by (destruct HN as (HN & _); unfold normalized_to in HN; destruct (tz_av t); [apply HN | subst n; exact Hne]).
  destruct (C95_bpe E fuel t vocab merges d unk pre suf fu bf ig b c s n l add HQ Hb Hm HC Hne Hv Hvn HN Hl) as [K1 K2].
  pose proof (C95_bpe E fuel (bare t) vocab merges d unk pre suf fu bf ig b c s n l add HQ Hb Hm HC Hne Hv Hvn HN Hl) as [_ K2'].
  assert (N0 : snd (encode E fuel (bare t) s add) <> Undef OobIndex) by congruence.
  destruct (Forall_Exists_dec (fun p => encodable b (snd p)) (fun p => encodable_dec b (snd p)) l) as [D1|D1]; [|exfalso; apply N0, K2'; left; exact D1].
  destruct (Forall_Exists_dec (fun p : nat * wstr => fst p < units s) (fun p => lt_dec (fst p) (units s)) l) as [D2|D2]; [|exfalso; apply N0, K2'; right; eapply Exists_impl; [|exact D2]; intros p H; cbn beta in *; lia].
  destruct (K1 D1 D2) as (r' & R & _ & HP & HR). assert (r' = r) by congruence. subst r'. exists l. split; [exact Hl|].
  assert (HL : length (rows r) = length (en_ids r)) by (apply rows_length; exact HP). rewrite <- HL.
  pose proof (rows_count _ (fun x => length (utf8_encs x) * per_byte b) (fun x ts H1 H2 => C130_bpe_word b x ts H1 H2) 0 l (rows r) HR) as K.
  assert (KM : total (fun x => length (utf8_encs x) * per_byte b) l = total (fun x => length (utf8_encs x)) l * per_byte b). { clear. unfold total. induction l as [|p l IH]; [reflexivity|]. cbn [map list_sum fold_right]. fold (list_sum (map (fun p : nat * wstr => length (utf8_encs (snd p)) * per_byte b) l)). fold (list_sum (map (fun p : nat * wstr => length (utf8_encs (snd p))) l)). lia. }
  assert (G : Forall (fun p => snd p <> []) l /\ total (fun x => length (utf8_encs x)) l <= blow_up (tz_pre t) * length (utf8_encs n)).
  { destruct (tz_pre t) as [p|] eqn:Ep; [|cbn [words_of] in Hl; subst l; split; [constructor; [exact Hnn | constructor]|]; unfold total, blow_up; cbn [map list_sum fold_right snd]; lia].
    destruct (Hp p eq_refl) as [_ [HK|(rx & ->)]].
    - split; [|cbn [words_of] in Hl; pose proof (cuts_total (fun x => length (utf8_encs x)) utf8_length_app E p _ _ HK Hl) as K'; unfold total in K' at 2; cbn [map list_sum fold_right snd] in K'; cbv beta in K'; unfold blow_up; destruct p; lia].
      pose proof (C95_inside E (Some p) n l Hnn ltac:(intros q Hq; injection Hq as <-; exact HK) Hl) as HI. eapply Forall_impl; [|exact HI]. intros q H. apply H.
    - cbn [words_of cuts_into] in Hl. destruct Hl as (out & HF & ->). inversion HF as [|? ps ? ? H1 H2]; subst. inversion H2; subst. cbn [concat]. rewrite app_nil_r. destruct H1 as (_ & pieces & P1 & ->). cbn [fst snd] in *.
      assert (PC : concat pieces = n /\ Forall (fun w => w <> []) pieces). { unfold byte_pieces in P1. destruct rx; [split; [apply apostrophe_concat; exact P1 | eapply apostrophe_nonempty; exact P1]|]. subst pieces. cbn [concat]. rewrite app_nil_r. split; [reflexivity | constructor; [exact Hnn | constructor]]. }
      destruct PC as [P2 P3]. clear - P2 P3 Hvn. generalize 0 as pos. subst n. cbn [blow_up]. induction P3 as [|w l Hw _ IH]; intros pos; [split; [constructor | cbn; lia]|]. cbn [concat] in *. rewrite forallb_app in Hvn. apply andb_prop in Hvn as [V1 V2]. specialize (IH V2 (pos + units w)). destruct IH as [I1 I2]. cbn [place map fst snd]. split.
      + constructor; [|exact I1]. cbn [snd]. destruct w as [|c w]; [congruence|]. unfold utf8_encs. cbn [flat_map]. assert (utf8_enc c <> []) by (unfold utf8_enc; repeat match goal with |- context [if ?y then _ else _] => destruct y end; discriminate). destruct (utf8_enc c); [congruence | discriminate].
      + rewrite total_cons. cbn [snd]. rewrite utf8_length_app. pose proof (bytes_length (utf8_encs w) (utf8_encs_bytes w V1)). lia. }
  destruct G as [G1 G2]. specialize (K G1). rewrite KM in K. nia.
Qed.
Print Assumptions C130_bpe.

(** *** BERT tokenizers with added tokens *)
Lemma visible_app a b : visible (N.eqb 32) (a ++ b) = visible (N.eqb 32) a ++ visible (N.eqb 32) b.
Proof. apply filter_app. Qed.
Lemma visible_all c : ~ In 32%N c -> visible (N.eqb 32) c = c.
Proof. induction c as [|x c IH]; intros H; [reflexivity|]. unfold visible in *. cbn [filter]. assert (x <> 32%N) by (intros ->; apply H; left; reflexivity). replace (32 =? x)%N with false by lia. cbn [negb]. rewrite IH; [reflexivity|]. intros K. apply H. right. exact K. Qed.
Lemma visible_le c : length (visible (N.eqb 32) c) <= length c.
Proof. induction c as [|x c IH]; [cbn; lia|]. unfold visible in *. cbn [filter]. destruct (negb _); cbn [length]; lia. Qed.
Lemma fields_count tok other pos s l : fields tok other pos s l -> (forall pos c l1, Forall printable c -> other pos c l1 -> total units l1 <= length c /\ Forall (fun p => snd p <> []) l1) -> Forall printable s ->
  total units l <= length (visible (N.eqb 32) s) /\ Forall (fun p => snd p <> []) l.
Proof.
  intros H HO. induction H as [pos|pos s l _ IH|pos c s l Hc H32 Ht Hk _ IH|pos c s l1 l Hc H32 Hs Hk Ho _ IH]; intros HP.
  - split; [cbn; lia | constructor].
  - inversion HP; subst. exact (IH ltac:(assumption)).
  - apply Forall_app in HP as [P1 P2]. destruct (IH P2) as [I1 I2]. rewrite total_cons, visible_app, app_length, (visible_all c H32). cbn [snd]. rewrite (printable_units c P1). split; [lia | constructor; assumption].
  - apply Forall_app in HP as [P1 P2]. destruct (IH P2) as [I1 I2]. destruct (HO pos c l1 P1 Ho) as [O1 O2]. rewrite total_app, visible_app, app_length, (visible_all c H32). split; [lia | apply Forall_app; split; assumption].
Qed.
Lemma split_nonempty sp pu pos s l : bert_split sp pu pos s l -> Forall (fun p => snd p <> []) l.
Proof. induction 1; try (constructor; [cbn; assumption || discriminate|]); assumption || constructor. Qed.
Lemma text_words_count v ops g sp pu s l : (forall c, printable c -> printable (g c)) -> text_words v ops g sp pu s l -> Forall printable s -> total units l <= length (visible (N.eqb 32) s) /\ Forall (fun p => snd p <> []) l.
Proof.
  intros Hg H HP. refine (fields_count _ _ _ _ _ H _ HP). intros pos c l1 Hc Hl. assert (HP' : Forall printable (map g c)) by (apply Forall_map; eapply Forall_impl; [exact Hg | exact Hc]).
  destruct (fields_count _ _ _ _ _ Hl) with (2 := HP') as [K1 K2].
  - intros pos' c' l2 Hc' Hl2. split; [|exact (split_nonempty _ _ _ _ _ Hl2)]. rewrite <- (printable_units c' Hc'). exact (split_total units units_app _ _ _ _ _ Hl2).
  - split; [|exact K2]. pose proof (visible_le (map g c)). rewrite map_length in *. lia.
Qed.
(** With added tokens, on printable ASCII: no more tokens than characters other than spaces. *)
Theorem C130_bert : forall E fuel t w av ops cl ch st lo s add r,
  ascii_env E -> dense (wp_vocab w) -> wp_vocab w <> [] -> history (wp_vocab w) ops av -> Forall simple_token ops -> one_flag ops ->
  tz_av t = Some av -> tz_norm t = Some (NBert cl ch st lo) -> tz_pre t = Some TBert -> tz_model t = Some (MWordPiece w) -> s <> [] -> Forall printable s ->
  snd (encode E fuel (bare t) s add) = Ok r -> length (en_ids r) <= length (visible (N.eqb 32) s).
Proof.
  intros E fuel t w av ops cl ch st lo s add r HE Hd Hv HH Hsim Hf Hav Hnorm Hpre Hm Hne Hs Hr.
  destruct (C89_reference_added E fuel t w av ops cl ch st lo s add HE Hd Hv HH Hsim Hf Hav Hnorm Hpre Hm Hne Hs) as (r' & words & R & _ & HP & HW & HR). assert (r' = r) by congruence. subst r'.
  destruct (text_words_count _ _ _ _ _ _ _ (fun c => folded_printable lo c) HW Hs) as [T1 T2]. apply words_rows_of in HR.
  pose proof (rows_count _ units (fun x ts H1 H2 => C130_wordpiece_word w x ts H1 H2) 0 words (rows r) HR T2) as K. rewrite (rows_length _ HP) in K. lia.
Qed.
Print Assumptions C130_bert.

(** *** The whole of encode *)
Lemma post_monotone p add : forall n k, n <= k -> post_length p add n <= post_length p add k.
Proof.
  revert p. fix IH 1. intros [single specials|aps trim|l] n k H; cbn [post_length]; [| exact H |].
  - induction single as [|x single IHs]; [cbn; lia|]. cbn [map list_sum fold_right]. fold (list_sum (map (piece_length specials add n) single)) (list_sum (map (piece_length specials add k) single)). assert (piece_length specials add n x <= piece_length specials add k x) by (unfold piece_length; destruct (leqb (pc_kind x) (str "Sequence")); [exact H | lia]). lia.
  - revert n k H. induction l as [|q l IHl]; intros n k H; [exact H|]. apply IHl. apply IH. exact H.
Qed.
Lemma tz_post_monotone t add n k : n <= k -> tz_post_length t add n <= tz_post_length t add k.
Proof. unfold tz_post_length. destruct (tz_post t); [apply post_monotone | auto]. Qed.
(** Without padding: no more ids than the post-processor makes of as many positions as the text can have tokens. *)
Theorem C130_ids : forall E fuel t s add core r n, snd (encode E fuel (bare t) s add) = Ok core -> snd (encode E fuel t s add) = Ok r -> int_config t -> tz_pad t = None ->
  length (en_ids core) <= n -> (Z.of_nat n < 2 ^ 31)%Z -> (Z.of_nat (tz_post_length t add n) < 2 ^ 31)%Z -> length (en_ids r) <= tz_post_length t add n.
Proof.
  intros E fuel t s add core r n Hc Hr HI Hp Hn L1 L2. destruct (C11_length E fuel t s add core r Hc Hr HI ltac:(lia)) as (kept & K1 & K2).
  { intros k Hk. pose proof (tz_post_monotone t add k n ltac:(lia)). lia. }
  unfold padded_length in K2. rewrite Hp in K2. rewrite K2. apply tz_post_monotone. unfold kept_length in K1. destruct (tz_trunc t) as [tr|]; [|lia]. destruct K1 as [A1 A2].
  destruct (truncation_active_dec tr (length (en_ids core))) as [D|D]; [|rewrite (A2 D); exact Hn]. specialize (A1 D). unfold truncation_active in D. lia.
Qed.
Print Assumptions C130_ids.

(** So the size conditions of C112 are about the length of the text only: a tokenizer built from a BERT configuration encodes every printable ASCII text short enough for the ids of the
    result to be counted by an int. *)
Theorem C130_config : forall load parse path cfg text c t0 w toks cl ch st lo E fuel0,
  source load path cfg (Some text) -> parse text = Some (render c) -> config_ok c -> build c = Ok t0 ->
  cf_model c = Some (CWordPiece w) -> dense (wp_vocab w) -> wp_vocab w <> [] -> cf_norm c = Some (NBert cl ch st lo) -> cf_pre c = Some TBert ->
  cf_added c = Some toks -> Forall (fun x => at_special x = true) toks -> sane t0 -> (forall p, cf_post c = Some p -> specials_ok p) -> ascii_env E ->
  exists t, construct load parse path cfg = Ok t /\
  forall h s add, Forall simple_token (toks ++ given h) -> one_flag (toks ++ given h) -> s <> [] -> Forall printable s ->
  (Z.of_nat (length s) < 2 ^ 31)%Z -> (Z.of_nat (tz_post_length t0 add (length s)) < 2 ^ 31)%Z ->
  exists words rs r, text_words (wp_vocab w) (toks ++ given h) (fun c => if lo then lower_ascii c else c) (e_u_space E) (e_u_punct E) s words /\ words_rows w 0 words rs /\ length words <= length rs <= length s /\
     (forall fuel, length s + 2 <= fuel -> snd (encode E fuel (HistSpec.after E fuel0 t h) s add) = Ok r) /\ parallel r /\ finished t0 add rs (rows r).
Proof.
  intros load parse path cfg text c t0 w toks cl ch st lo E fuel0 Hs Hp Hok Hb Hm Hd Hne Hn Hpre Ha Hspec Hsane Hpost HE.
  destruct (C112_bert load parse path cfg text c t0 w toks cl ch st lo E fuel0 Hs Hp Hok Hb Hm Hd Hne Hn Hpre Ha Hspec Hsane Hpost HE) as (t & Hc & HB). exists t. split; [exact Hc|].
  intros h s add H1 H2 H3 H4 L1 L2. destruct (HB h s add H1 H2 H3 H4) as (words & rs & W & R & HR).
  destruct (text_words_count _ _ _ _ _ _ _ (fun c => folded_printable lo c) W H4) as [T1 T2]. pose proof (proj1 (words_rows_of _ _ _ _) R) as R'.
  pose proof (rows_count _ units (fun x ts H1 H2 => C130_wordpiece_word w x ts H1 H2) 0 words rs R' T2) as K. pose proof (visible_le s) as VL.
  destruct HR as (r & R1 & R2 & R3); [lia | intros k Hk; pose proof (tz_post_monotone t0 add k (length s) ltac:(lia)); lia|].
  exists words, rs, r. repeat (split; [assumption || lia|]). split; [intros fuel Hf; apply R1; lia|]. split; assumption.
Qed.
Print Assumptions C130_config.
(** And the example activity (C129) survives every sequence of non-empty printable ASCII texts of such a length. *)
Theorem C130_activity : forall parse asset text c t0 w toks cl ch st lo p clean E inputs,
  source (fun _ => None) [] (jni_config (asset_config asset)) (Some text) -> parse text = Some (render c) -> config_ok c -> build c = Ok t0 -> pq_ok E -> ascii_env E ->
  cf_model c = Some (CWordPiece w) -> dense (wp_vocab w) -> wp_vocab w <> [] -> cf_norm c = Some (NBert cl ch st lo) -> cf_pre c = Some TBert -> cf_dec c = Some (DWordPiece p clean) ->
  cf_added c = Some toks -> Forall (fun x => at_special x = true) toks -> Forall simple_token toks -> one_flag toks -> sane t0 ->
  (forall p, cf_post c = Some p -> specials_ok p /\ forall st i, In st (declared p) -> In i (st_ids st) -> exists x, In (x, i) (wp_vocab w)) ->
  (forall p, cf_pad c = Some p -> exists x, In (x, p_id p) (wp_vocab w)) ->
  Forall (fun x => ascii_text (fst x)) (wp_vocab w) -> Forall (fun x => ascii_text (at_content x)) toks ->
  Forall (fun s => s <> [] /\ Forall printable s /\ (Z.of_nat (length s) < 2 ^ 31)%Z /\ (Z.of_nat (tz_post_length t0 true (length s)) < 2 ^ 31)%Z) inputs ->
  exists n l, (forall fuel, n <= fuel -> activity E fuel parse asset inputs = Ok l) /\ Forall (fun s => s <> None) l /\ length l = length inputs.
Proof.
  intros parse asset text c t0 w toks cl ch st lo p clean E inputs Hs Hp Hok Hb HQ HE Hm Hd Hne Hn Hpre Hdec Ha Hspec Hsimple Hflag Hsane Hpost Hpad HV HA HI.
  eapply C129_bert; try eassumption. eapply Forall_impl; [|exact HI]. intros s (H1 & H2 & L1 & L2). split; [exact H1|]. split; [exact H2|]. intros words rs W R.
  destruct (text_words_count _ _ _ _ _ _ _ (fun c => folded_printable lo c) W H2) as [T1 T2]. pose proof (proj1 (words_rows_of _ _ _ _) R) as R'.
  pose proof (rows_count _ units (fun x ts H1 H2 => C130_wordpiece_word w x ts H1 H2) 0 words rs R' T2) as K. pose proof (visible_le s) as VL.
  split; [lia|]. intros k Hk. pose proof (tz_post_monotone t0 true k (length s) ltac:(lia)). lia.
Qed.
Print Assumptions C130_activity.

(** The bounds are reached: every letter a token. *)
Example C130_tight : let w := mkWp [(str "a", 0%Z); (str "##a", 1%Z); (str "[UNK]", 2%Z)] (str "[UNK]") 100 (str "##") in
  word_tokens w (str "aaaa") [mkTok 0 (str "a") (0, 1); mkTok 1 (str "##a") (1, 2); mkTok 1 (str "##a") (2, 3); mkTok 1 (str "##a") (3, 4)] /\ units (str "aaaa") = 4.
Proof.
  cbv zeta. split; [|reflexivity]. left. split; [vm_compute; discriminate|]. cbn [wp_vocab wp_prefix].
  assert (U : flat_map utf16_enc (str "aaaa") = str "aaaa") by reflexivity. rewrite U.
  match goal with |- greedy ?v ?p ?u _ (?t :: ?ts) => refine (greedy_step v p u 0 1 (tk_id t) ts _ _ _ _ _) end; [lia | cbn; lia | reflexivity | intros k' A B; cbn in B; assert (k' = 2 \/ k' = 3 \/ k' = 4) as [-> | [-> | ->]] by lia; reflexivity|].
  match goal with |- greedy ?v ?p ?u _ (?t :: ?ts) => refine (greedy_step v p u 1 1 (tk_id t) ts _ _ _ _ _) end; [lia | cbn; lia | reflexivity | intros k' A B; cbn in B; assert (k' = 2 \/ k' = 3) as [-> | ->] by lia; reflexivity|].
  match goal with |- greedy ?v ?p ?u _ (?t :: ?ts) => refine (greedy_step v p u 2 1 (tk_id t) ts _ _ _ _ _) end; [lia | cbn; lia | reflexivity | intros k' A B; cbn in B; assert (k' = 2) as -> by lia; reflexivity|].
  match goal with |- greedy ?v ?p ?u _ (?t :: ?ts) => refine (greedy_step v p u 3 1 (tk_id t) ts _ _ _ _ _) end; [lia | cbn; lia | reflexivity | intros k' A B; cbn in B; lia|]. apply greedy_end.
Qed.
(** and with ByteLevel a BPE model can spend two tokens on every byte of the text: 4 unknown tokens for one accented letter *)
Definition unk_bpe : bpe := match new_bpe [(str "u", 0%Z)] [] (QArith_base.Qmake 0 1) (str "u") [] [] false false false with Ok b => b | _ => abt_bpe [] end.
Definition unk_tz : tokenizer := mkTz None None None None (Some (TByteLevel false false)) (Some (MBpe unk_bpe [])) None None.
Example C130_bpe_tight : normalized_in_place dash_env unk_tz [0xE9%N] [0xE9%N] /\ cuttable dash_env (TByteLevel false false) /\ length (utf8_encs [0xE9%N]) = 2 /\ per_byte unk_bpe = 1 /\ exists r, snd (encode dash_env 0 (bare unk_tz) [0xE9%N] true) = Ok r /\ length (en_ids r) = 4.
Proof. split; [split; [reflexivity | split; [lia | discriminate]]|]. split; [split; reflexivity|]. split; [reflexivity|]. split; [reflexivity|]. eexists. split; [vm_compute; reflexivity | reflexivity]. Qed.
Example C130_case : exists t0, build base_config = Ok t0 /\ tz_post_length t0 true (length (str "Playing [MASK] CHESSchess!")) = 28 /\ length (visible (N.eqb 32) (str "Playing [MASK] CHESSchess!")) = 24 /\
  exists t r, construct (fun _ => None) base_parse [] (str "{}") = Ok t /\ snd (encode test_env 30 (bare t) (str "Playing [MASK] CHESSchess!") true) = Ok r /\ length (en_ids r) = 5.
Proof. eexists. split; [reflexivity|]. split; [reflexivity|]. split; [reflexivity|]. eexists. eexists. split; [vm_compute; reflexivity|]. split; [vm_compute; reflexivity | reflexivity]. Qed.
