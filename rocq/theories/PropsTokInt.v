(** The int arithmetic of encode for BERT tokenizers: C147. *)
From Verif Require Import Base BaseFacts Unicode UnicodeProofs Common Utils PostProcessor Decoder Normalizer DecProofs PreTokenizer WordPiece Bpe AddedVocab Tokenizer PreSpec PreProofs AvSpec ExtractProofs IntChecked NormIntChecked NormIntSpec
  AddIntChecked AddIntSpec TokIntChecked TokIntSpec OutSpec PropsNormInt PropsEvery PropsAddInt Env.
From Coq Require Import ZifyBool ZifyNat.

Local Notation lim := 2147483648%Z.

(** the units of a split, where it ends, and how many words it can give *)
Definition len16 (s : split) : nat := units (decoded (sp_text s)).
Definition good (P : nat) (s : split) : Prop := fst (sp_off s) + len16 s <= P.
Definition weight (s : split) : nat := if is_nil (sp_tokens s) then len16 s else 1.
Fixpoint weights (l : list split) : nat := match l with [] => 0 | s :: r => weight s + weights r end.
Lemma weights_app a b : weights (a ++ b) = weights a + weights b.
Proof. induction a as [|x a IH]; cbn [app weights]; lia. Qed.

(** pre-tokenization *)
Lemma cut_ck_ok u base l : (forall m, In m l -> (Z.of_nat (fst (fst m) + base) < lim)%Z /\ (Z.of_nat (snd (fst m) + base) < lim)%Z) ->
  cut_splits_ck u base l = Ok (map (fun m => let '(a, z) := fst m in mkSplit (to_utf8 (usub_between u a z)) (a + base, z + base) []) l).
Proof.
  induction l as [|[[a z] f] l IH]; intros H; cbn [cut_splits_ck map]; [reflexivity|]. destruct (H _ (or_introl eq_refl)) as [H1 H2]. cbn [fst snd] in *. rewrite (ckn_ok (a + base)) by exact H1. cbn [bind]. rewrite (ckn_ok (z + base)) by exact H2. cbn [bind].
  rewrite IH by (intros m Hm; apply H; right; exact Hm). reflexivity.
Qed.
Lemma split_ck_ok s fn b P out : split_normalized s fn b = Ok out -> good P s -> (Z.of_nat P < lim)%Z -> Forall (fun q => fst (sp_off q) <= P /\ snd (sp_off q) <= P) out -> split_normalized_ck s fn b = Ok out.
Proof.
  intros H HP HL Ho. unfold split_normalized_ck, split_normalized in *. cbv zeta in *. destruct (decoded_units (sp_text s)) as [Hu Hv]. unfold good, len16, units in HP. rewrite <- Hu in HP. rewrite ckn_ok by lia. cbn [bind].
  destruct (fn (from_utf8 (sp_text s))) as [ms| | |]; cbn [bind] in *; try discriminate. injection H as <-. apply cut_ck_ok. intros [[a z] f] Hm. rewrite Forall_forall in Ho.
  specialize (Ho (mkSplit (to_utf8 (usub_between (from_utf8 (sp_text s)) a z)) (a + fst (sp_off s), z + fst (sp_off s)) [])). cbn [sp_off fst snd] in *. assert (Hi : a + fst (sp_off s) <= P /\ z + fst (sp_off s) <= P); [|lia]. apply Ho. apply in_map_iff. exists ((a, z), f). split; [reflexivity | exact Hm].
Qed.
Lemma pieces_good P s l : good P s -> Forall (inside (decoded (sp_text s))) l -> Forall (fun q => (good P q /\ sp_tokens q = []) /\ fst (sp_off q) <= P /\ snd (sp_off q) <= P) (map (piece_split (fst (sp_off s))) l).
Proof.
  intros HP HI. apply Forall_map. refine (Forall_impl _ _ HI). intros [a b] (_ & post & He). cbn [fst snd] in He. unfold good, len16 in *. rewrite He, !units_app in HP. destruct (decoded_units (sp_text s)) as [_ Hv]. rewrite He, !forallb_app in Hv. apply andb_prop in Hv as [_ Hv]. apply andb_prop in Hv as [Hv _].
  unfold piece_split, piece_span. cbn [sp_off sp_text sp_tokens fst snd]. rewrite decoded_encs by exact Hv. repeat split; lia.
Qed.
Lemma split_all_ck_ok fn b P (f : split -> list split) l : (Z.of_nat P < lim)%Z -> (forall s, split_normalized s fn b = Ok (f s)) -> (forall s, good P s -> Forall (fun q => (good P q /\ sp_tokens q = []) /\ fst (sp_off q) <= P /\ snd (sp_off q) <= P) (f s)) -> Forall (good P) l ->
  split_all_ck fn b l = split_all fn b l /\ forall out, split_all fn b l = Ok out -> Forall (good P) out.
Proof.
  intros HP Hf Hg. induction l as [|s l IH]; intros Hl; cbn [split_all_ck split_all]; [split; [reflexivity|]; intros out [= <-]; constructor|]. inversion Hl as [|x y Hs Hr E]; subst. destruct (IH Hr) as [I1 I2].
  assert (A : (if is_nil (sp_tokens s) then split_normalized_ck s fn b else Ok [s]) = (if is_nil (sp_tokens s) then split_normalized s fn b else Ok [s]) /\ forall here, (if is_nil (sp_tokens s) then split_normalized s fn b else Ok [s]) = Ok here -> Forall (good P) here).
  { destruct (is_nil (sp_tokens s)); [|split; [reflexivity|]; intros here [= <-]; constructor; [exact Hs | constructor]]. specialize (Hg s Hs). rewrite (split_ck_ok s fn b P (f s) (Hf s) Hs HP) by (refine (Forall_impl _ _ Hg); intros q Hq; tauto). rewrite Hf. split; [reflexivity|]. intros here [= <-]. refine (Forall_impl _ _ Hg). intros q Hq. tauto. }
  destruct A as [A1 A2]. rewrite A1. destruct (if is_nil (sp_tokens s) then split_normalized s fn b else Ok [s]) as [here| | |]; cbn [bind]; try (split; [reflexivity | discriminate]). rewrite I1. split; [reflexivity|].
  destruct (split_all fn b l) as [rest| | |]; cbn [bind]; try discriminate. intros out [= <-]. apply Forall_app. split; [exact (A2 _ eq_refl) | exact (I2 _ eq_refl)].
Qed.
Lemma bert_pre_ck_ok E P p : (Z.of_nat P < lim)%Z -> Forall (good P) (pt_splits p) -> bert_pre_tokenize_ck E p = bert_pre_tokenize E p /\
  forall p', bert_pre_tokenize E p = Ok p' -> Forall (good P) (pt_splits p') /\ pt_norm p' = pt_norm p /\ length (pt_splits p') <= weights (pt_splits p).
Proof.
  intros HP Hg. unfold bert_pre_tokenize_ck, bert_pre_tokenize, pt_split_ck, pt_split.
  destruct (split_all_ck_ok (find_matches E pat_space) REMOVED P _ (pt_splits p) HP (space_split E)) as [A1 A2]; [intros s Hs; apply pieces_good; [exact Hs | apply (words_inside _ _ [] [])] | exact Hg|].
  rewrite A1. assert (Hspec := bert_pre_spec E p). unfold bert_pre_tokenize, pt_split in Hspec. destruct (split_all (find_matches E pat_space) REMOVED (pt_splits p)) as [l1| | |]; cbn [bind pt_norm pt_splits] in *; try discriminate.
  destruct (split_all_ck_ok (find_matches E pat_punct) ISOLATED P _ l1 HP (punct_split E)) as [B1 B2]; [intros s Hs; apply pieces_good; [exact Hs | apply (isolate_inside _ _ [] [])] | exact (A2 _ eq_refl)|].
  rewrite B1. split; [reflexivity|]. intros p' Hp'. destruct (split_all (find_matches E pat_punct) ISOLATED l1) as [l2| | |]; cbn [bind] in *; try discriminate. injection Hp' as <-. cbn [pt_splits pt_norm]. split; [exact (B2 _ eq_refl)|]. split; [reflexivity|].
  injection Hspec as ->. clear. induction (pt_splits p) as [|s l IH]; cbn [flat_map weights]; [auto|]. rewrite app_length. assert (length (bert_out E s) <= weight s); [|lia]. unfold bert_out, weight. destruct (is_nil (sp_tokens s)); [|cbn; lia]. rewrite map_length.
  destruct (bert_pieces_words (e_u_space E) (e_u_punct E) (decoded (sp_text s))) as (H1 & H2 & _). unfold len16.
  assert (G : forall l : list (wstr * wstr), Forall (fun p => snd p <> []) l -> length l <= length (concat (map snd l))).
  { induction l0 as [|q l0 IHl]; intros Hl; cbn [map concat length]; [auto|]. inversion Hl as [|x y Hq Hr Exy]; subst. rewrite app_length. specialize (IHl Hr). destruct (snd q) as [|c0 r0] eqn:Eq0; [exfalso; apply Hq; exact Eq0 | cbn [length]; lia]. }
  specialize (G _ (Forall_impl _ (fun q Hq => proj1 Hq) H1)). rewrite H2 in G. pose proof (filter_len (fun c => negb (e_u_space E c)) (decoded (sp_text s))). pose proof (length_units (decoded (sp_text s))). lia.
Qed.

(** WordPiece *)
Lemma longest_len w u start : forall k i n, wp_longest w u start k = Some (i, n) -> n <= k.
Proof. induction k as [|k IH]; intros i n; cbn [wp_longest]; [discriminate|]. destruct (sfind _ _); [intros [= <- <-]; lia|]. intros H. apply IH in H. lia. Qed.
Lemma wp_loop_offs w u : forall fuel start ts, wp_loop fuel w u start = Ok (Some ts) -> Forall (fun t => fst (tk_off t) <= length u /\ snd (tk_off t) <= length u) ts.
Proof.
  induction fuel as [|f IH]; intros start ts; cbn [wp_loop]; [discriminate|]. destruct (Nat.ltb_spec start (length u)); [|intros [= <-]; constructor]. destruct (wp_longest w u start (length u - start)) as [[i k]|] eqn:El; [|discriminate]. apply longest_len in El.
  destruct (wp_loop f w u (start + k)) as [[ts'|]| | |] eqn:Er; cbn [bind]; try discriminate. intros [= <-]. constructor; [cbn [tk_off fst snd]; lia | exact (IH _ _ Er)].
Qed.
Lemma wp_word_offs w t ts : wp_word w t = Ok ts -> Forall (fun k => fst (tk_off k) <= units (decoded t) /\ snd (tk_off k) <= units (decoded t)) ts.
Proof.
  destruct (decoded_units t) as [Hu _]. unfold units. rewrite <- Hu. unfold wp_word. destruct (_ <? _)%Z; [intros [= <-]; constructor; [cbn; lia | constructor]|]. destruct (wp_loop _ w (from_utf8 t) 0) as [[r|]| | |] eqn:Er; cbn [bind]; try discriminate; intros [= <-]; [exact (wp_loop_offs _ _ _ _ _ Er) | constructor; [cbn; lia | constructor]].
Qed.
Lemma wp_ck_ok w P l : (Z.of_nat P < lim)%Z -> Forall (good P) l ->
  mapM (fun s => ts <- wp_word_ck w (sp_text s) ;; Ok (mkSplit (sp_text s) (sp_off s) ts)) l = mapM (fun s => ts <- wp_word w (sp_text s) ;; Ok (mkSplit (sp_text s) (sp_off s) ts)) l /\
  forall out, mapM (fun s => ts <- wp_word w (sp_text s) ;; Ok (mkSplit (sp_text s) (sp_off s) ts)) l = Ok out -> Forall (fun s => Forall (fun k => fst (tk_off k) <= P /\ snd (tk_off k) <= P) (sp_tokens s)) out.
Proof.
  intros HP. induction l as [|s l IH]; intros Hl; cbn [mapM]; [split; [reflexivity|]; intros out [= <-]; constructor|]. inversion Hl as [|x y Hs Hr E]; subst. destruct (IH Hr) as [I1 I2]. rewrite I1. unfold good, len16 in Hs.
  assert (Ew : wp_word_ck w (sp_text s) = wp_word w (sp_text s)). { unfold wp_word_ck. destruct (decoded_units (sp_text s)) as [Hu _]. unfold units in Hs. rewrite <- Hu in Hs. rewrite ckn_ok by lia. reflexivity. }
  rewrite Ew. split; [reflexivity|]. destruct (wp_word w (sp_text s)) as [ts| | |] eqn:Et; cbn [bind]; try discriminate. destruct (mapM (fun s0 => ts0 <- wp_word w (sp_text s0) ;; Ok (mkSplit (sp_text s0) (sp_off s0) ts0)) l) as [rest| | |]; cbn [bind]; try discriminate. intros out Ho. injection Ho as <-. constructor; [|exact (I2 _ eq_refl)]. cbn [sp_tokens].
  refine (Forall_impl _ _ (wp_word_offs _ _ _ Et)). intros k Hk. lia.
Qed.

(** into_encoding *)
Lemma row_offsets_ok base P ts : (Z.of_nat (base + P) < lim)%Z -> Forall (fun k => fst (tk_off k) <= P /\ snd (tk_off k) <= P) ts -> row_offsets_ck base ts = Ok (map (fun t => (base + fst (tk_off t), base + snd (tk_off t))) ts).
Proof. intros HP. induction ts as [|t ts IH]; intros H; cbn [row_offsets_ck map]; [reflexivity|]. inversion H as [|x y [H1 H2] Hr E]; subst. rewrite (ckn_ok (base + fst _)) by lia. cbn [bind]. rewrite ckn_ok by lia. cbn [bind]. rewrite IH by exact Hr. reflexivity. Qed.
Lemma rows_ck_ok ns V P l : Forall (fun o => fst o <= V) (ns_offsets ns) -> (Z.of_nat (V + P) < lim)%Z -> Forall (fun s => Forall (fun k => fst (tk_off k) <= P /\ snd (tk_off k) <= P) (sp_tokens s)) l ->
  forall idx, (Z.of_nat (idx + length l) < lim)%Z -> into_rows_ck ns 0 idx l = into_rows ns 0 idx l.
Proof.
  intros HV HP. induction l as [|s l IH]; intros Hl idx Hi; cbn [into_rows_ck into_rows length] in *; [reflexivity|]. inversion Hl as [|x y Hs Hr E]; subst. destruct (split_base ns s) as [base| | |] eqn:Eb; cbn [bind]; try reflexivity.
  assert (base <= V).
  { unfold split_base in Eb. destruct (vat (ns_ranges ns) _) as [r| | |]; cbn [bind] in Eb; try discriminate. destruct (vat (ns_offsets ns) (fst r)) as [o| | |] eqn:Eo; cbn [bind] in Eb; try discriminate. injection Eb as <-. unfold vat in Eo. destruct (nth_error (ns_offsets ns) (fst r)) as [z|] eqn:Ez; [|discriminate]. injection Eo as ->.
    rewrite Forall_forall in HV. apply HV. exact (nth_error_In _ _ Ez). }
  rewrite (row_offsets_ok base P) by (first [exact Hs | lia]). cbn [bind]. rewrite ckn_ok by lia. cbn [bind]. rewrite Nat.add_1_r. rewrite IH by (first [exact Hr | lia]). reflexivity.
Qed.

(** what extraction returns *)
Lemma units2 w : units w <= 2 * length w.
Proof. unfold units. induction w as [|c w IH]; cbn [flat_map length]; [lia|]. rewrite app_length. assert (length (utf16_enc c) <= 2) by (unfold utf16_enc; destruct (c <? 65536)%N; cbn; lia). lia. Qed.
Definition written (p : split) : Prop := exists w, forallb valid_cp w = true /\ sp_text p = utf8_encs w.
Lemma raw_written text l : forall r, raw_splits text l = Ok r -> Forall written r.
Proof.
  induction l as [|[o [a b]] l IH]; intros r; cbn [raw_splits]; [intros [= <-]; constructor|]. destruct (substr_range text a b) as [w| | |]; cbn [bind]; try discriminate. destruct (convert_to_string w) as [v| | |] eqn:Ev; cbn [bind]; try discriminate.
  destruct (raw_splits text l) as [rest| | |]; cbn [bind]; try discriminate. intros H. injection H as <-. destruct (to_string_iff _ _ Ev) as [-> Hv]. constructor; [|exact (IH _ eq_refl)]. exists w. auto.
Qed.
Lemma written_len L p : piece L p -> written p -> len16 p <= 2 * L.
Proof. intros (_ & _ & H & _) (w & Hv & Hw). unfold len16. rewrite Hw in *. rewrite decoded_encs by exact Hv. specialize (H w (proj2 (convert_from_string_iff _ w) (conj eq_refl Hv))). pose proof (units2 w). lia. Qed.
Lemma rebase_forward r : forall prev cur, fst cur <= snd cur -> Forall (fun o : nat * nat => fst o <= snd o) (rebase_offsets prev cur r).
Proof. induction r as [|o r IH]; intros prev cur H; cbn [rebase_offsets]; [constructor|]. destruct (_ && _); [constructor; [exact H | apply IH; exact H]|]. cbv zeta. constructor; [cbn; lia | apply IH; cbn; lia]. Qed.
Lemma range_forward ns rg sub ns' : Forall (fun o => fst o <= snd o) (ns_offsets ns) -> transform_range ns rg sub = Ok ns' -> Forall (fun o => fst o <= snd o) (ns_offsets ns').
Proof.
  intros HF. unfold transform_range. destruct rg as [a b]. cbv zeta. intros H. apply bind_ok in H as (ra & _ & H). apply bind_ok in H as (rb & _ & H). apply bind_ok in H as (n2 & _ & H). apply bind_ok in H as (no & Hno & H). apply bind_ok in H as (o1 & Ho1 & H). apply bind_ok in H as (o2 & Ho2 & H). injection H as <-. cbn [ns_offsets].
  refine (insert_forall _ _ _ _ _ Ho2 (erase_forall _ _ _ _ _ Ho1 HF) _). destruct (ns_offsets sub) as [|o r]; [injection Hno as <-; constructor|]. apply bind_ok in Hno as (base & Hb & Hno). injection Hno as <-.
  assert (Hbase : fst base <= snd base) by (unfold vat in Hb; destruct (nth_error (ns_offsets ns) (fst ra)) as [z|] eqn:Ez; [|discriminate]; injection Hb as ->; rewrite Forall_forall in HF; apply HF; exact (nth_error_In _ _ Ez)).
  constructor; [exact Hbase | apply rebase_forward; exact Hbase].
Qed.
Lemma find_nothing m w : forallb valid_cp w = true -> av_find_matches m (utf8_encs w) [] = Ok (m, if 0 =? units w then [] else [(None, (0, units w))]).
Proof. intros Hv. rewrite find_none by (intros ? ? ? ? ? []). rewrite from_utf8_encs by exact Hv. reflexivity. Qed.
Lemma normalize_splits_out E norm L L1 T1 M : icu_expansion E -> regex_progress E -> piece_sizes norm (Z.of_nat L) = (L1, T1, M) -> (M < lim)%Z -> (8 * Z.of_nat L < lim)%Z ->
  forall l ns map_r e T V ns' m' out P, Forall (fun p => piece L p /\ written p) l -> bd T (ns_ranges ns) -> Forall (fun o => snd o <= V) (ns_offsets ns) -> Forall (fun o => fst o <= snd o) (ns_offsets ns) ->
  (Z.of_nat T + Z.of_nat (length l) * T1 < lim)%Z -> (Z.of_nat V + Z.of_nat (length l) * (2 * Z.of_nat L) < lim)%Z -> (Z.of_nat e + Z.of_nat (length l) * (4 * Z.of_nat L + L1) + 2 * Z.of_nat L + 2 * L1 <= Z.of_nat P)%Z ->
  normalize_splits E norm [] ns map_r e l = Ok (ns', m', out) ->
  Forall (good P) out /\ (Z.of_nat (weights out) <= Z.of_nat (length l) * (2 * L1 + 1))%Z /\ Forall (fun o => snd o <= V + length l * (2 * L)) (ns_offsets ns') /\ Forall (fun o => fst o <= snd o) (ns_offsets ns') /\ (out = [] -> Forall (fun p => sp_tokens p = []) l).
Proof.
  intros HE HR Es HM H8. destruct (piece_sizes_up _ _ _ _ _ Es ltac:(lia)) as [HL1 HT1]. induction l as [|s l IH]; intros ns map_r e T V ns' m' out P Hp Hb HV HF H2 H3 HP; cbn [normalize_splits].
  - intros H. injection H as <- <- <-. split; [constructor|]. split; [cbn; lia|]. split; [refine (Forall_impl _ _ HV); intros x Hx; lia|]. split; [exact HF | intros _; constructor].
  - inversion Hp as [|x y [Hps Hws] Hpl Exy]; subst. pose proof Hps as (P1 & P2 & P3 & P4). pose proof (written_len L s Hps Hws) as Hl16. cbn [length] in H2, H3, HP. destruct (sp_tokens s) as [|t ts] eqn:Et.
    + intros H. apply bind_ok in H as (w & Hw & H). specialize (P3 w Hw). specialize (P4 eq_refl). cbv zeta in H. destruct (piece_ck_ok E HE HR norm _ L1 T1 M w Es ltac:(lia) HM H8) as [_ E2]. apply bind_ok in H as (sub & Hsub & H). destruct (E2 _ Hsub) as (B1 & B2 & B3).
      apply bind_ok in H as (ns1 & Hns1 & H). destruct (transform_range_ck_ok ns e (e + snd (sp_off s) - fst (sp_off s)) sub T (Z.to_nat T1) V (2 * L) Hb B1 ltac:(lia) HV ltac:(lia) ltac:(nia) ltac:(nia)) as [_ R2]. destruct (R2 _ Hns1) as [R3 R4]. pose proof (range_forward _ _ _ _ HF Hns1) as R5.
      apply bind_ok in H as (b & Hbs & H). destruct (to_string_iff _ _ Hbs) as [-> Hv]. rewrite find_nothing in H by exact Hv. cbn [bind] in H. apply bind_ok in H as (here & Hh & H). apply bind_ok in H as ([[ns2 m2] rest] & Hrest & H). injection H as <- <- <-.
      destruct (IH ns1 map_r (e + length (ns_text sub)) (T + Z.to_nat T1) (V + 2 * L) ns2 m2 rest P Hpl R3 R4 R5 ltac:(nia) ltac:(nia) ltac:(nia) Hrest) as (I1 & I2 & I3 & I4 & I5). pose proof (units2 (ns_text sub)) as Hu2.
      assert (G : Forall (good P) here /\ weights here <= units (ns_text sub) /\ (here = [] \/ here <> [])).
      { destruct (0 =? units (ns_text sub)); [injection Hh as <-; split; [constructor|]; split; [cbn; lia | auto]|]. cbn [norm_splits] in Hh. rewrite substr_all in Hh by apply length_units. cbn [bind] in Hh. rewrite Hbs in Hh. cbn [bind] in Hh. injection Hh as <-.
        split; [constructor; [|constructor]|]; unfold good, weight, len16; cbn [weights weight sp_off fst sp_text sp_tokens is_nil]; unfold len16; cbn [sp_text]; rewrite ?decoded_encs by exact Hv; [nia|]. split; [lia|]. right. discriminate. }
      destruct G as (G1 & G2 & _). split; [apply Forall_app; split; assumption|]. split; [rewrite weights_app; cbn [length]; nia|]. split; [refine (Forall_impl _ _ I3); intros x Hx; cbn [length]; nia|]. split; [exact I4|].
      intros Ho. apply app_eq_nil in Ho as [_ Ho]. constructor; [exact Et | exact (I5 Ho)].
    + cbv zeta. intros H. apply bind_ok in H as ([[ns2 m2] rest] & Hrest & H). injection H as <- <- <-. replace (Z.of_nat (S (length l))) with (Z.of_nat (length l) + 1)%Z in * by lia. rewrite Z.mul_add_distr_r in H2, H3, HP.
      destruct (IH ns map_r (e + length (sp_text s)) T V ns2 m2 rest P Hpl Hb HV HF ltac:(lia) ltac:(lia) ltac:(lia) Hrest) as (I1 & I2 & I3 & I4 & I5).
      split; [constructor; [unfold good, len16 in *; cbn [sp_off fst sp_text]; nia | exact I1]|]. split; [cbn [weights length]; unfold weight at 1; cbn [sp_tokens is_nil]; nia|]. split; [refine (Forall_impl _ _ I3); intros x Hx; cbn [length]; nia|]. split; [exact I4 | discriminate].
Qed.
Lemma weights_le L l : Forall (fun p => sp_tokens p = [] /\ len16 p <= L) l -> weights l <= length l * L.
Proof. induction 1 as [|p l [H1 H2] _ IH]; cbn [weights length]; [lia|]. unfold weight. rewrite H1. cbn [is_nil]. lia. Qed.
Lemma extract_out E av norm s k L1 T1 M P : icu_expansion E -> regex_progress E -> 1 <= k -> av_trie_norm av = [] ->
  (forall m ms, av_find_matches (av_map_r av) (utf8_encs s) (av_trie_raw av) = Ok (m, ms) -> length ms <= k) ->
  piece_sizes norm (Z.of_nat (length s)) = (L1, T1, M) -> (extract_largest norm (Z.of_nat k) (Z.of_nat (length s)) < lim)%Z ->
  (Z.of_nat k * (4 * Z.of_nat (length s) + L1) + 6 * Z.of_nat (length s) + 2 * L1 <= Z.of_nat P)%Z ->
  forall m p, extract_and_normalize E av norm s = Ok (m, p) ->
  Forall (good P) (pt_splits p) /\ (Z.of_nat (weights (pt_splits p)) <= Z.of_nat k * (2 * Z.of_nat (length s) + 2 * L1 + 1))%Z /\ Forall (fun o => fst o <= 2 * length s + k * (2 * length s)) (ns_offsets (pt_norm p)).
Proof.
  intros HE HR Hk Htn Hms Es H HP. unfold extract_largest in H. rewrite Es in H. destruct (piece_sizes_up _ _ _ _ _ Es ltac:(lia)) as [HL1 HT1].
  assert (HkT : (0 <= Z.of_nat k * T1)%Z) by nia. assert (HkL : (0 <= Z.of_nat k * (4 * Z.of_nat (length s) + L1))%Z) by nia. intros m p. unfold extract_and_normalize, new_pretok. intros Hx. destruct (fresh_ck_ok s ltac:(lia)) as (_ & F2 & F3). rewrite F3 in Hx.
  destruct (convert_to_string s) as [b| | |] eqn:Eb; cbn [bind pt_norm pt_splits] in Hx; try discriminate. rewrite F3, Eb in Hx. cbn [bind] in Hx. destruct (find_ck_ok (av_map_r av) b (av_trie_raw av) s Eb ltac:(nia)) as [_ G2]. destruct (to_string_iff _ _ Eb) as [-> Hv].
  apply bind_ok in Hx as ([m1 ms] & Hf & Hx). destruct (G2 _ _ Hf) as (G3 & _ & G4). specialize (Hms _ _ Hf). apply bind_ok in Hx as (raw & Hraw & Hx). destruct (raw_splits_ck_ok s (length (from_utf32 s)) ms ltac:(nia) ltac:(pose proof (units_ge s); lia) G3 G4) as [_ R2]. destruct (R2 _ Hraw) as [R3 R4]. pose proof (raw_written _ _ _ Hraw) as RW. cbv zeta in Hx.
  set (l1 := match raw with [] => [mkSplit (utf8_encs s) (0, length s) []] | _ => raw end) in *.
  assert (HL : Forall (fun p => piece (length s) p /\ written p) l1 /\ length l1 <= k).
  { unfold l1. destruct raw as [|q raw]; [|split; [|lia]; apply Forall_forall; intros z Hz; rewrite Forall_forall in R3, RW; split; [exact (R3 z Hz) | exact (RW z Hz)]]. split; [|cbn [length]; lia]. constructor; [|constructor]. pose proof (encs_upper s). split; [|exists s; auto].
    unfold piece. cbn [sp_off sp_text sp_tokens fst snd]. repeat split; try lia. intros w Hw. rewrite (proj2 (convert_from_string_iff (utf8_encs s) s) (conj eq_refl Hv)) in Hw. injection Hw as <-. auto. }
  destruct HL as [HL HLk]. apply bind_ok in Hx as ([[ns' m2] out] & Hn & Hx). injection Hx as _ <-. cbn [pt_splits pt_norm]. rewrite Htn in Hn.
  assert (HF : Forall (fun o => fst o <= snd o) (ns_offsets (new_nstring s))).
  { unfold new_nstring. assert (G : forall u todo i idx, Forall (fun o : nat * nat => fst o <= snd o) (snd (ns_tables u todo i idx))).
    { intros u. induction todo as [|n IH]; intros i idx; cbn [ns_tables]; [constructor|]. specialize (IH (S i) (idx + length (utf8_of_cp (char32_at u i)))). destruct (ns_tables u n (S i) _) as [r o]. cbn [snd] in *. apply Forall_app. split; [|exact IH]. apply Forall_forall. intros x Hx. apply repeat_spec in Hx. subst x. cbn. lia. }
    specialize (G (from_utf32 s) (length (from_utf32 s)) 0 0). destruct (ns_tables _ _ 0 0). exact G. }
  destruct (normalize_splits_out E norm (length s) L1 T1 M HE HR Es ltac:(lia) ltac:(lia) l1 (new_nstring s) m1 0 (8 * length s) (2 * length s) ns' m2 out P HL F2 (offsets_new s) HF ltac:(nia) ltac:(nia) ltac:(nia) Hn) as (N1 & N2 & N3 & N4 & N5).
  split; [|split].
  - destruct out as [|q out]; [|exact N1]. apply Forall_forall. intros z Hz. specialize (N5 eq_refl). rewrite Forall_forall in N5, HL. destruct (HL z Hz) as [Hz1 Hz2]. pose proof (written_len _ _ Hz1 Hz2). destruct Hz1 as (Q1 & _ & _ & Q4). specialize (Q4 (N5 z Hz)). unfold good. nia.
  - destruct out as [|q out]; [|nia]. assert (weights l1 <= length l1 * (2 * length s)); [|nia]. apply weights_le. specialize (N5 eq_refl). apply Forall_forall. intros z Hz. rewrite Forall_forall in N5, HL. destruct (HL z Hz) as [Hz1 Hz2]. split; [exact (N5 z Hz) | exact (written_len _ _ Hz1 Hz2)].
  - apply Forall_forall. intros o Ho. rewrite Forall_forall in N3, N4. specialize (N3 o Ho). specialize (N4 o Ho). cbn beta in *. assert (length l1 * (2 * length s) <= k * (2 * length s)) by nia. lia.
Qed.

(** ** C147 *)
(** As long as the largest number fits an int, nothing overflows in a BERT tokenizer before truncation: encode with all its int arithmetic differs from the plain model at most in truncation and padding, which C96 describes. *)
Theorem C147_encode : forall E fuel t a w s add k, icu_expansion E -> regex_progress E ->
  tz_av t = Some a -> av_trie_norm a = [] -> tz_pre t = Some TBert -> tz_model t = Some (MWordPiece w) ->
  1 <= k -> (forall m ms, av_find_matches (av_map_r a) (utf8_encs s) (av_trie_raw a) = Ok (m, ms) -> length ms <= k) ->
  (encode_largest (tz_norm t) (Z.of_nat k) (Z.of_nat (length s)) < 2 ^ 31)%Z ->
  encode_all_ck E fuel t s add = encode_ck E fuel t s add.
Proof.
  intros E fuel t a w s add k HE HR Ha Hn Hpre Hm Hk Hms H. change (2 ^ 31)%Z with lim in H. unfold encode_largest in H. destruct (piece_sizes (tz_norm t) (Z.of_nat (length s))) as [[L1 T1] M] eqn:Es. destruct (piece_sizes_up _ _ _ _ _ Es ltac:(lia)) as [HL1 HT1].
  assert (HX : (extract_largest (tz_norm t) (Z.of_nat k) (Z.of_nat (length s)) < lim)%Z) by lia. assert (H8 : (8 * Z.of_nat (length s) < lim)%Z) by (unfold extract_largest in HX; rewrite Es in HX; nia).
  set (P := Z.to_nat (Z.of_nat k * (4 * Z.of_nat (length s) + L1) + 6 * Z.of_nat (length s) + 2 * L1)). assert (HkL : (0 <= Z.of_nat k * (4 * Z.of_nat (length s) + L1))%Z) by nia. assert (HP : Z.of_nat P = (Z.of_nat k * (4 * Z.of_nat (length s) + L1) + 6 * Z.of_nat (length s) + 2 * L1)%Z) by (unfold P; lia).
  assert (HPl : (Z.of_nat P < lim)%Z) by (rewrite HP; nia).
  destruct (fresh_ck_ok s ltac:(lia)) as (F1 & _ & F3).
  assert (A : prepare_ck E t s = prepare E t s /\ forall av p, prepare E t s = Ok (av, p) -> Forall (good P) (pt_splits p) /\ (Z.of_nat (length (pt_splits p)) < lim)%Z /\ Forall (fun o => fst o <= 2 * length s + k * (2 * length s)) (ns_offsets (pt_norm p))).
  { unfold prepare_ck, prepare. rewrite F1. cbn [bind]. unfold new_pretok_ck. destruct (new_pretok (new_nstring s)) as [p0| | |]; cbn [bind]; try (split; [reflexivity | discriminate]). rewrite F3, ckn_ok by lia. cbn [bind]. rewrite Ha, Hpre.
    rewrite (C146_pieces E a (tz_norm t) s k HE HR Hk Hms HX). destruct (extract_and_normalize E a (tz_norm t) s) as [[m p]| | |] eqn:Ex; cbn [bind]; try (split; [reflexivity | discriminate]).
    destruct (extract_out E a (tz_norm t) s k L1 T1 M P HE HR Hk Hn Hms Es HX ltac:(lia) m p Ex) as (X1 & X2 & X3). cbn [pre_tokenize_ck pre_tokenize]. destruct (bert_pre_ck_ok E P p HPl X1) as [B1 B2]. rewrite B1. split; [reflexivity|].
    intros av p'. destruct (bert_pre_tokenize E p) as [p2| | |]; cbn [bind]; try discriminate. intros Hp. injection Hp as <- <-. destruct (B2 _ eq_refl) as (B3 & B4 & B5). split; [exact B3|]. split; [nia|]. rewrite B4. exact X3. }
  destruct A as [A1 A2]. unfold encode_all_ck, encode_ck. rewrite A1. destruct (prepare E t s) as [[av p]| | |]; try reflexivity. destruct (A2 _ _ eq_refl) as (X1 & X2 & X3). cbv zeta. assert (Hm' : tz_model (set_av t av) = Some (MWordPiece w)) by exact Hm. rewrite Hm'. unfold model_tokenize_ck, model_tokenize. f_equal. unfold wp_tokenize_ck, wp_tokenize.
  destruct (wp_ck_ok w P (pt_splits p) HPl X1) as [W1 W2]. rewrite W1. destruct (mapM (fun s0 => ts <- wp_word w (sp_text s0) ;; Ok (mkSplit (sp_text s0) (sp_off s0) ts)) (pt_splits p)) as [l| | |] eqn:El; cbn [bind]; try reflexivity. cbn [pt_norm pt_splits]. unfold into_encoding. cbn [pt_norm pt_splits].
  rewrite (rows_ck_ok (pt_norm p) _ P l X3); [reflexivity | nia | exact (W2 _ eq_refl) | apply mapM_length in El; lia].
Qed.
Print Assumptions C147_encode.

(** Whatever the added tokens of the first pass: it cuts a text of n characters into at most 4 n + 3 pieces. *)
Theorem C147_always : forall E fuel t a w s add, icu_expansion E -> regex_progress E ->
  tz_av t = Some a -> av_trie_norm a = [] -> tz_pre t = Some TBert -> tz_model t = Some (MWordPiece w) ->
  (encode_largest (tz_norm t) (4 * Z.of_nat (length s) + 3) (Z.of_nat (length s)) < 2 ^ 31)%Z ->
  encode_all_ck E fuel t s add = encode_ck E fuel t s add.
Proof.
  intros E fuel t a w s add HE HR Ha Hn Hpre Hm H. assert (H8 : (4 * Z.of_nat (length s) + 3 < lim)%Z /\ (8 * Z.of_nat (length s) < lim)%Z).
  { change (2 ^ 31)%Z with lim in H. unfold encode_largest, extract_largest in H. destruct (piece_sizes (tz_norm t) (Z.of_nat (length s))) as [[L1 T1] M] eqn:Es. destruct (piece_sizes_up _ _ _ _ _ Es ltac:(lia)). nia. }
  destruct (forallb valid_cp s) eqn:Ev.
  - apply (C147_encode E fuel t a w s add (4 * length s + 3) HE HR Ha Hn Hpre Hm ltac:(lia)); [|replace (Z.of_nat (4 * length s + 3)) with (4 * Z.of_nat (length s) + 3)%Z by lia; exact H].
    intros m ms Hf. refine (proj1 (proj2 (proj2 (find_ck_ok (av_map_r a) (utf8_encs s) (av_trie_raw a) s _ _) m ms Hf))); [unfold convert_to_string; rewrite Ev; reflexivity | lia].
  - destruct (fresh_ck_ok s ltac:(lia)) as (F1 & _ & F3). unfold encode_all_ck, encode_ck, prepare_ck, prepare. rewrite F1. cbn [bind]. unfold new_pretok_ck, new_pretok. rewrite F3. unfold convert_to_string. rewrite Ev. reflexivity.
Qed.
Print Assumptions C147_always.

From Verif Require Import Spec TzSpec RefSpec OffProofs PropsInt PropsEncode.
(** Together with the bounds of C96 on truncation and padding: no int operation of encode overflows at all. *)
Theorem C147_whole_encode : forall E fuel t a w s add k, icu_expansion E -> regex_progress E ->
  tz_av t = Some a -> av_trie_norm a = [] -> tz_pre t = Some TBert -> tz_model t = Some (MWordPiece w) ->
  1 <= k -> (forall m ms, av_find_matches (av_map_r a) (utf8_encs s) (av_trie_raw a) = Ok (m, ms) -> length ms <= k) ->
  (encode_largest (tz_norm t) (Z.of_nat k) (Z.of_nat (length s)) < 2 ^ 31)%Z ->
  (forall tr, tz_trunc t = Some tr -> int32 (t_max tr) /\ (0 <= t_stride tr)%Z /\ int32 (t_stride tr) /\ (t_dir tr = TLeft -> (t_stride tr < t_max tr)%Z)) ->
  (forall p, tz_pad t = Some p -> int32 (p_fixed p) /\ (p_strat p = Fixed -> 0 <= p_fixed p <= 2 ^ 30)%Z /\ int32 (p_multiple p) /\ (p_multiple p <= 2 ^ 30)%Z) ->
  (forall r, snd (encode E fuel (bare t) s add) = Ok r -> (Z.of_nat (length (en_ids r)) <= 2 ^ 30)%Z) ->
  (forall r, snd (encode E fuel (unpadded t) s add) = Ok r -> (Z.of_nat (length (en_ids r)) <= 2 ^ 30)%Z) ->
  encode_all_ck E fuel t s add = encode E fuel t s add.
Proof.
  intros E fuel t a w s add k HE HR Ha Hn Hpre Hm Hk Hms H Ht Hp H1 H2. rewrite (C147_encode E fuel t a w s add k HE HR Ha Hn Hpre Hm Hk Hms H). apply C96_encode; assumption.
Qed.
Print Assumptions C147_whole_encode.

(** Without truncation and padding, a BERT tokenizer is safe up to 2^22 characters for a text with none of the added tokens of the first pass. *)
Theorem C147_bert : forall E fuel t a c h st lo w s add, icu_expansion E -> regex_progress E ->
  tz_av t = Some a -> av_trie_norm a = [] -> tz_norm t = Some (NBert c h st lo) -> tz_pre t = Some TBert -> tz_model t = Some (MWordPiece w) ->
  forallb valid_cp s = true -> no_added_token (av_trie_raw a) (flat_map utf16_enc s) -> (Z.of_nat (length s) <= 2 ^ 22)%Z ->
  encode_all_ck E fuel t s add = encode_ck E fuel t s add /\ (tz_trunc t = None -> tz_pad t = None -> encode_all_ck E fuel t s add = encode E fuel t s add).
Proof.
  intros E fuel t a c h st lo w s add HE HR Ha Hn Hnorm Hpre Hm Hv Hno H.
  assert (A : encode_all_ck E fuel t s add = encode_ck E fuel t s add).
  { apply (C147_encode E fuel t a w s add 1 HE HR Ha Hn Hpre Hm (le_n 1)).
    - intros m ms Hf. rewrite find_none in Hf by (rewrite from_utf8_encs by exact Hv; exact Hno). injection Hf as <- <-. match goal with |- length (if ?b then _ else _) <= _ => destruct b end; cbn; lia.
    - rewrite Hnorm. unfold encode_largest, extract_largest, piece_sizes. cbn [sizes]. change (2 ^ 22)%Z with 4194304%Z in H. change (2 ^ 31)%Z with lim. lia. }
  split; [exact A|]. intros Ht Hp. rewrite A. unfold encode_ck, encode. destruct (prepare E t s) as [[av p]| | |]; try reflexivity. cbv zeta. cbn [set_av tz_model]. rewrite Hm. unfold model_tokenize. cbn [set_model tz_trunc].
  unfold do_post_process_ck, do_post_process. cbn [tz_trunc tz_pad tz_post set_model set_av]. rewrite Ht, Hp. reflexivity.
Qed.
Print Assumptions C147_bert.

(** Without the bound it is false: 2^28 supplementary characters overflow the position tables whatever the tokenizer, while without the range checks even an empty tokenizer returns an encoding. *)
Theorem C147_emoji_refuted : forall n, (2 ^ 28 <= Z.of_nat n)%Z -> forall E fuel add, (forall t, snd (encode_all_ck E fuel t (repeat 0x1F600%N n) add) = Undef IntOverflow) /\
  exists r, snd (encode E fuel (mkTz None None None None None None None None) (repeat 0x1F600%N n) add) = Ok r.
Proof.
  intros n H E fuel add. split.
  - intros t. unfold encode_all_ck, prepare_ck. rewrite (proj2 (C145_exact_on_emoji n) H). reflexivity.
  - assert (Hv : forallb valid_cp (repeat 0x1F600%N n) = true) by (apply forallb_forall; intros x Hx; apply repeat_spec in Hx; subst x; reflexivity).
    assert (Ht : ns_text (new_nstring (repeat 0x1F600%N n)) = repeat 0x1F600%N n) by (unfold new_nstring; destruct (ns_tables _ _ 0 0); reflexivity).
    unfold encode, prepare. cbn [tz_av tz_pre tz_model]. unfold new_pretok. rewrite Ht. unfold convert_to_string. rewrite Hv. cbn [bind snd]. cbn [set_av tz_model]. unfold into_encoding. cbn [pt_norm pt_splits into_rows].
    cbn [bind snd pt_norm pt_splits into_rows]. rewrite base_fresh; [cbn [bind]; eexists; reflexivity|]. cbn [sp_off fst]. rewrite (from_utf32_valid _ Hv). destruct n; [change (2 ^ 28)%Z with 268435456%Z in H; lia|]. cbn. lia.
Qed.
Print Assumptions C147_emoji_refuted.

(** Test data that satisfies the hypotheses: a BERT normalizer, truncation, a template and padding. *)
Definition int_demo : tokenizer :=
  mkTz (Some (mkTrunc TRight LongestFirst 3 0)) (Some (mkPad PRight Fixed 6 9 0 (str "[PAD]") 0)) (Some demo_av) (Some (NBert true true true true)) (Some TBert) (Some (MWordPiece (mkWp demo_vocab (str "[UNK]") 100 (str "##")))) None (Some demo_template).
Theorem C147_case : let s := (str "Playing,  CHESS " ++ [0xC9; 0x4E2D]%N)%list in
  av_trie_norm demo_av = [] /\ no_added_token (av_trie_raw demo_av) (flat_map utf16_enc s) /\ (encode_largest (tz_norm int_demo) 1 (Z.of_nat (length s)) < 2 ^ 31)%Z /\
  encode_all_ck test_env 10 int_demo s true = encode_ck test_env 10 int_demo s true /\ encode_all_ck test_env 10 int_demo s true = encode test_env 10 int_demo s true /\
  exists r, snd (encode_all_ck test_env 10 int_demo s true) = Ok r /\ en_ids r = [1; 3; 4; 6; 2; 9]%Z.
Proof.
  split; [reflexivity|]. split; [apply no_added_check_ok; vm_compute; reflexivity|]. split; [vm_compute; reflexivity|].
  split; [vm_compute; reflexivity|]. split; [vm_compute; reflexivity|]. eexists. split; vm_compute; reflexivity.
Qed.
Print Assumptions C147_case.
