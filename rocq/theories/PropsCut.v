(** Whole tokenizers with any cutting pre-tokenizer: C95. *)
From Verif Require Import Base BaseFacts Unicode UnicodeProofs Common Utils PostProcessor Decoder Normalizer PreTokenizer WordPiece Bpe AddedVocab Tokenizer Spec
  NormSpec NormProofs DecSpec DecProofs PreSpec PreProofs PropsPre AvSpec AvProofs ExtractProofs TzSpec TzProofs WpSpec WpProofs OffSpec OffProofs RefSpec RefProofs TextProofs BpeSpec BpeProofs BpeWord PropsBpe UnkSpec PropsUnknown
  BpeRefSpec ByteSpec PropsEncode PropsOffsets PropsPipeline PropsReference PropsByteBpe PropsBpeText Env Sample CutSpec.
From Coq Require Import ZifyBool ZifyNat.

(** ** C95 *)
(** the splits hold these words *)
Definition holds (p : nat * wstr) (s : split) : Prop := sp_text s = utf8_encs (snd p) /\ fst (sp_off s) = fst p /\ sp_tokens s = [].
Definition all_valid (l : list (nat * wstr)) : Prop := Forall (fun p => forallb valid_cp (snd p) = true) l.

Lemma divided_gaps pos x ms segs : divided pos x ms segs -> forall h, units h = pos ->
  with_gaps pos (units (h ++ x)) ms = map (fun q => ((fst (fst q), fst (fst q) + units (snd (fst q))), snd q)) segs /\
  Forall (fun q : (nat * wstr) * bool => exists a z, h ++ x = a ++ snd (fst q) ++ z /\ units a = fst (fst q)) segs.
Proof.
  induction 1 as [pos|pos x Hx|pos x rest a b ms segs Hx Ha H IH|pos x rest ms segs H IH]; intros h Hh.
  - cbn [with_gaps map]. rewrite app_nil_r, Hh. replace (pos <? pos) with false by lia. split; [reflexivity | constructor].
  - cbn [with_gaps map fst snd]. rewrite units_app, Hh. assert (0 < units x) by (pose proof (proj1 (units_0 x)); destruct (units x); [exfalso; auto | lia]). replace (pos <? pos + units x) with true by lia.
    split; [reflexivity|]. constructor; [|constructor]. exists h, []. cbn [fst snd]. rewrite app_nil_r. auto.
  - destruct (IH (h ++ x)) as [I1 I2]; [rewrite units_app; lia|]. rewrite <- app_assoc in I1, I2. assert (0 < units x) by (pose proof (proj1 (units_0 x)); destruct (units x); [exfalso; auto | lia]).
    cbn [map fst snd with_gaps] in *. replace (pos =? a) with false by lia. rewrite Nat.eqb_refl in I1. cbn [app] in *. rewrite I1. subst a. split; [reflexivity|]. constructor; [|exact I2]. exists h, rest. cbn [fst snd]. auto.
  - destruct (IH (h ++ x)) as [I1 I2]; [rewrite units_app; lia|]. rewrite <- app_assoc in I1, I2. cbn [map fst snd with_gaps] in *. rewrite Nat.eqb_refl. cbn [app]. rewrite I1. split; [reflexivity|]. constructor; [|exact I2]. exists h, rest. cbn [fst snd]. auto.
Qed.
Lemma slice_units a y z : slice (flat_map utf16_enc (a ++ y ++ z)) (units a) (units a + units y) = flat_map utf16_enc y.
Proof.
  unfold slice, units. rewrite !flat_map_app. replace (length (flat_map utf16_enc a) + length (flat_map utf16_enc y) - length (flat_map utf16_enc a)) with (length (flat_map utf16_enc y)) by lia.
  rewrite skipn_app, skipn_all, Nat.sub_diag. cbn [app skipn]. rewrite firstn_app, firstn_all, Nat.sub_diag. cbn [firstn]. apply app_nil_r.
Qed.
Lemma each_splits (R : nat * wstr -> list (nat * wstr) -> Prop) fn b :
  (forall p s ps, forallb valid_cp (snd p) = true -> holds p s -> R p ps -> all_valid ps /\ exists ss, split_normalized s fn b = Ok ss /\ Forall2 holds ps ss) ->
  forall l l' ss, all_valid l -> Forall2 holds l ss -> each R l l' -> all_valid l' /\ exists ss', split_all fn b ss = Ok ss' /\ Forall2 holds l' ss'.
Proof.
  intros HR l l' ss Hv HF (out & HO & ->). revert ss Hv HF. induction HO as [|p ps l out Hp _ IH]; intros ss Hv HF; inversion HF as [|? s ? ss0 Hs HF']; subst.
  - split; [constructor|]. exists []. split; [reflexivity | constructor].
  - inversion Hv as [|? ? Hv1 Hv2]; subst. destruct (HR p s ps Hv1 Hs Hp) as (A1 & ss1 & A2 & A3). destruct (IH ss0 Hv2 HF') as (B1 & ss2 & B2 & B3). split; [apply Forall_app; auto|]. exists (ss1 ++ ss2). cbn [split_all concat].
    destruct Hs as (_ & _ & Ht). rewrite Ht. cbn [is_nil]. rewrite A2. cbn [bind]. rewrite B2. cbn [bind]. split; [reflexivity | apply Forall2_app; assumption].
Qed.
Lemma split_word_splits E pat b p s ps : forallb valid_cp (snd p) = true -> holds p s -> split_word E pat b p ps -> all_valid ps /\ exists ss, split_normalized s (find_matches E pat) b = Ok ss /\ Forall2 holds ps ss.
Proof.
  intros Hv (Ht & Ho & _) (ms & segs & Hm & Hd & ->). destruct p as [pos x]. cbn [fst snd] in *. destruct (divided_gaps _ _ _ _ Hd [] eq_refl) as [G1 G2]. cbn [app] in G1, G2.
  rewrite (split_normalized_spec E pat b s ms) by (rewrite Ht, from_utf8_encs by exact Hv; exact Hm). rewrite Ht, from_utf8_encs by exact Hv. change (length (flat_map utf16_enc x)) with (units x). rewrite G1.
  assert (K : forall segs', Forall (fun q : (nat * wstr) * bool => exists a z, x = a ++ snd (fst q) ++ z /\ units a = fst (fst q)) segs' ->
     all_valid (map (fun q => (pos + fst (fst q), snd (fst q))) segs') /\
     Forall2 holds (map (fun q => (pos + fst (fst q), snd (fst q))) segs') (map (cut_out s) (map fst (map (fun q => ((fst (fst q), fst (fst q) + units (snd (fst q))), snd q)) segs')))).
  { clear - Hv Ht Ho. induction 1 as [|[[q y] f] segs' (a & z & E1 & E2) _ [I1 I2]]; [split; constructor|]. cbn [map fst snd] in *. assert (Hy : forallb valid_cp y = true) by (rewrite E1 in Hv; apply (valid_parts _ _ _ Hv)).
    split; [constructor; assumption|]. constructor; [|exact I2]. unfold holds, cut_out. cbn [sp_text sp_off sp_tokens fst snd]. rewrite Ht, from_utf8_encs by exact Hv. rewrite E1, <- E2, slice_units, to_utf8_encs by exact Hy. repeat split. lia. }
  destruct b.
  - destruct (K (filter (fun q => negb (snd q)) segs)) as [K1 K2]. { apply Forall_forall. intros q Hq. apply filter_In in Hq as [Hq _]. exact (proj1 (Forall_forall _ _) G2 q Hq). }
    split; [exact K1|]. eexists. split; [reflexivity|]. replace (filter (fun m => negb (snd m)) (map (fun q : (nat * wstr) * bool => ((fst (fst q), fst (fst q) + units (snd (fst q))), snd q)) segs)) with (map (fun q : (nat * wstr) * bool => ((fst (fst q), fst (fst q) + units (snd (fst q))), snd q)) (filter (fun q => negb (snd q)) segs)); [exact K2|].
    clear. induction segs as [|[[q y] f] segs IH]; [reflexivity|]. cbn [filter map snd]. destruct f; cbn [negb map]; rewrite IH; reflexivity.
  - destruct (K segs G2) as [K1 K2]. split; [exact K1|]. eexists. split; [reflexivity | exact K2].
Qed.
Lemma bert_split_shift sp pu pos s l : bert_split sp pu pos s l -> forall d, bert_split sp pu (d + pos) s (map (fun q => (d + fst q, snd q)) l).
Proof.
  induction 1 as [pos|pos c s l Hs H IH|pos c s l Hs Hp H IH|pos x s l Hx HF Hm H IH]; intros d; cbn [map fst snd].
  - constructor.
  - apply bs_space; [exact Hs|]. rewrite <- Nat.add_assoc. apply IH.
  - apply bs_punct; [exact Hs | exact Hp|]. rewrite <- Nat.add_assoc. apply IH.
  - apply bs_word; [exact Hx | exact HF | exact Hm|]. rewrite <- Nat.add_assoc. apply IH.
Qed.
Lemma bert_word_splits E p s ps : forallb valid_cp (snd p) = true -> holds p s -> bert_split (e_u_space E) (e_u_punct E) (fst p) (snd p) ps -> all_valid ps /\ Forall2 holds ps (bert_out E s).
Proof.
  intros Hv (Ht & Ho & Hk) Hb. destruct p as [pos x]. cbn [fst snd] in *. unfold bert_out. rewrite Hk, Ht, Ho. cbn [is_nil]. rewrite decoded_encs by exact Hv.
  pose proof (bert_split_shift _ _ _ _ _ (bert_pieces_split (e_u_space E) (e_u_punct E) x) pos) as K. rewrite Nat.add_0_r, map_map in K. cbn [fst snd] in K. rewrite (bert_split_fun _ _ _ _ _ Hb _ K).
  pose proof (bert_pieces_valid (e_u_space E) (e_u_punct E) x Hv) as HV. clear - HV. induction HV as [|[a y] l Hy _ [I1 I2]]; [split; constructor|]. cbn [map fst snd] in *. split; [constructor; assumption|].
  constructor; [|exact I2]. unfold holds, piece_split, piece_span. cbn [sp_text sp_off sp_tokens fst snd]. repeat split. lia.
Qed.

Lemma remapped_word t : remapped t = utf8_encs (map gpt2_cp t).
Proof. unfold remapped, utf8_encs. induction t as [|b t IH]; [reflexivity|]. cbn [flat_map map]. rewrite IH. reflexivity. Qed.
Lemma gpt2_valid b : (b < 256)%N -> valid_cp (gpt2_cp b) = true.
Proof.
  intros H. assert (K : (gpt2_cp b < 1000)%N); [|unfold valid_cp, is_surrogate; lia]. unfold gpt2_cp. destruct (gpt2_printable b); [lia|].
  assert (length (filter (fun x => negb (gpt2_printable x)) (map N.of_nat (seq 0 (N.to_nat b)))) <= 256); [|lia].
  assert (G : forall (f : N -> bool) l, length (filter f l) <= length l) by (clear; intros f l; induction l as [|x l IH]; [auto|]; cbn [filter]; destruct (f x); cbn [length]; lia).
  etransitivity; [apply G|]. rewrite map_length, seq_length. lia.
Qed.
Lemma gpt2_all_valid t : Forall (fun b => (b < 256)%N) t -> forallb valid_cp (map gpt2_cp t) = true.
Proof. induction 1 as [|b t Hb _ IH]; [reflexivity|]. cbn [map forallb]. rewrite gpt2_valid by exact Hb. exact IH. Qed.
Lemma place_holds base : forall X pos, map piece_span X = spans_from pos (map snd X) -> Forall2 holds (place (base + pos) (map snd X)) (map (piece_split base) X).
Proof.
  induction X as [|[a y] X IH]; intros pos H; [constructor|]. cbn [map fst snd place spans_from] in *. injection H as H1 H2 H3. constructor.
  - unfold holds, piece_split, piece_span. cbn [sp_off sp_text sp_tokens fst snd]. repeat split. lia.
  - rewrite <- Nat.add_assoc. apply IH. exact H3.
Qed.
Lemma apos_places cs : forallb valid_cp cs = true -> map piece_span (apos_iso [] [] cs) = spans_from 0 (map snd (apos_iso [] [] cs)).
Proof.
  intros Hv.
  assert (K : forall n cs, length cs <= n -> forall pre cur, map piece_span (apos_iso pre cur cs) = spans_from (units pre) (map snd (apos_iso pre cur cs))).
  { clear. assert (F : forall pre cur (X : list (wstr * wstr)), map piece_span X = spans_from (units (pre ++ cur)) (map snd X) -> map piece_span (PreProofs.flush pre cur ++ X) = spans_from (units pre) (map snd (PreProofs.flush pre cur ++ X))).
    { intros pre cur X H. destruct cur as [|c cur]; cbn [PreProofs.flush app map snd spans_from piece_span fst]; [rewrite app_nil_r in H; exact H|]. rewrite units_app in H. rewrite H. reflexivity. }
    induction n as [|n IH]; intros cs Hl pre cur.
    - destruct cs; [|cbn in Hl; lia]. cbn [apos_iso]. rewrite <- (app_nil_r (PreProofs.flush pre cur)). apply F. reflexivity.
    - destruct cs as [|c cs]; [cbn [apos_iso]; rewrite <- (app_nil_r (PreProofs.flush pre cur)); apply F; reflexivity|]. cbn [length] in Hl. cbn [apos_iso]. destruct (N.eqb_spec c 39) as [->|Hn]; [|apply IH; lia].
      assert (H1 : map piece_span (PreProofs.flush pre cur ++ (pre ++ cur, [39%N]) :: apos_iso (pre ++ cur ++ [39%N]) [] cs) = spans_from (units pre) (map snd (PreProofs.flush pre cur ++ (pre ++ cur, [39%N]) :: apos_iso (pre ++ cur ++ [39%N]) [] cs))).
      { apply F. cbn [map snd spans_from]. rewrite IH by lia. rewrite app_assoc, units_app. reflexivity. }
      destruct cs as [|y cs']; [exact H1|]. destruct (N.eqb_spec y 115) as [->|Hy]; [|exact H1].
      apply F. cbn [map snd spans_from]. cbn [length] in Hl. rewrite IH by lia. rewrite app_assoc, units_app. reflexivity. }
  apply (K (length cs) cs (le_n _) [] []).
Qed.
Definition byte_cut (rx : bool) (p : nat * wstr) (ps : list (nat * wstr)) : Prop := exists pieces, byte_pieces rx (snd p) pieces /\ ps = place (fst p) pieces.
Lemma place_valid : forall l pos, forallb valid_cp (concat l) = true -> all_valid (place pos l).
Proof. induction l as [|w l IH]; intros pos H; [constructor|]. cbn [concat place] in *. rewrite forallb_app in H. apply andb_prop in H as [H1 H2]. constructor; [exact H1 | apply IH; exact H2]. Qed.
Lemma byte_cut_splits E rx p s ps : forallb valid_cp (snd p) = true -> holds p s -> byte_cut rx p ps ->
  all_valid ps /\ exists ss, split_normalized s (fun u => if rx then find_matches E byte_level_pattern u else Ok [((0, length u), false)]) ISOLATED = Ok ss /\ Forall2 holds ps ss.
Proof.
  intros Hv (Ht & Ho & Hk) (pieces & Hp & ->). destruct p as [pos x]. cbn [fst snd] in *. pose proof (pieces_concat _ _ _ Hp) as HC. split; [apply place_valid; rewrite HC; exact Hv|]. destruct rx.
  - change (fun u : ustr => find_matches E byte_level_pattern u) with (find_matches E byte_level_pattern). rewrite (apos_split E s x Ht Hv). eexists. split; [reflexivity|].
    pose proof (apos_pieces_ok (length x) x (le_n _) [] [] (fun H => H)) as HP. cbn [app] in HP. rewrite (C61_pieces_once _ _ _ Hp HP), Ho. replace pos with (pos + 0) at 1 by lia. apply place_holds, apos_places. exact Hv.
  - cbn [byte_pieces] in Hp. subst pieces. unfold split_normalized. cbn [bind map filter fst snd negb]. rewrite Ht, from_utf8_encs by exact Hv. eexists. split; [reflexivity|]. constructor; [|constructor].
    unfold holds. cbn [sp_text sp_off sp_tokens fst snd]. split; [|split; [lia | reflexivity]]. transitivity (to_utf8 (flat_map utf16_enc x)); [f_equal|apply to_utf8_encs; exact Hv].
    pose proof (slice_units [] x []) as K. rewrite app_nil_r in K. exact K.
Qed.
Lemma remap_holds E l : forall ss, all_valid l -> Forall (fun p => e_char_signed E = false \/ ascii (snd p)) l -> Forall2 holds l ss ->
  all_valid (map (fun q => (fst q, map gpt2_cp (utf8_encs (snd q)))) l) /\
  exists ss', mapM (fun s => t <- byte_level_text E (sp_text s) ;; Ok (mkSplit t (sp_off s) (sp_tokens s))) ss = Ok ss' /\ Forall2 holds (map (fun q => (fst q, map gpt2_cp (utf8_encs (snd q)))) l) ss'.
Proof.
  induction l as [|[pos x] l IH]; intros ss Hv Ha H; inversion H as [|? s ? ss0 Hs H']; subst; [split; [constructor|]; exists []; split; [reflexivity | constructor]|].
  inversion Hv as [|? ? V1 V2]; subst. inversion Ha as [|? ? A1 A2]; subst. destruct (IH ss0 V2 A2 H') as (I1 & ss' & I2 & I3). cbn [fst snd] in *. destruct Hs as (Ht & Ho & Hk). cbn [fst snd] in *.
  pose proof (utf8_encs_bytes x V1) as HB. split; [constructor; [apply gpt2_all_valid; exact HB | exact I1]|]. cbn [mapM]. rewrite Ht, byte_level_text_spec by exact HB. rewrite (proj2 (bytes_ok_iff E x) A1). cbn [bind]. rewrite I2. cbn [bind].
  eexists. split; [reflexivity|]. constructor; [|exact I3]. unfold holds. cbn [sp_text sp_off sp_tokens fst snd]. repeat split; [apply remapped_word | exact Ho | exact Hk].
Qed.
Lemma ascii_place l : forall pos, ascii (concat l) -> Forall (fun p : nat * wstr => ascii (snd p)) (place pos l).
Proof. unfold ascii. induction l as [|w l IH]; intros pos H; [constructor|]. cbn [concat place] in *. apply Forall_app in H as [H1 H2]. constructor; [exact H1 | apply IH; exact H2]. Qed.
Lemma byte_word_cut E rx l l' : each (byte_word E rx) l l' -> exists m, each (byte_cut rx) l m /\ Forall (fun p => e_char_signed E = false \/ ascii (snd p)) m /\ l' = map (fun q => (fst q, map gpt2_cp (utf8_encs (snd q)))) m.
Proof.
  intros (out & HO & ->). induction HO as [|p ps l out (Ha & pieces & H1 & H2) _ (m & (out' & M1 & ->) & M2 & M3)]; [exists []; split; [exists []; split; [constructor | reflexivity] | split; [constructor | reflexivity]]|].
  exists (place (fst p) pieces ++ concat out'). split; [exists (place (fst p) pieces :: out'); split; [constructor; [exists pieces; auto | exact M1] | reflexivity]|]. split.
  - apply Forall_app. split; [|exact M2]. destruct Ha as [Ha|Ha]; [apply Forall_forall; auto|]. eapply Forall_impl; [|apply ascii_place; rewrite (pieces_concat _ _ _ H1); exact Ha]. auto.
  - cbn [concat]. rewrite M3, H2, map_app. reflexivity.
Qed.
Lemma pre_cuts E : forall t l l' ns ss, cuts_into E t l l' -> all_valid l -> Forall2 holds l ss -> all_valid l' /\ exists ss', pre_tokenize E t (mkPt ns ss) = Ok (mkPt ns ss') /\ Forall2 holds l' ss'.
Proof.
  fix IH 1. intros [|pat b iv|aps rx|ts] l l' ns ss H Hv HF; cbn [cuts_into pre_tokenize] in *.
  - rewrite bert_pre_spec. cbn [pt_norm pt_splits]. destruct H as (out & HO & ->). revert ss Hv HF. induction HO as [|p ps l out Hp _ IHl]; intros ss Hv HF; inversion HF as [|? s ? ss0 Hs HF']; subst.
    + split; [constructor|]. exists []. split; [reflexivity | constructor].
    + inversion Hv as [|? ? Hv1 Hv2]; subst. destruct (bert_word_splits E p s ps Hv1 Hs Hp) as [A1 A2]. destruct (IHl ss0 Hv2 HF') as (B1 & ss' & B2 & B3). injection B2 as <-.
      split; [apply Forall_app; auto|]. eexists. split; [reflexivity|]. cbn [concat flat_map]. apply Forall2_app; assumption.
  - unfold split_pre_tokenize, pt_split. cbn [pt_splits pt_norm]. destruct (each_splits (split_word E pat b) (find_matches E pat) b (fun p s ps => split_word_splits E pat b p s ps) l l' ss Hv HF H) as (A & ss' & B & C). rewrite B. cbn [bind]. eauto.
  - destruct aps; [contradiction|]. unfold byte_level_pre_tokenize, pt_split. cbn [bind pt_splits pt_norm]. destruct (byte_word_cut E rx l l' H) as (m & M1 & M2 & ->).
    destruct (each_splits (byte_cut rx) _ ISOLATED (fun p s ps => byte_cut_splits E rx p s ps) l m ss Hv HF M1) as (A & ss1 & B & C). rewrite B. cbn [bind pt_splits pt_norm].
    destruct (remap_holds E m ss1 A M2 C) as (D & ss' & F & G). rewrite F. cbn [bind]. eauto.
  - revert l ss H Hv HF. induction ts as [|q ts IHs]; intros l ss H Hv HF.
    + subst l'. split; [exact Hv|]. exists ss. auto.
    + destruct H as (m & M1 & M2). destruct (IH q l m ns ss M1 Hv HF) as (A & ss1 & B & C). rewrite B. cbn [bind]. apply (IHs m ss1 M2 A C).
Qed.
Lemma holds_shape l ss : Forall2 holds l ss -> exists q, ss = map (fun p => mkSplit (utf8_encs (fst p)) (snd p) []) q /\ map (fun p : wstr * (nat * nat) => (fst (snd p), fst p)) q = l.
Proof.
  induction 1 as [|[pos x] [tx [o1 o2] tk] l ss (H1 & H2 & H3) _ (q & -> & <-)]; [exists []; split; reflexivity|]. cbn [sp_text sp_off sp_tokens fst snd] in *. subst. exists ((x, (pos, o2)) :: q). split; reflexivity.
Qed.
(** the splits that reach the model *)
Lemma prepare_words E t s n l : s <> [] -> forallb valid_cp s = true -> forallb valid_cp n = true -> normalized_in_place E t s n -> words_of E (tz_pre t) n l ->
  all_valid l /\ exists av junk q, prepare E t s = Ok (av, mkPt (numbered_ns (unit_sizes s) junk s) (map (fun p => mkSplit (utf8_encs (fst p)) (snd p) []) q)) /\ map (fun p : wstr * (nat * nat) => (fst (snd p), fst p)) q = l.
Proof.
  intros Hne Hv Hvn HN HW. destruct (prepare_in_place E t s n Hne Hv Hvn HN) as (av & junk & k & Hprep). unfold words_of in HW.
  assert (V0 : all_valid [(0, n)]) by (constructor; [exact Hvn | constructor]).
  assert (H0 : Forall2 holds [(0, n)] [mkSplit (utf8_encs n) (0, k) []]) by (constructor; [repeat split | constructor]).
  destruct (tz_pre t) as [pt|].
  - destruct (pre_cuts E pt _ _ (numbered_ns (unit_sizes s) junk s) _ HW V0 H0) as (A & ss & B & C). rewrite B in Hprep. cbn [bind] in Hprep. destruct (holds_shape _ _ C) as (q & -> & Q). split; [exact A|]. eauto.
  - subst l. split; [exact V0|]. cbn [bind] in Hprep. exists av, junk, [(n, (0, k))]. split; [exact Hprep | reflexivity].
Qed.
Lemma bases s junk q : forallb valid_cp s = true -> forall x o ts, In (x, o) q ->
  (Forall (fun p : nat * wstr => fst p < units s) (map (fun p : wstr * (nat * nat) => (fst (snd p), fst p)) q) -> split_base (numbered_ns (unit_sizes s) junk s) (mkSplit x o ts) = Ok (fst o)).
Proof.
  intros Hv x o ts Hin HF. apply base_numbered; [apply unit_sizes_pos|]. cbn [sp_off]. rewrite valid_unit_sizes by exact Hv. apply (proj1 (Forall_forall _ _) HF (fst o, x)). apply in_map_iff. exists (x, o). auto.
Qed.
(** a word that starts past the end makes the conversion read out of bounds *)
Lemma into_rows_past s junk : forallb valid_cp s = true -> forall l i, Exists (fun x => units s <= fst (sp_off x)) l -> into_rows (numbered_ns (unit_sizes s) junk s) 0 i l = Undef OobIndex.
Proof.
  intros Hv. induction l as [|x l IH]; intros i H; [inversion H|]. cbn [into_rows]. destruct (Nat.lt_ge_cases (fst (sp_off x)) (units s)) as [Hlt|Hge].
  - rewrite base_numbered by (rewrite ?valid_unit_sizes by exact Hv; [apply unit_sizes_pos || exact Hlt..]). cbn [bind]. rewrite IH; [reflexivity|]. inversion H as [? ? Hx|? ? Hx]; subst; [lia | exact Hx].
  - rewrite base_past by (rewrite valid_unit_sizes by exact Hv; exact Hge). reflexivity.
Qed.

(** *** The words of a text are determined and exist *)
Lemma units_split x y x' y' : x ++ y = x' ++ y' -> units x = units x' -> x = x' /\ y = y'.
Proof.
  revert x'. induction x as [|c x IH]; intros [|c' x'] H Hu.
  - split; [reflexivity | exact H].
  - exfalso. symmetry in Hu. change (units []) with 0 in Hu. apply units_0 in Hu. discriminate.
  - exfalso. change (units []) with 0 in Hu. apply units_0 in Hu. discriminate.
  - cbn [app] in H. injection H as -> H. change (c' :: x) with ([c'] ++ x) in Hu. change (c' :: x') with ([c'] ++ x') in Hu. rewrite !units_app in Hu. destruct (IH x' H ltac:(lia)) as [-> ->]. split; reflexivity.
Qed.
Lemma units_pos x : x <> [] -> 0 < units x.
Proof. intros H. pose proof (proj1 (units_0 x)). destruct (units x); [exfalso; auto | lia]. Qed.
Lemma divided_fun pos x ms segs : divided pos x ms segs -> forall segs', divided pos x ms segs' -> segs' = segs.
Proof.
  induction 1 as [pos|pos x Hx|pos x rest a b ms segs Hx Ha H IH|pos x rest ms segs H IH]; intros segs' H'.
  - remember (@nil N) as u eqn:Eu. inversion H'; subst; congruence.
  - inversion H'; subst; congruence.
  - remember (x ++ rest) as u eqn:Eu. inversion H' as [| |? x' rest' ? ? ? segs1 Hx' Ha' H1|? x' rest' ? segs1 H1]; subst.
    + destruct (units_split x rest x' rest' ltac:(match goal with Q : _ ++ _ = _ ++ _ |- _ => exact (eq_sym Q) end) ltac:(lia)) as [-> ->]. f_equal. apply IH. assumption.
    + exfalso. apply units_pos in Hx. lia.
  - remember (x ++ rest) as u eqn:Eu. inversion H' as [| |? x' rest' ? ? ? segs1 Hx' Ha' H1|? x' rest' ? segs1 H1]; subst.
    + exfalso. apply units_pos in Hx'. lia.
    + destruct (units_split x rest x' rest' ltac:(match goal with Q : _ ++ _ = _ ++ _ |- _ => exact (eq_sym Q) end) ltac:(lia)) as [-> ->]. f_equal. apply IH. assumption.
Qed.
Lemma each_fun (R : nat * wstr -> list (nat * wstr) -> Prop) : (forall p a b, R p a -> R p b -> a = b) -> forall l a b, each R l a -> each R l b -> a = b.
Proof.
  intros HR l a b (o1 & H1 & ->) (o2 & H2 & ->). f_equal. revert o2 H2. induction H1 as [|p ps l out Hp _ IH]; intros o2 H2; inversion H2 as [|? ? ? ? Hp' H']; subst; [reflexivity|]. f_equal; [eapply HR; eassumption | apply IH; assumption].
Qed.
Lemma cuts_fun E : forall t l a b, cuts_into E t l a -> cuts_into E t l b -> a = b.
Proof.
  fix IH 1. intros [|pat bh iv|aps rx|ts] l a b HA HB; cbn [cuts_into] in *.
  - eapply each_fun; [|exact HA | exact HB]. intros p x y Hx Hy. exact (bert_split_fun _ _ _ _ _ Hx _ Hy).
  - eapply each_fun; [|exact HA | exact HB]. intros p x y (ms & sg & M1 & M2 & ->) (ms' & sg' & M1' & M2' & ->). assert (ms' = ms) by congruence. subst ms'. rewrite (divided_fun _ _ _ _ M2 _ M2'). reflexivity.
  - destruct aps; [contradiction|]. eapply each_fun; [|exact HA | exact HB]. intros p x y (_ & q & Q1 & ->) (_ & q' & Q1' & ->). rewrite (pieces_once _ _ _ _ Q1 Q1'). reflexivity.
  - revert l HA HB. induction ts as [|q ts IHs]; intros l HA HB; [congruence|]. destruct HA as (m & M1 & M2). destruct HB as (m' & M1' & M2'). rewrite <- (IH q l m m' M1 M1') in M2'. eapply IHs; eassumption.
Qed.
Lemma prefix_of h : forall x pre post, h ++ x = pre ++ post -> units h <= units pre -> exists y, pre = h ++ y /\ x = y ++ post.
Proof.
  induction h as [|c h IH]; intros x pre post H Hu; [exists pre; split; [reflexivity | exact H]|]. destruct pre as [|c' pre].
  - change (units []) with 0 in Hu. pose proof (units_pos (c :: h) ltac:(discriminate)). lia.
  - cbn [app] in H. injection H as -> H. change (c' :: h) with ([c'] ++ h) in Hu. change (c' :: pre) with ([c'] ++ pre) in Hu. rewrite !units_app in Hu. destruct (IH x pre post H ltac:(lia)) as (y & -> & ->). exists y. split; reflexivity.
Qed.
Lemma divided_total cs : forall ms h x, cs = h ++ x -> ordered (units h) (units cs) ms -> Forall (fun m => PreProofs.cut cs (fst m) /\ PreProofs.cut cs (snd m)) ms -> exists segs, divided (units h) x ms segs.
Proof.
  induction ms as [|[a b] ms IH]; intros h x Ex Ho Hc.
  - destruct x as [|c x]; eexists; [constructor | constructor; discriminate].
  - cbn [ordered] in Ho. destruct Ho as (O1 & O2 & O3 & O4). destruct (Forall_inv Hc) as [(pa & qa & C1 & Ca) (pb & qb & C2 & Cb)]. pose proof (Forall_inv_tail Hc) as C3. clear Hc. cbn [fst snd] in Ca, Cb. subst a. subst b. cbn [fst snd] in *.
    assert (K : forall h x, cs = h ++ x -> units h = units pa -> exists segs, divided (units pa) x ((units pa, units pb) :: ms) segs).
    { intros h' x' E' U'. destruct (prefix_of h' x' pb qb ltac:(congruence) ltac:(lia)) as (y & Ey & ->). destruct (IH pb qb C2 O4 C3) as (segs & Hs). rewrite Ey, units_app, U' in Hs |- *. eexists. apply dv_match. exact Hs. }
    destruct (prefix_of h x pa qa ltac:(congruence) O1) as (y & Ey & ->). destruct (K pa qa C1 eq_refl) as (segs & Hs). destruct y as [|c y].
    + rewrite app_nil_r in Ey. subst pa. exists segs. exact Hs.
    + eexists. apply dv_gap; [discriminate | rewrite Ey, units_app; reflexivity | exact Hs].
Qed.
Lemma each_total (R : nat * wstr -> list (nat * wstr) -> Prop) l : Forall (fun p => exists ps, R p ps) l -> exists l', each R l l'.
Proof.
  intros H. assert (K : exists out, Forall2 R l out) by (induction H as [|p l (ps & Hp) _ (out & Ho)]; [exists []; constructor | exists (ps :: out); constructor; assumption]).
  destruct K as (out & Ho). exists (concat out), out. auto.
Qed.
Lemma split_word_total E pat b p : forallb valid_cp (snd p) = true -> engine_ok E pat (flat_map utf16_enc (snd p)) -> exists ps, split_word E pat b p ps.
Proof.
  destruct p as [pos x]. cbn [snd]. intros Hv (ms & M1 & M2 & M3). change (length (flat_map utf16_enc x)) with (units x) in M2.
  assert (HC : Forall (fun m => PreProofs.cut x (fst m) /\ PreProofs.cut x (snd m)) ms).
  { assert (HO : forall c, ordered c (units x) ms -> Forall (fun m => fst m <= units x /\ snd m <= units x) ms).
    { clear. induction ms as [|[a b] ms IH]; intros c H; constructor; cbn [ordered fst snd] in *; [lia | eapply IH; apply H]. }
    specialize (HO 0 M2). clear - HO M3 Hv. induction M3 as [|m ms [A B] _ IH]; inversion HO as [|? ? [O1 O2] O3]; subst; constructor; [|apply IH; exact O3]. split; apply boundary_cut; assumption. }
  destruct (divided_total x ms [] x eq_refl M2 HC) as (segs & Hs). eexists. exists ms, segs. cbn [fst snd]. split; [exact M1|]. split; [exact Hs | reflexivity].
Qed.
Lemma apos_total cs : exists l, apostrophe_pieces cs l.
Proof. eexists. exact (apos_pieces_ok (length cs) cs (le_n _) [] [] (fun H => H)). Qed.
Lemma cuts_valid E t l l' : cuts_into E t l l' -> all_valid l -> all_valid l'.
Proof.
  intros H Hv. assert (K : exists ss, Forall2 holds l ss) by (clear; induction l as [|p l (ss & H)]; [exists []; constructor | exists (mkSplit (utf8_encs (snd p)) (fst p, 0) [] :: ss); constructor; [repeat split | exact H]]).
  destruct K as (ss & K). exact (proj1 (pre_cuts E t l l' (new_nstring []) ss H Hv K)).
Qed.
Lemma cuts_total E : forall t l, cuttable E t -> all_valid l -> exists l', cuts_into E t l l'.
Proof.
  fix IH 1. intros [|pat bh iv|aps rx|ts] l H Hv; cbn [cuts_into cuttable] in *.
  - apply each_total. eapply Forall_impl; [|exact Hv]. intros [pos x] _. apply (bert_split_total (e_u_space E) (e_u_punct E) (length x) x pos (le_n _)).
  - apply each_total. eapply Forall_impl; [|exact Hv]. intros p Hp. apply split_word_total; [exact Hp | apply H; exact Hp].
  - destruct H as [-> Hs]. apply each_total. apply Forall_forall. intros p _. assert (K : exists q, byte_pieces rx (snd p) q) by (destruct rx; cbn [byte_pieces]; [apply apos_total | eauto]). destruct K as (q & K). eexists. split; [left; exact Hs|]. exists q. split; [exact K | reflexivity].
  - revert l H Hv. induction ts as [|q ts IHs]; intros l H Hv; [eauto|]. destruct H as [H1 H2]. destruct (IH q l H1 Hv) as (m & Hm). destruct (IHs m H2 (cuts_valid E q l m Hm Hv)) as (l' & Hl'). exists l', m. auto.
Qed.

(** Every text is cut into its words in exactly one way. *)
Theorem C95_words : forall E pre n, (forall t, pre = Some t -> cuttable E t) -> forallb valid_cp n = true -> exists l, words_of E pre n l /\ forall l', words_of E pre n l' -> l' = l.
Proof.
  intros E [t|] n Ht Hv; cbn [words_of].
  - destruct (cuts_total E t [(0, n)] (Ht t eq_refl)) as (l & Hl); [constructor; [exact Hv | constructor]|]. exists l. split; [exact Hl|]. intros l' Hl'. eapply cuts_fun; eassumption.
  - eexists. split; [reflexivity|]. auto.
Qed.
Print Assumptions C95_words.

(** *** Encoding *)
Lemma wp_rows w ns : forall q out i, all_valid (map (fun p : wstr * (nat * nat) => (fst (snd p), fst p)) q) ->
  Forall2 (fun s s' => sp_text s' = sp_text s /\ sp_off s' = sp_off s /\ wp_word w (sp_text s) = Ok (sp_tokens s')) (map (fun p => mkSplit (utf8_encs (fst p)) (snd p) []) q) out ->
  (forall x o ts, In (x, o) q -> split_base ns (mkSplit x o ts) = Ok (fst o)) ->
  exists e, into_rows ns 0 i out = Ok e /\ rows_of_words (word_tokens w) i (map (fun p : wstr * (nat * nat) => (fst (snd p), fst p)) q) (rows e).
Proof.
  induction q as [|[x o] q IH]; intros out i Hv HF HB; cbn [map] in *; inversion HF as [|? s' ? out' (A1 & A2 & A3) HF']; subst; [eexists; split; [reflexivity | constructor]|].
  inversion Hv as [|? ? V1 V2]; subst. cbn [fst snd sp_text sp_off] in *. destruct (IH out' (S i) V2 HF') as (e & E1 & E2); [intros y o' ts Hy; apply HB; right; exact Hy|]. cbn [into_rows].
  assert (Hs : split_base ns s' = Ok (fst o)) by (specialize (HB x o [] (or_introl eq_refl)); unfold split_base in *; cbn [sp_off] in HB; rewrite A2; exact HB).
  rewrite Hs. cbn [bind]. rewrite E1. cbn [bind]. eexists. split; [reflexivity|]. rewrite rows_append by apply split_rows_flat. rewrite split_rows_rows. apply rw_cons; [apply word_tokens_word; assumption | exact E2].
Qed.

(** Whatever cuts the text, a WordPiece tokenizer encodes it word by word: the rows are the tokens of every word in turn, with the words numbered as they were cut and the
    offsets counted from the positions the words were cut at. *)
Theorem C95_reference : forall E fuel t w s n l add, tz_model t = Some (MWordPiece w) -> s <> [] -> forallb valid_cp s = true -> forallb valid_cp n = true -> normalized_in_place E t s n ->
  words_of E (tz_pre t) n l -> Forall (fun p => fst p < units s) l ->
  exists r, snd (encode E fuel (bare t) s add) = Ok r /\ en_overflowing r = [] /\ flat_parallel r /\ rows_of_words (word_tokens w) 0 l (rows r).
Proof.
  intros E fuel t w s n l add Hm Hne Hv Hvn HN HW HP. destruct (prepare_words E t s n l Hne Hv Hvn HN HW) as (A & av & junk & q & Q1 & <-).
  rewrite encode_bare. unfold text_encoding. rewrite Q1. cbn [bind]. rewrite Hm. cbn [model_tokenize snd].
  destruct (wp_tokenize_ok w (mkPt (numbered_ns (unit_sizes s) junk s) (map (fun p => mkSplit (utf8_encs (fst p)) (snd p) []) q))) as (out & Hl & HF). cbn [pt_splits pt_norm] in HF, Hl. rewrite Hl. cbn [bind]. unfold into_encoding. cbn [pt_norm pt_splits].
  destruct (wp_rows w (numbered_ns (unit_sizes s) junk s) q out 0 A HF) as (e & E1 & E2); [intros x o ts Hin; apply (bases s junk q Hv x o ts Hin HP)|].
  exists e. split; [exact E1|]. destruct (into_rows_flat _ _ _ _ _ E1) as [F1 F2]. auto.
Qed.
Print Assumptions C95_reference.
(** A word cut at or past the end of the original text makes encode read outside the alignment table. *)
Theorem C95_past_the_end : forall E fuel t w s n l add, tz_model t = Some (MWordPiece w) -> s <> [] -> forallb valid_cp s = true -> forallb valid_cp n = true -> normalized_in_place E t s n ->
  words_of E (tz_pre t) n l -> Exists (fun p => units s <= fst p) l -> snd (encode E fuel t s add) = Undef OobIndex.
Proof.
  intros E fuel t w s n l add Hm Hne Hv Hvn HN HW HP. destruct (prepare_words E t s n l Hne Hv Hvn HN HW) as (A & av & junk & q & Q1 & <-).
  rewrite encode_stages, encode_bare. unfold text_encoding. rewrite Q1. cbn [bind]. rewrite Hm. cbn [model_tokenize snd].
  destruct (wp_tokenize_ok w (mkPt (numbered_ns (unit_sizes s) junk s) (map (fun p => mkSplit (utf8_encs (fst p)) (snd p) []) q))) as (out & Hl & HF). cbn [pt_splits pt_norm] in HF, Hl. rewrite Hl. cbn [bind]. unfold into_encoding. cbn [pt_norm pt_splits].
  rewrite into_rows_past; [reflexivity | exact Hv|]. clear - HF HP. revert out HF. induction q as [|[x o] q IH]; intros out HF; cbn [map] in *; inversion HF as [|? s' ? out' (A1 & A2 & A3) HF']; subst; inversion HP as [? ? H|? ? H]; subst.
  - left. rewrite A2. exact H.
  - right. apply IH; assumption.
Qed.
Print Assumptions C95_past_the_end.
(** The same for BPE, when every word has something in the vocabulary; and only then. *)
Theorem C95_bpe : forall E fuel t vocab merges d unk pre suf fu bf ig b c s n l add, pq_ok E -> new_bpe vocab merges d unk pre suf fu bf ig = Ok b ->
  tz_model t = Some (MBpe b c) -> reach_cache E b c -> s <> [] -> forallb valid_cp s = true -> forallb valid_cp n = true -> normalized_in_place E t s n ->
  words_of E (tz_pre t) n l ->
  (Forall (fun p => encodable b (snd p)) l -> Forall (fun p => fst p < units s) l ->
     exists r, snd (encode E fuel (bare t) s add) = Ok r /\ en_overflowing r = [] /\ flat_parallel r /\ rows_of_words (bpe_tokens b) 0 l (rows r)) /\
  (Exists (fun p => ~ encodable b (snd p)) l \/ Exists (fun p => units s <= fst p) l -> snd (encode E fuel t s add) = Undef OobIndex).
Proof.
  intros E fuel t vocab merges d unk pre suf fu bf ig b c s n l add Hq Hb Hm Hr Hne Hv Hvn HN HW. destruct (prepare_words E t s n l Hne Hv Hvn HN HW) as (A & av & junk & q & Q1 & <-).
  assert (Hmt : forall p, snd (model_tokenize E (MBpe b c) p) = snd (bpe_tokenize E b c p)) by (intros p; cbn [model_tokenize]; destruct (bpe_tokenize E b c p); reflexivity).
  assert (HT : text_encoding E t s = (l <- plain_words E b (map (fun p => mkSplit (utf8_encs (fst p)) (snd p) []) q) ;; into_rows (numbered_ns (unit_sizes s) junk s) 0 0 l)).
  { unfold text_encoding. rewrite Q1. cbn [bind]. rewrite Hm, Hmt, (proj1 (bpe_tokenize_transparent E b c _ (reach_cache_ok E b c Hr))). cbn [pt_splits pt_norm]. destruct (plain_words E b _); reflexivity. }
  rewrite !Forall_map, !Exists_map. cbn [fst snd]. destruct (words_cases E b vocab merges d unk pre suf fu bf ig Hq Hb q) as [(Hl & out & O1 & O2)|(Hl & O1)]; rewrite O1 in HT; cbn [bind] in HT.
  - split.
    + intros _ HP. rewrite encode_bare, HT. destruct (bpe_into_rows E b (numbered_ns (unit_sizes s) junk s) q out 0 O2) as (e & E1 & E2).
      { apply Forall_forall. intros [x o] Hin tx ts. cbn [fst snd]. pose proof (bases s junk q Hv x o ts Hin) as K. rewrite Forall_map in K. specialize (K HP). unfold split_base in *. exact K. }
      exists e. split; [exact E1|]. destruct (into_rows_flat _ _ _ _ _ E1) as [F1 F2]. split; [exact F2|]. split; [exact F1|]. eapply words_weaken; [|exact E2]. intros [pos x] ts _ Hx. cbn [snd] in *. unfold runs in Hx.
      destruct (word_cases E b vocab merges d unk pre suf fu bf ig Hq Hb x) as [(_ & ts' & T1 & T2)|(_ & T1)]; [|congruence]. assert (ts' = ts) by congruence. subst ts'. exact T2.
    + intros [HX|HX].
      * exfalso. revert HX. apply Forall_Exists_neg. eapply Forall_impl; [|exact Hl]. cbn. auto.
      * rewrite encode_stages, encode_bare, HT, into_rows_past; [reflexivity | exact Hv|]. clear - O2 HX. induction O2 as [|p s' q out' [A1 A2] _ IH]; [inversion HX|]. inversion HX as [? ? H|? ? H]; subst; [left; rewrite A1; exact H | right; apply IH; exact H].
  - split; [intros HX; contradiction|]. intros _. rewrite encode_stages, encode_bare, HT. reflexivity.
Qed.
Print Assumptions C95_bpe.

(** *** When all words are inside the text *)
Definition in_text (n : wstr) (p : nat * wstr) : Prop := snd p <> [] /\ exists a z, n = a ++ snd p ++ z /\ fst p = units a.
Lemma each_in (R : nat * wstr -> list (nat * wstr) -> Prop) n : (forall p ps, R p ps -> snd p <> [] -> Forall (fun q => exists d, fst q = fst p + d /\ in_text (snd p) (d, snd q)) ps) ->
  forall l l', each R l l' -> Forall (in_text n) l -> Forall (in_text n) l'.
Proof.
  intros HR l l' (out & HO & ->) H. induction HO as [|p ps l out Hp _ IH]; [constructor|]. destruct (Forall_inv H) as (H1 & a & z & H2 & H3). pose proof (Forall_inv_tail H) as H4. cbn [concat]. apply Forall_app. split; [|apply IH; exact H4].
  eapply Forall_impl; [|exact (HR p ps Hp H1)]. intros [qp qx] (d & Hd & Hx & a' & z' & E1 & E2). cbn [fst snd] in *. split; [exact Hx|]. exists (a ++ a'), (z' ++ z). cbn [fst snd]. split; [rewrite H2, E1, <- !app_assoc; reflexivity|]. rewrite units_app. lia.
Qed.
Lemma bert_split_in sp pu pos s l : bert_split sp pu pos s l -> forall h, units h = pos -> Forall (in_text (h ++ s)) l.
Proof.
  induction 1 as [pos|pos c s l Hs H IH|pos c s l Hs Hp H IH|pos x s l Hx HF Hm H IH]; intros h Hh.
  - constructor.
  - specialize (IH (h ++ [c])). rewrite units_app, Hh, <- app_assoc in IH. apply IH. reflexivity.
  - specialize (IH (h ++ [c])). rewrite units_app, Hh, <- app_assoc in IH. constructor; [split; [discriminate|]; exists h, s; cbn [fst snd]; auto | apply IH; reflexivity].
  - specialize (IH (h ++ x)). rewrite units_app, Hh, <- app_assoc in IH. constructor; [split; [exact Hx|]; exists h, s; cbn [fst snd]; auto | apply IH; reflexivity].
Qed.
Lemma divided_in pos x ms segs : divided pos x ms segs -> Forall (fun m => fst m < snd m) ms -> forall h, units h = pos -> Forall (fun q : (nat * wstr) * bool => in_text (h ++ x) (fst q)) segs.
Proof.
  induction 1 as [pos|pos x Hx|pos x rest a b ms segs Hx Ha H IH|pos x rest ms segs H IH]; intros Hm h Hh.
  - constructor.
  - constructor; [|constructor]. split; [exact Hx|]. exists h, []. cbn [fst snd]. rewrite app_nil_r. auto.
  - constructor; [split; [exact Hx|]; exists h, rest; cbn [fst snd]; auto|]. specialize (IH Hm (h ++ x)). rewrite units_app, Hh, <- app_assoc in IH. apply IH. symmetry. exact Ha.
  - inversion Hm as [|? ? Hm1 Hm2]; subst. cbn [fst snd] in Hm1. constructor; [split; [intros E0; cbn [fst snd] in E0; subst x; change (units []) with 0 in Hm1; lia|]; exists h, rest; cbn [fst snd]; auto|]. specialize (IH Hm2 (h ++ x)). rewrite units_app, <- app_assoc in IH. apply IH. reflexivity.
Qed.
Lemma cuts_in E n : forall t l l', keeps_characters E t -> cuts_into E t l l' -> Forall (in_text n) l -> Forall (in_text n) l'.
Proof.
  fix IH 1. intros [|pat bh iv|aps rx|ts] l l' HK HC H; cbn [cuts_into keeps_characters] in *; [| |contradiction|].
  - eapply each_in; [|exact HC | exact H]. intros [pos x] ps Hp _. cbn [fst snd] in *. destruct (bert_split_total (e_u_space E) (e_u_punct E) (length x) x 0 (le_n _)) as (l0 & Hl0). pose proof (bert_split_shift _ _ _ _ _ Hl0 pos) as K. rewrite Nat.add_0_r in K. rewrite (bert_split_fun _ _ _ _ _ Hp _ K).
    apply Forall_map. eapply Forall_impl; [|exact (bert_split_in _ _ _ _ _ Hl0 [] eq_refl)]. intros [d y] Hd. cbn [fst snd app] in *. exists d. auto.
  - eapply each_in; [|exact HC | exact H]. intros [pos x] ps (ms & segs & M1 & M2 & ->) _. cbn [fst snd] in *. apply Forall_map. pose proof (divided_in _ _ _ _ M2 (HK _ _ M1) [] eq_refl) as HD. cbn [app] in HD.
    assert (HD' : Forall (fun q : (nat * wstr) * bool => in_text x (fst q)) (match bh with ISOLATED => segs | REMOVED => filter (fun q => negb (snd q)) segs end)) by (destruct bh; [apply Forall_forall; intros q Hq; apply filter_In in Hq as [Hq _]; exact (proj1 (Forall_forall _ _) HD q Hq) | exact HD]).
    eapply Forall_impl; [|exact HD']. intros [[d y] f] Hd. cbn [fst snd] in *. exists d. auto.
  - revert l HC H. induction ts as [|q ts IHs]; intros l HC H; [subst l'; exact H|]. destruct HK as [K1 K2]. destruct HC as (m & M1 & M2). apply (IHs K2 m M2). exact (IH q l m K1 M1 H).
Qed.
(** The words are non-empty parts of the text, at the positions they are cut at, when the pre-tokenizer keeps the characters and no pattern matches the empty string;
    then every text is encoded. *)
Theorem C95_inside : forall E pre n l, n <> [] -> (forall t, pre = Some t -> keeps_characters E t) -> words_of E pre n l ->
  Forall (fun p => snd p <> [] /\ fst p < units n /\ exists a z, n = a ++ snd p ++ z /\ fst p = units a) l.
Proof.
  intros E pre n l Hn HK HW. assert (H0 : in_text n (0, n)) by (split; [exact Hn|]; exists [], []; rewrite app_nil_r; split; reflexivity).
  assert (H : Forall (in_text n) l) by (destruct pre as [t|]; cbn [words_of] in HW; [apply (cuts_in E n t [(0, n)] l (HK t eq_refl) HW); constructor; [exact H0 | constructor] | subst l; constructor; [exact H0 | constructor]]).
  eapply Forall_impl; [|exact H]. intros [pos x] (H1 & a & z & H2 & H3). cbn [fst snd] in *. split; [exact H1|]. split; [|eauto]. apply units_pos in H1. rewrite H2, !units_app. lia.
Qed.
Print Assumptions C95_inside.
Theorem C95_total : forall E fuel t w s n add, tz_model t = Some (MWordPiece w) -> s <> [] -> forallb valid_cp s = true -> forallb valid_cp n = true -> normalized_in_place E t s n ->
  (forall p, tz_pre t = Some p -> cuttable E p /\ keeps_characters E p) -> exists r, snd (encode E fuel (bare t) s add) = Ok r.
Proof.
  intros E fuel t w s n add Hm Hne Hv Hvn HN Hp. destruct (C95_words E (tz_pre t) n (fun p H => proj1 (Hp p H)) Hvn) as (l & Hl & _).
  assert (Hnn : n <> []) by (destruct HN as (HN & _); unfold normalized_to in HN; destruct (tz_av t); [apply HN | subst n; exact Hne]).
  pose proof (C95_inside E (tz_pre t) n l Hnn (fun p H => proj2 (Hp p H)) Hl) as HI.
  destruct (C95_reference E fuel t w s n l add Hm Hne Hv Hvn HN Hl) as (r & R & _); [|eauto]. destruct HN as (_ & Hu & _). eapply Forall_impl; [|exact HI]. intros [pos x] (_ & H & _). cbn [fst snd] in *. lia.
Qed.
Print Assumptions C95_total.

(** *** Cases *)
(** an engine whose pattern "-" finds the dashes and whose pattern "$" matches the empty string at the end of the text; char is unsigned *)
Fixpoint dashes (i : nat) (u : ustr) : list (nat * nat) := match u with [] => [] | x :: r => (if (x =? 45)%N then [(i, S i)] else []) ++ dashes (S i) r end.
Definition dash_env : env := {|
  e_norm := e_norm test_env; e_is_mn := e_is_mn test_env; e_iswspace := e_iswspace test_env; e_iswcntrl := e_iswcntrl test_env; e_towlower := e_towlower test_env; e_u_space := e_u_space test_env;
  e_u_punct := e_u_punct test_env; e_icu_matches := fun p u => if leqb p (str "-") then Some (dashes 0 u) else Some [(length u, length u)]; e_wregex_ok := e_wregex_ok test_env; e_wregex_next := e_wregex_next test_env;
  e_inplace := true; e_char_signed := false; e_draw := e_draw test_env; e_pq := e_pq test_env |}.
Definition cut_wp : wordpiece := mkWp [(str "it", 1%Z); (str "'s", 2%Z); (str "on", 3%Z); (str "##n", 4%Z); (str "o", 5%Z); (str "[UNK]", 0%Z)] (str "[UNK]") 100%Z (str "##").
Definition cutter (p : pre_tokenizer) : tokenizer := mkTz None None None None (Some p) (Some (MWordPiece cut_wp)) None None.
Definition dash_bytes : pre_tokenizer := TSequence [TSplit (str "-") REMOVED false; TByteLevel false true].
Example C95_case : words_of dash_env (Some dash_bytes) (str "it's-on") [(0, str "it"); (2, str "'s"); (5, str "on")] /\
  (exists r, snd (encode dash_env 0 (bare (cutter dash_bytes)) (str "it's-on") true) = Ok r /\ en_ids r = [1; 2; 3]%Z /\ en_words r = [Some 0; Some 1; Some 2] /\ en_offsets r = [(0, 2); (2, 4); (5, 7)]) /\
  normalized_in_place dash_env (cutter dash_bytes) (str "it's-on") (str "it's-on").
Proof.
  split; [|split; [eexists; split; [vm_compute; reflexivity | repeat split] | split; [reflexivity | split; [apply le_n | discriminate]]]].
  cbn [words_of dash_bytes cuts_into]. exists [(0, str "it's"); (5, str "on")]. split.
  - exists [[(0, str "it's"); (5, str "on")]]. split; [|reflexivity]. constructor; [|constructor]. exists [(4, 5)], [((0, str "it's"), false); ((4, str "-"), true); ((5, str "on"), false)]. split; [reflexivity|]. split; [|reflexivity].
    apply (dv_gap 0 (str "it's") (str "-on") 4 5); [discriminate | reflexivity|]. apply (dv_match 4 (str "-") (str "on")). apply dv_rest. discriminate.
  - eexists. split; [|reflexivity]. exists [[(0, str "it"); (2, str "'s")]; [(5, str "on")]]. split; [|reflexivity]. constructor; [|constructor; [|constructor]].
    + split; [left; reflexivity|]. exists [str "it"; str "'s"]. split; [exact (apos_pieces_ok 4 (str "it's") (le_n _) [] [] (fun H => H)) | vm_compute; reflexivity].
    + split; [left; reflexivity|]. exists [str "on"]. split; [exact (apos_pieces_ok 2 (str "on") (le_n _) [] [] (fun H => H)) | vm_compute; reflexivity].
Qed.
(** ByteLevel first: the é has become two characters, so that the exclamation mark is cut at position 2 of a text of two units. *)
Definition bytes_then_bert : pre_tokenizer := TSequence [TByteLevel false true; TBert].
Example C95_past_case : words_of dash_env (Some bytes_then_bert) [0xE9; 33]%N [(0, [0xC3; 0xA9]%N); (2, str "!")] /\ units [0xE9; 33]%N = 2 /\ snd (encode dash_env 0 (cutter bytes_then_bert) [0xE9; 33]%N true) = Undef OobIndex.
Proof.
  split; [|split; vm_compute; reflexivity]. cbn [words_of bytes_then_bert cuts_into]. exists [(0, [0xC3; 0xA9; 33]%N)]. split.
  - exists [[(0, [0xC3; 0xA9; 33]%N)]]. split; [|reflexivity]. constructor; [|constructor]. split; [left; reflexivity|]. exists [[0xE9; 33]%N]. split; [exact (apos_pieces_ok 2 [0xE9; 33]%N (le_n _) [] [] (fun H => H)) | vm_compute; reflexivity].
  - eexists. split; [|reflexivity]. exists [[(0, [0xC3; 0xA9]%N); (2, str "!")]]. split; [|reflexivity]. constructor; [|constructor]. cbn [fst snd].
    apply (bs_word _ _ 0 [0xC3; 0xA9]%N [33%N]); [discriminate | repeat constructor | right; reflexivity|]. apply bs_punct; [reflexivity | reflexivity|]. constructor.
Qed.
(** A pattern that matches the empty string at the end of the text cuts an empty word there. *)
Example C95_empty_case : words_of dash_env (Some (TSplit (str "$") ISOLATED false)) (str "it") [(0, str "it"); (2, [])] /\ snd (encode dash_env 0 (cutter (TSplit (str "$") ISOLATED false)) (str "it") true) = Undef OobIndex.
Proof.
  split; [|vm_compute; reflexivity]. exists [[(0, str "it"); (2, [])]]. split; [|reflexivity]. constructor; [|constructor]. exists [(2, 2)], [((0, str "it"), false); ((2, []), true)]. split; [reflexivity|]. split; [|reflexivity].
  apply (dv_gap 0 (str "it") [] 2 2); [discriminate | reflexivity|]. apply (dv_match 2 [] []). constructor.
Qed.
Lemma dashes_ok : forall cs h, forallb valid_cp cs = true -> ordered (units h) (units (h ++ cs)) (dashes (units h) (flat_map utf16_enc cs)) /\
  Forall (fun m => (PreProofs.cut (h ++ cs) (fst m) /\ PreProofs.cut (h ++ cs) (snd m)) /\ fst m < snd m) (dashes (units h) (flat_map utf16_enc cs)).
Proof.
  induction cs as [|c cs IH]; intros h Hv; [cbn [flat_map dashes ordered]; rewrite app_nil_r; split; [apply le_n | constructor]|]. cbn [forallb] in Hv. apply andb_prop in Hv as [Hc Hv]. destruct (IH (h ++ [c]) Hv) as [I1 I2]. rewrite <- app_assoc, units_app in I1, I2. cbn [app] in I1, I2.
  assert (W : forall a b len l, a <= b -> ordered b len l -> ordered a len l) by (intros a b len [|[x y] l] Hab H; cbn [ordered] in *; [lia | destruct H as (? & ? & ? & ?); split; [lia | auto]]).
  destruct (N.eqb_spec c 45) as [->|Hn].
  - cbn [flat_map]. change (utf16_enc 45) with [45%N]. cbn [app dashes]. change (45 =? 45)%N with true. cbn [app ordered]. change (units [45%N]) with 1 in I1, I2. rewrite Nat.add_1_r in I1, I2. split; [rewrite units_app; change (45%N :: cs) with ([45%N] ++ cs); rewrite units_app; change (units [45%N]) with 1; repeat split; try lia; rewrite units_app in I1; change (45%N :: cs) with ([45%N] ++ cs) in I1; rewrite units_app in I1; exact I1|].
    constructor; [|exact I2]. cbn [fst snd]. split; [|lia]. split; [exists h, (45%N :: cs); auto|]. exists (h ++ [45%N]), cs. rewrite <- app_assoc. split; [reflexivity|]. rewrite units_app. change (units [45%N]) with 1. lia.
  - assert (Ed : dashes (units h) (flat_map utf16_enc (c :: cs)) = dashes (units h + units [c]) (flat_map utf16_enc cs)).
    { cbn [flat_map]. unfold units at 3. cbn [flat_map]. rewrite app_nil_r. unfold utf16_enc. apply valid_cp_spec in Hc. destruct (N.ltb_spec c 65536).
      - cbn [app dashes length]. replace (c =? 45)%N with false by lia. cbn [app]. rewrite Nat.add_1_r. reflexivity.
      - cbn [app dashes length]. repeat match goal with |- context [(?x =? 45)%N] => replace (x =? 45)%N with false by lia end. cbn [app]. replace (units h + 2) with (S (S (units h))) by lia. reflexivity. }
    rewrite Ed. split; [eapply W; [|exact I1]; lia | exact I2].
Qed.
Lemma dashes_nonempty u : forall i, Forall (fun m => fst m < snd m) (dashes i u).
Proof. induction u as [|x u IH]; intros i; [constructor|]. cbn [dashes]. destruct (x =? 45)%N; cbn [app]; [constructor; [cbn [fst snd]; lia | apply IH] | apply IH]. Qed.
Example C95_total_case : cuttable dash_env dash_bytes /\ cuttable dash_env (TSequence [TSplit (str "-") ISOLATED false; TBert]) /\ keeps_characters dash_env (TSequence [TSplit (str "-") ISOLATED false; TBert]).
Proof.
  assert (K : forall cs, forallb valid_cp cs = true -> engine_ok dash_env (str "-") (flat_map utf16_enc cs)).
  { intros cs Hv. destruct (dashes_ok cs [] Hv) as [D1 D2]. exists (dashes 0 (flat_map utf16_enc cs)). split; [reflexivity|]. split; [exact D1|]. eapply Forall_impl; [|exact D2]. intros m [[C1 C2] _]. split; apply cut_boundary; assumption. }
  cbn [cuttable keeps_characters dash_bytes]. split; [|split]; (split; [|repeat split]); try exact K. intros cs ms H. injection H as <-. apply dashes_nonempty.
Qed.
Definition cut_bpe : tokenizer := mkTz None None None None (Some (TSplit (str "-") REMOVED false)) (Some (MBpe (abt_bpe []) [])) None None.
Example C95_bpe_case : words_of dash_env (tz_pre cut_bpe) (str "ab-b") [(0, str "ab"); (3, str "b")] /\ Forall (fun p => encodable (abt_bpe []) (snd p)) [(0, str "ab"); (3, str "b")] /\ pq_ok dash_env /\
  (exists r, snd (encode dash_env 0 (bare cut_bpe) (str "ab-b") true) = Ok r /\ en_ids r = [2; 1]%Z /\ en_offsets r = [(0, 2); (3, 4)]) /\
  ~ encodable (abt_bpe []) (str "x") /\ snd (encode dash_env 0 cut_bpe (str "ab-x") true) = Undef OobIndex.
Proof.
  split; [|split; [|split; [exact test_env_pq|split; [eexists; split; [vm_compute; reflexivity | repeat split]|split; [|vm_compute; reflexivity]]]]].
  - exists [[(0, str "ab"); (3, str "b")]]. split; [|reflexivity]. constructor; [|constructor]. exists [(2, 3)], [((0, str "ab"), false); ((2, str "-"), true); ((3, str "b"), false)]. split; [reflexivity|]. split; [|reflexivity].
    apply (dv_gap 0 (str "ab") (str "-b") 2 3); [discriminate | reflexivity|]. apply (dv_match 2 (str "-") (str "b")). apply dv_rest. discriminate.
  - repeat (apply Forall_cons; [right; vm_compute; lia|]). apply Forall_nil.
  - intros [(i & H & _)|H]; [discriminate H | vm_compute in H; lia].
Qed.
