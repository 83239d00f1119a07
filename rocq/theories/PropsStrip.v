(** C111: tokenizers whose normalizer leaves the alignment table alone. *)
Require Import Coq.Lists.List Coq.ZArith.ZArith Coq.NArith.NArith Coq.Bool.Bool Coq.Arith.Arith Coq.micromega.Lia.
From Verif Require Import Base Unicode UnicodeProofs Common Utils Normalizer PreTokenizer WordPiece Bpe AddedVocab Tokenizer Env BaseFacts Spec NormSpec NormProofs PropsNorm PreSpec PreProofs AvSpec AvProofs ExtractProofs TzSpec TzProofs
  OffSpec OffProofs RefSpec RefProofs PropsReference BpeRefSpec CutSpec PropsCut PropsAccent DropSpec PropsDeleted StripSpec PropsEncode.
Import ListNotations.
Local Open Scope nat_scope.

(** *** The same pieces give the same encoding *)
(** Pieces with the same text, start and tokens. *)
Definition same_piece (a b : split) : Prop := sp_text a = sp_text b /\ fst (sp_off a) = fst (sp_off b) /\ sp_tokens a = sp_tokens b.
Definition same_pieces (a b : res (list split)) : Prop :=
  match a, b with Ok l, Ok l' => Forall2 same_piece l l' | Throw e, Throw e' => e = e' | Undef u, Undef u' => u = u' | Diverge, Diverge => True | _, _ => False end.
Lemma wp_same w l l' : Forall2 same_piece l l' ->
  same_pieces (mapM (fun s => ts <- wp_word w (sp_text s) ;; Ok (mkSplit (sp_text s) (sp_off s) ts)) l) (mapM (fun s => ts <- wp_word w (sp_text s) ;; Ok (mkSplit (sp_text s) (sp_off s) ts)) l').
Proof.
  induction 1 as [|a b l l' (H1 & H2 & H3) _ IH]; [constructor|]. cbn [mapM]. rewrite <- H1. destruct (wp_word w (sp_text a)) as [ts| | |]; cbn [bind]; try reflexivity; try exact I.
  destruct (mapM _ l) as [x| | |], (mapM _ l') as [y| | |]; cbn [same_pieces] in IH; try contradiction; cbn [bind same_pieces]; auto. constructor; [|exact IH]. split; [reflexivity|]. split; [exact H2 | reflexivity].
Qed.
Lemma bpe_same E b : forall l l' c, Forall2 same_piece l l' -> same_pieces (snd (bpe_splits E b c l)) (snd (bpe_splits E b c l')).
Proof.
  intros l l' c H. revert c. induction H as [|a x l l' (H1 & H2 & H3) _ IH]; intros c; [constructor|]. cbn [bpe_splits]. rewrite <- H1. destruct (bpe_word E b c (sp_text a)) as [c' [ts| | |]]; try reflexivity.
  specialize (IH c'). destruct (bpe_splits E b c' l) as [c1 r1], (bpe_splits E b c' l') as [c2 r2]. cbn [snd] in *. destruct r1, r2; cbn [same_pieces] in IH; try contradiction; cbn [bind same_pieces]; auto. constructor; [|exact IH]. split; [reflexivity|]. split; [exact H2 | reflexivity].
Qed.
Lemma model_same E m ns ns' l l' : Forall2 same_piece l l' ->
  same_pieces (p <- snd (model_tokenize E m (mkPt ns l)) ;; Ok (pt_splits p)) (p <- snd (model_tokenize E m (mkPt ns' l')) ;; Ok (pt_splits p)) /\
  (forall p, snd (model_tokenize E m (mkPt ns l)) = Ok p -> pt_norm p = ns) /\ (forall p, snd (model_tokenize E m (mkPt ns' l')) = Ok p -> pt_norm p = ns').
Proof.
  intros H. destruct m as [w|b c]; cbn [model_tokenize].
  - unfold wp_tokenize. cbn [pt_splits pt_norm snd]. pose proof (wp_same w l l' H) as K. destruct (mapM _ l), (mapM _ l'); cbn [same_pieces] in K; try contradiction; cbn [bind]; (split; [exact K|]); (split; [intros p Hp | intros p Hp]); try discriminate; injection Hp as <-; reflexivity.
  - unfold bpe_tokenize. cbn [pt_splits pt_norm]. pose proof (bpe_same E b l l' c H) as K. destruct (bpe_splits E b c l) as [c1 r1], (bpe_splits E b c l') as [c2 r2]. cbn [snd] in *.
    destruct r1, r2; cbn [same_pieces] in K; try contradiction; cbn [bind]; (split; [exact K|]); (split; [intros p Hp | intros p Hp]); try discriminate; injection Hp as <-; reflexivity.
Qed.
Lemma into_same ns ns' l l' : Forall2 same_piece l l' -> (forall a, In a l -> split_base ns a = Ok (fst (sp_off a))) -> (forall a, In a l' -> split_base ns' a = Ok (fst (sp_off a))) ->
  forall i, into_rows ns 0 i l = into_rows ns' 0 i l'.
Proof.
  induction 1 as [|a b l l' (H1 & H2 & H3) _ IH]; intros B1 B2 i; [reflexivity|]. cbn [into_rows]. rewrite (B1 a) by (left; reflexivity). rewrite (B2 b) by (left; reflexivity). rewrite H2. cbn [bind].
  rewrite (IH (fun a H => B1 a (or_intror H)) (fun a H => B2 a (or_intror H)) (S i)). rewrite H3. reflexivity.
Qed.
Lemma starts_kept l l' : Forall2 same_piece l l' -> forall (P : nat -> Prop), Forall (fun a => P (fst (sp_off a))) l -> Forall (fun a => P (fst (sp_off a))) l'.
Proof. induction 1 as [|a b l l' (_ & H & _) _ IH]; intros P HF; [constructor|]. inversion HF; subst. constructor; [rewrite <- H; assumption | apply IH; assumption]. Qed.
(** the model does not move pieces *)
Lemma same_refl l : Forall2 same_piece l l.
Proof. induction l; constructor; [repeat split | assumption]. Qed.
Lemma model_starts E m ns l p (P : nat -> Prop) : snd (model_tokenize E m (mkPt ns l)) = Ok p -> Forall (fun a => P (fst (sp_off a))) l -> Forall (fun a => P (fst (sp_off a))) (pt_splits p).
Proof.
  intros H HF. destruct m as [w|b c]; cbn [model_tokenize] in H.
  - unfold wp_tokenize in H. cbn [pt_splits pt_norm snd] in H. destruct (mapM _ l) as [out| | |] eqn:EM; cbn [bind] in H; try discriminate. injection H as <-. cbn [pt_splits]. revert out EM. induction HF as [|a l Ha _ IH]; intros out EM; cbn [mapM] in EM; [injection EM as <-; constructor|].
    destruct (wp_word w (sp_text a)); cbn [bind] in EM; try discriminate. destruct (mapM _ l) as [o| | |]; cbn [bind] in EM; try discriminate. injection EM as <-. constructor; [exact Ha | apply IH; reflexivity].
  - unfold bpe_tokenize in H. cbn [pt_splits pt_norm] in H. destruct (bpe_splits E b c l) as [c1 r1] eqn:EM. cbn [snd] in H. destruct r1 as [out| | |]; cbn [bind] in H; try discriminate. injection H as <-. cbn [pt_splits]. revert c c1 out EM. induction HF as [|a l Ha _ IH]; intros c c1 out EM; cbn [bpe_splits] in EM; [injection EM as <- <-; constructor|].
    destruct (bpe_word E b c (sp_text a)) as [c' [ts| | |]]; try discriminate. destruct (bpe_splits E b c' l) as [c2 r2] eqn:E2. destruct r2 as [o| | |]; cbn [bind] in EM; try discriminate. injection EM as <- <-. constructor; [exact Ha | eapply IH; exact E2].
Qed.

(** ** C111 *)
(** When the normalizer works in place, the encoding is a function of the normalized text: two texts with the same normalized text have the same encoding, offsets included, whatever
    the model, truncation, post-processing and padding (as long as no word is cut past the end of either text). *)
Theorem C111_same : forall E fuel t s s' n l add, s <> [] -> s' <> [] -> forallb valid_cp s = true -> forallb valid_cp s' = true -> forallb valid_cp n = true ->
  normalized_in_place E t s n -> normalized_in_place E t s' n -> words_of E (tz_pre t) n l -> Forall (fun p => fst p < units s) l -> Forall (fun p => fst p < units s') l ->
  snd (encode E fuel t s add) = snd (encode E fuel t s' add).
Proof.
  intros E fuel t s s' n l add Hs Hs' Hv Hv' Hvn HN HN' HW HP HP'. rewrite (encode_stages E fuel t s), (encode_stages E fuel t s'), !encode_bare. assert (HX : text_encoding E t s = text_encoding E t s'); [|rewrite HX; reflexivity]. unfold text_encoding.
  destruct (prepare_words E t s n l Hs Hv Hvn HN HW) as (_ & av & junk & q & Q1 & Q2). destruct (prepare_words E t s' n l Hs' Hv' Hvn HN' HW) as (_ & av' & junk' & q' & Q1' & Q2'). rewrite Q1, Q1'. cbn [bind].
  set (ns := numbered_ns (unit_sizes s) junk s) in *. set (ns' := numbered_ns (unit_sizes s') junk' s') in *.
  assert (HS : Forall2 same_piece (map (fun p => mkSplit (utf8_encs (fst p)) (snd p) []) q) (map (fun p => mkSplit (utf8_encs (fst p)) (snd p) []) q')).
  { rewrite <- Q2' in Q2. clear - Q2. revert q' Q2. induction q as [|[x o] q IH]; intros [|[x' o'] q'] Q; cbn [map] in *; try discriminate; constructor.
    - cbn [fst snd] in Q. injection Q as Qa Qb Qc. subst x'. repeat split. exact Qa.
    - apply IH. injection Q. auto. }
  assert (B : forall s q junk, forallb valid_cp s = true -> map (fun p : wstr * (nat * nat) => (fst (snd p), fst p)) q = l -> Forall (fun p => fst p < units s) l ->
    Forall (fun a => fst (sp_off a) < units s) (map (fun p => mkSplit (utf8_encs (fst p)) (snd p) []) q) /\ forall a, fst (sp_off a) < units s -> split_base (numbered_ns (unit_sizes s) junk s) a = Ok (fst (sp_off a))).
  { clear. intros s q junk Hv <- HF. split.
    - apply Forall_map. rewrite Forall_map in HF. exact HF.
    - intros a Ha. apply base_numbered; [apply unit_sizes_pos|]. rewrite valid_unit_sizes by exact Hv. exact Ha. }
  destruct (B s q junk Hv Q2 HP) as [B1 B2]. destruct (B s' q' junk' Hv' Q2' HP') as [B1' B2']. clear B.
  destruct (tz_model t) as [m|].
  - destruct (model_same E m ns ns' _ _ HS) as (K & K1 & K2). pose proof (model_starts E m ns (map (fun p => mkSplit (utf8_encs (fst p)) (snd p) []) q)) as M1. pose proof (model_starts E m ns' (map (fun p => mkSplit (utf8_encs (fst p)) (snd p) []) q')) as M2.
    destruct (snd (model_tokenize E m (mkPt ns _))) as [p1| | |], (snd (model_tokenize E m (mkPt ns' _))) as [p2| | |]; cbn [bind same_pieces] in *; try contradiction; try congruence.
    unfold into_encoding. rewrite (K1 p1 eq_refl), (K2 p2 eq_refl). apply into_same; [exact K| |].
    + specialize (M1 p1 (fun x => x < units s) eq_refl B1). intros a Ha. apply B2. exact (proj1 (Forall_forall _ _) M1 a Ha).
    + specialize (M2 p2 (fun x => x < units s') eq_refl B1'). intros a Ha. apply B2'. exact (proj1 (Forall_forall _ _) M2 a Ha).
  - cbn [bind]. unfold into_encoding. cbn [pt_norm pt_splits]. apply into_same; [exact HS| |].
    + intros a Ha. apply B2. exact (proj1 (Forall_forall _ _) B1 a Ha).
    + intros a Ha. apply B2'. exact (proj1 (Forall_forall _ _) B1' a Ha).
Qed.
Print Assumptions C111_same.

Lemma drop_all f l r : Forall (fun c => f c = true) l -> drop_while f (l ++ r) = drop_while f r.
Proof. induction 1 as [|c l H _ IH]; [reflexivity|]. cbn [app drop_while]. rewrite H. exact IH. Qed.
Lemma stripped_is f lft rgt s o : stripped f lft rgt s o -> o = (let t1 := if lft then drop_while f s else s in if rgt then rev (drop_while f (rev t1)) else t1).
Proof.
  intros (pre & post & -> & H1 & H2 & H3 & H4 & H5 & H6). cbv zeta.
  assert (HT : forall r, (rgt = true -> r = post) -> (rgt = false -> r = []) -> Forall (fun c => f c = true) r -> (if rgt then rev (drop_while f (rev (o ++ r))) else o ++ r) = o).
  { intros r R1 R2 R3. destruct rgt.
    - rewrite rev_app_distr, drop_all by (apply Forall_rev; exact R3). specialize (H6 eq_refl). rewrite <- (rev_involutive o) at 2. f_equal. destruct (rev o) as [|c x]; [reflexivity|]. cbn [drop_while]. rewrite H6. reflexivity.
    - rewrite (R2 eq_refl). apply app_nil_r. }
  destruct lft.
  - rewrite drop_all by exact H1. destruct o as [|c o].
    + cbn [app]. rewrite <- (app_nil_r post), drop_all by exact H2. cbn [drop_while]. destruct rgt; reflexivity.
    + cbn [app drop_while]. rewrite (H5 eq_refl). symmetry. apply (HT post); [auto | exact H4 | exact H2].
  - rewrite (H3 eq_refl). cbn [app]. symmetry. apply (HT post); [auto | exact H4 | exact H2].
Qed.
Lemma stripped_once f lft rgt s a b : stripped f lft rgt s a -> stripped f lft rgt s b -> a = b.
Proof. intros Ha Hb. apply stripped_is in Ha. apply stripped_is in Hb. congruence. Qed.
(** Normalizers that settle the text do leave the table alone, so all of C81-C87, C93-C95, C100 and C109 apply to them. *)
Lemma settled_runs E : forall f s n, settled E f s n -> forall ns, ns_text ns = s -> normalize E f ns = Ok (set_text ns n).
Proof.
  induction 1 as [l r s n H|s|f s Hv H|cl ch st lo s m n Hv Hc Hm HL|s|f l s m n _ IH1 _ IH2]; intros ns Ht.
  - apply (stripped_ext _ strip_space) in H; [|apply Forall_forall; intros c _; symmetry; apply space_byte_ok]. cbn [normalize]. destruct (strip_stripped l r s ns Ht) as (ns' & H1 & H2). rewrite H1. unfold strip_normalize in H1. injection H1 as <-. cbn [set_text ns_text] in H2. f_equal. unfold set_text. f_equal.
    eapply stripped_once; [exact H2 | exact H].
  - cbn [normalize]. unfold strip_accents_normalize. rewrite Ht. reflexivity.
  - cbn [normalize]. unfold normalize_nf. rewrite Ht.
    assert (Hfix : map fix_cp s = s). { rewrite <- (map_id s) at 2. apply map_ext_in. intros x Hx. unfold fix_cp. rewrite (proj1 (forallb_forall _ _) Hv x Hx). reflexivity. }
    rewrite Hfix, H, grow_ids_same. reflexivity.
  - cbn [normalize]. unfold bert_normalize.
    assert (H1 : (if cl then do_clean_text E ns else Ok ns) = Ok (set_text ns m)).
    { destruct cl; subst m; [|rewrite <- Ht; rewrite set_text_same; reflexivity]. rewrite C49_clean_text_aligned by (rewrite Ht; exact (Hc eq_refl)). rewrite Ht. reflexivity. }
    rewrite H1. cbn [bind]. exact (rest_lowered E ch st lo (set_text ns m) m n eq_refl Hv HL).
  - cbn [normalize]. rewrite <- Ht, set_text_same. reflexivity.
  - change (normalize E (NSequence (f :: l)) ns) with (ns' <- normalize E f ns ;; normalize E (NSequence l) ns'). rewrite (IH1 ns Ht). cbn [bind]. rewrite (IH2 (set_text ns m) eq_refl). reflexivity.
Qed.
Theorem C111_in_place : forall E t f s n, tz_norm t = Some f -> settled E f s n -> nothing_added t s n -> n <> [] -> units n <= units s -> normalized_in_place E t s n.
Proof.
  intros E t f s n Hf HS (av & Ha & Hr & Hn) Hne Hu. assert (Ht : ns_text (new_nstring s) = s) by (apply (fresh_packed s)).
  assert (HR : run_norm E (tz_norm t) s = Ok (set_text (new_nstring s) n)) by (rewrite Hf; exact (settled_runs E f s n HS _ Ht)).
  split; [|split; [exact Hu|]].
  - unfold normalized_to. rewrite Ha. split; [exact Hne|]. split; [exists (set_text (new_nstring s) n); split; [exact HR | reflexivity]|]. split; assumption.
  - intros av' sub _ H. rewrite HR in H. injection H as <-. reflexivity.
Qed.
Print Assumptions C111_in_place.

(** Taking characters away does not make a text longer. *)
Lemma units_app x y : units (x ++ y) = units x + units y.
Proof. unfold units. rewrite flat_map_app, app_length. reflexivity. Qed.
Lemma units_filter g s : units (filter g s) <= units s.
Proof. induction s as [|c s IH]; [reflexivity|]. cbn [filter]. change (c :: s) with ([c] ++ s). rewrite units_app. destruct (g c); [change (c :: filter g s) with ([c] ++ filter g s); rewrite units_app; lia | lia]. Qed.
Lemma words_inside E t n u : n <> [] -> forallb valid_cp n = true -> (forall p, tz_pre t = Some p -> cuttable E p /\ keeps_characters E p) -> units n <= u ->
  exists l, words_of E (tz_pre t) n l /\ Forall (fun p => fst p < u) l.
Proof.
  intros Hn Hv Hp Hu. destruct (C95_words E (tz_pre t) n (fun p H => proj1 (Hp p H)) Hv) as (l & HW & _). exists l. split; [exact HW|].
  pose proof (C95_inside E (tz_pre t) n l Hn (fun p H => proj2 (Hp p H)) HW) as HI. eapply Forall_impl; [|exact HI]. cbn beta. intros p (_ & H & _). exact (Nat.lt_le_trans _ _ _ H Hu).
Qed.
(** Two texts that the normalizer settles on the same text are encoded alike, offsets included. *)
Theorem C111_settled : forall E fuel t f s s' n add, tz_norm t = Some f -> (forall p, tz_pre t = Some p -> cuttable E p /\ keeps_characters E p) ->
  forallb valid_cp s = true -> forallb valid_cp s' = true -> forallb valid_cp n = true -> n <> [] ->
  settled E f s n -> settled E f s' n -> nothing_added t s n -> nothing_added t s' n -> units n <= units s -> units n <= units s' ->
  snd (encode E fuel t s add) = snd (encode E fuel t s' add).
Proof.
  intros E fuel t f s s' n add Hf Hp Hv Hv' Hvn Hn HS HS' HA HA' Hu Hu'. destruct (words_inside E t n (Nat.min (units s) (units s')) Hn Hvn Hp) as (l & HW & HP); [lia|].
  assert (Hu0 : 0 < units n) by (destruct n as [|c n]; [congruence|]; change (c :: n) with ([c] ++ n); rewrite units_app; assert (0 < units [c]) by (apply units_pos; discriminate); lia).
  eapply (C111_same E fuel t s s' n l add); try assumption.
  - intros ->. cbn in Hu. lia.
  - intros ->. cbn in Hu'. lia.
  - eapply C111_in_place; eassumption.
  - eapply C111_in_place; eassumption.
  - eapply Forall_impl; [|exact HP]. cbn beta. intros; lia.
  - eapply Forall_impl; [|exact HP]. cbn beta. intros; lia.
Qed.
Print Assumptions C111_settled.
(** White space around the text leaves no trace, not even in the offsets: they index the stripped text. *)
Lemma strips_byte c : strips c -> space_letter (c mod 256) = true.
Proof. rewrite <- space_byte_ok. unfold strips, is_space_byte. intros H. remember (c mod 256)%N as b. destruct H as [-> | H]; [reflexivity|]. destruct (b =? 32)%N; [reflexivity|]. cbn [orb]. lia. Qed.
Theorem C111_strip : forall E fuel t s a b n add, tz_norm t = Some (NStrip true true) -> (forall p, tz_pre t = Some p -> cuttable E p /\ keeps_characters E p) ->
  s = a ++ n ++ b -> Forall strips a -> Forall strips b -> forallb valid_cp s = true -> n <> [] -> ~ strips (hd 0%N n) -> ~ strips (last n 0%N) ->
  nothing_added t s n -> nothing_added t n n ->
  snd (encode E fuel t s add) = snd (encode E fuel t n add).
Proof.
  intros E fuel t s a b n add Hf Hp -> Ha Hb Hv Hn Hh Hl HA HA'.
  assert (HB : forall c, ~ strips c -> space_letter (c mod 256) = false).
  { intros c. rewrite <- space_byte_ok. revert c. unfold strips, is_space_byte. intros c H. remember (c mod 256)%N as x. destruct (x =? 32)%N eqn:E1; [exfalso; apply H; left; lia|]. cbn [orb]. destruct ((9 <=? x) && (x <=? 13))%N eqn:E2; [exfalso; apply H; right; lia | reflexivity]. }
  assert (Hvn : forallb valid_cp n = true) by (rewrite !forallb_app in Hv; apply andb_prop in Hv as [_ Hv]; apply andb_prop in Hv as [Hv _]; exact Hv).
  assert (K : forall x y, Forall strips x -> Forall strips y -> stripped (fun c => space_letter (c mod 256)%N) true true (x ++ n ++ y) n).
  { intros x y Hx Hy. exists x, y. split; [reflexivity|]. split; [eapply Forall_impl; [|exact Hx]; exact strips_byte|]. split; [eapply Forall_impl; [|exact Hy]; exact strips_byte|]. split; [discriminate|]. split; [discriminate|]. split; intros _.
    - destruct n as [|c r]; [exact I|]. apply HB. exact Hh.
    - assert (HL : forall m : list N, match rev m with c :: _ => last m 0%N = c | [] => m = [] end). { intros m. destruct (rev m) as [|c r] eqn:E1; [rewrite <- (rev_involutive m), E1; reflexivity|]. rewrite <- (rev_involutive m), E1. cbn [rev]. apply last_last. }
      specialize (HL n). destruct (rev n) as [|c r]; [exact I|]. rewrite <- HL. apply HB. exact Hl. }
  apply (C111_settled E fuel t (NStrip true true) (a ++ n ++ b) n n add); try assumption.
  - apply se_strip. apply K; assumption.
  - apply se_strip. rewrite <- (app_nil_r n) at 1. apply (K [] []); constructor.
  - rewrite !units_app. lia.
  - lia.
Qed.
Print Assumptions C111_strip.
(** So every word is reported to the left of its true place by the white space stripped before the text. *)
Theorem C111_shift : forall E pre a n b l, n <> [] -> (forall t, pre = Some t -> keeps_characters E t) -> words_of E pre n l ->
  Forall (fun p => exists x y, a ++ n ++ b = x ++ snd p ++ y /\ units x = units a + fst p) l.
Proof.
  intros E pre a n b l Hn Hk HW. pose proof (C95_inside E pre n l Hn Hk HW) as HI. eapply Forall_impl; [|exact HI]. cbn beta. intros p (_ & _ & x & z & Hx & Hp). exists (a ++ x), (z ++ b). split; [rewrite Hx, <- !app_assoc; reflexivity|]. rewrite units_app, Hp. reflexivity.
Qed.
Print Assumptions C111_shift.
(** StripAccents likewise: combining marks leave no trace, and the offsets index the text without them. *)
Theorem C111_accents : forall E fuel t s add, tz_norm t = Some NStripAccents -> (forall p, tz_pre t = Some p -> cuttable E p /\ keeps_characters E p) -> forallb valid_cp s = true ->
  let n := filter (fun c => negb ((0x300 <=? c) && (c <=? 0x36F))%N) s in
  n <> [] -> nothing_added t s n -> nothing_added t n n -> snd (encode E fuel t s add) = snd (encode E fuel t n add).
Proof.
  intros E fuel t s add Hf Hp Hv n Hn HA HA'. assert (Hvn : forallb valid_cp n = true) by (apply forallb_forall; intros c Hc; apply filter_In in Hc as [Hc _]; exact (proj1 (forallb_forall _ _) Hv c Hc)).
  apply (C111_settled E fuel t NStripAccents s n n add); try assumption.
  - apply se_accents.
  - assert (HE : n = filter (fun c => negb ((0x300 <=? c) && (c <=? 0x36F))%N) n) by (symmetry; apply filter_all; intros c Hc; apply filter_In in Hc; apply Hc). rewrite HE at 2. apply se_accents.
  - apply units_filter.
  - lia.
Qed.
Print Assumptions C111_accents.

(** *** Cases *)
Definition strip_tz (f : normalizer) : tokenizer := mkTz None None (Some (new_added_vocab [])) (Some f) (Some TBert) (Some (MWordPiece (mkWp demo_vocab (str "[UNK]") 100 (str "##")))) None None.
Lemma strip_tz_plain f s n : nothing_added (strip_tz f) s n.
Proof. exists (new_added_vocab []). split; [reflexivity|]. split; intros a b i _ _ Hin; destruct Hin. Qed.
Lemma strip_tz_pre f E : forall p, tz_pre (strip_tz f) = Some p -> cuttable E p /\ keeps_characters E p.
Proof. intros p H. injection H as <-. split; exact I. Qed.
(** "  playing " with Strip: the offsets are those of "playing", two to the left of the word's place in the text. *)
Example C111_case : Forall strips (str "  ") /\ Forall strips (str " ") /\ ~ strips (hd 0%N (str "playing")) /\ ~ strips (last (str "playing") 0%N) /\
  (exists r, snd (encode test_env 10 (strip_tz (NStrip true true)) (str "  playing ") false) = Ok r /\ en_ids r = [3; 4]%Z /\ en_offsets r = [(0, 4); (4, 7)]) /\
  snd (encode test_env 10 (strip_tz (NStrip true true)) (str "  playing ") false) = snd (encode test_env 10 (strip_tz (NStrip true true)) (str "playing") false).
Proof.
  assert (S1 : strips 32%N) by (left; reflexivity).
  assert (S2 : ~ strips (hd 0%N (str "playing"))) by (unfold strips; change (hd 0%N (str "playing") mod 256)%N with 112%N; intros [H | H]; lia).
  assert (S3 : ~ strips (last (str "playing") 0%N)) by (unfold strips; change (last (str "playing") 0%N mod 256)%N with 103%N; intros [H | H]; lia).
  split; [repeat (constructor; [exact S1|]); constructor|]. split; [repeat (constructor; [exact S1|]); constructor|]. split; [exact S2|]. split; [exact S3|]. split; [eexists; split; [vm_compute; reflexivity | split; reflexivity]|].
  apply (C111_strip test_env 10 (strip_tz (NStrip true true)) (str "  playing ") (str "  ") (str " ") (str "playing") false); try reflexivity; try assumption; try apply strip_tz_pre; try apply strip_tz_plain; try discriminate; repeat (constructor; [exact S1|]); constructor.
Qed.
(** "pla" + U+0301 + "ying" with StripAccents is encoded as "playing". *)
Example C111_accents_case :
  snd (encode test_env 10 (strip_tz NStripAccents) (str "pla" ++ [0x301%N] ++ str "ying") false) = snd (encode test_env 10 (strip_tz NStripAccents) (str "playing") false) /\
  exists r, snd (encode test_env 10 (strip_tz NStripAccents) (str "pla" ++ [0x301%N] ++ str "ying") false) = Ok r /\ en_ids r = [3; 4]%Z /\ en_offsets r = [(0, 4); (4, 7)].
Proof.
  split; [|eexists; split; [vm_compute; reflexivity | split; reflexivity]].
  apply (C111_accents test_env 10 (strip_tz NStripAccents) (str "pla" ++ [0x301%N] ++ str "ying") false); [reflexivity | apply strip_tz_pre | reflexivity | discriminate | apply strip_tz_plain | apply strip_tz_plain].
Qed.
(** Strip, then BERT: " Playing" and "pLAYING " settle on "playing". *)
Definition strip_bert : normalizer := NSequence [NStrip true true; NBert true true true true].
Example C111_settled_case : settled test_env strip_bert (str " Playing") (str "playing") /\ settled test_env strip_bert (str "pLAYING ") (str "playing") /\
  snd (encode test_env 10 (strip_tz strip_bert) (str " Playing") false) = snd (encode test_env 10 (strip_tz strip_bert) (str "pLAYING ") false) /\
  exists r, snd (encode test_env 10 (strip_tz strip_bert) (str " Playing") false) = Ok r /\ en_ids r = [3; 4]%Z /\ en_offsets r = [(0, 4); (4, 7)].
Proof.
  assert (B : forall m, m = str "Playing" \/ m = str "pLAYING" -> settled test_env (NSequence [NBert true true true true]) m (str "playing")).
  { intros m Hm. apply (se_cons test_env (NBert true true true true) [] m (str "playing") (str "playing")); [|apply se_nil].
    destruct Hm as [-> | ->].
    - apply (se_bert test_env true true true true (str "Playing") (str "Playing") (str "playing")); [reflexivity | intros _; repeat constructor | reflexivity|]. split; [intros _; repeat constructor|]. split; [intros _; split; [reflexivity | repeat constructor] | reflexivity].
    - apply (se_bert test_env true true true true (str "pLAYING") (str "pLAYING") (str "playing")); [reflexivity | intros _; repeat constructor | reflexivity|]. split; [intros _; repeat constructor|]. split; [intros _; split; [reflexivity | repeat constructor] | reflexivity]. }
  assert (H1 : settled test_env strip_bert (str " Playing") (str "playing")).
  { apply (se_cons test_env (NStrip true true) [NBert true true true true] (str " Playing") (str "Playing") (str "playing")); [|apply B; left; reflexivity].
    apply se_strip. exists (str " "), []. split; [reflexivity|]. split; [repeat constructor|]. split; [constructor|]. split; [discriminate|]. split; [discriminate|]. split; intros _; reflexivity. }
  assert (H2 : settled test_env strip_bert (str "pLAYING ") (str "playing")).
  { apply (se_cons test_env (NStrip true true) [NBert true true true true] (str "pLAYING ") (str "pLAYING") (str "playing")); [|apply B; right; reflexivity].
    apply se_strip. exists [], (str " "). split; [reflexivity|]. split; [constructor|]. split; [repeat constructor|]. split; [discriminate|]. split; [discriminate|]. split; intros _; reflexivity. }
  split; [exact H1|]. split; [exact H2|]. split; [|eexists; split; [vm_compute; reflexivity | split; reflexivity]].
  apply (C111_settled test_env 10 (strip_tz strip_bert) strip_bert (str " Playing") (str "pLAYING ") (str "playing") false); try reflexivity; try assumption; try apply strip_tz_pre; try apply strip_tz_plain; try discriminate; vm_compute; lia.
Qed.
