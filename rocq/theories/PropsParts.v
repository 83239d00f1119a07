(** Added tokens and any pre-tokenizer, for BPE and WordPiece tokenizers (C121). *)
From Verif Require Import Base BaseFacts Unicode UnicodeProofs Common Utils PostProcessor Decoder Normalizer PreTokenizer WordPiece Bpe AddedVocab Tokenizer Config ConfigSpec
  Spec PostSpec DecSpec NormSpec NormProofs PreSpec PreProofs AvSpec AvProofs ExtractProofs TzSpec TzProofs WpSpec WpProofs OffSpec OffProofs RefSpec RefProofs MixSpec MixProofs HistSpec HistProofs LenSpec FullSpec BpeSpec BpeProofs BpeWord UnkSpec ByteSpec
  PropsReference   PropsConfig PropsAdded PropsLifetime PropsText PropsMixed OutSpec PropsFinish PropsFull PropsPre PropsOffsets PropsEncode PropsBpe PropsByteBpe BpeRefSpec PropsBpeText CutSpec PropsCut PropsBertConfig PartsSpec Env.
From Coq Require Import ZifyBool ZifyNat.

(** ** From the matches to the division *)
Definition seg_item (u : wstr) (d : nat) (p : option Z * (nat * nat)) : (nat * wstr) * bool :=
  ((d + fst (snd p), slice u (fst (snd p)) (snd (snd p))), match fst p with Some _ => true | None => false end).
Lemma skip_slice (u : wstr) a b : a <= b -> b <= length u -> skipn a u = slice u a b ++ skipn b u.
Proof. intros H1 H2. unfold slice. rewrite <- (firstn_skipn (b - a) (skipn a u)) at 1. f_equal. rewrite skipn_skipn'. f_equal. lia. Qed.
Lemma slice_units_len (u : wstr) a b : Forall printable u -> a <= b -> b <= length u -> units (slice u a b) = b - a.
Proof. intros Hu H1 H2. rewrite printable_units by (apply printable_slice; exact Hu). apply slice_length; assumption. Qed.
Lemma divided_plain u d : Forall printable u -> forall l pos, ordered pos (length u) (map fst l) ->
  divided (d + pos) (skipn pos u) (map (fun m : nat * nat * Z => (d + fst (fst m), d + snd (fst m))) l) (map (seg_item u d) (plain_segs pos (length u) l)).
Proof.
  intros Hu. induction l as [|[[a b] k] l IH]; intros pos Ho; cbn [map ordered fst snd plain_segs] in *.
  - destruct (Nat.eqb_spec pos (length u)) as [->|Hn]; cbn [map]; [rewrite skipn_all; constructor|]. unfold seg_item. cbn [fst snd].
    rewrite <- (app_nil_r (skipn pos u)). replace (slice u pos (length u)) with (skipn pos u) by (unfold slice; rewrite firstn_all2 by (rewrite skipn_length; lia); reflexivity). rewrite app_nil_r. apply dv_rest.
    intros E0. apply (f_equal (@length N)) in E0. rewrite skipn_length in E0. cbn in E0. lia.
  - destruct Ho as (O1 & O2 & O3 & O4). specialize (IH b O4).
    assert (HM : divided (d + a) (skipn a u) ((d + a, d + b) :: map (fun m : nat * nat * Z => (d + fst (fst m), d + snd (fst m))) l) (map (seg_item u d) ((Some k, (a, b)) :: plain_segs b (length u) l))).
    { cbn [map]. unfold seg_item at 1. cbn [fst snd]. rewrite (skip_slice u a b) by assumption. replace (d + b) with (d + a + units (slice u a b)) by (rewrite slice_units_len by assumption; lia). apply dv_match.
      replace (d + a + units (slice u a b)) with (d + b) by (rewrite slice_units_len by assumption; lia). exact IH. }
    destruct (Nat.ltb_spec pos a) as [Hlt|Hge]; cbn [app].
    + cbn [map]. unfold seg_item at 1. cbn [fst snd]. rewrite (skip_slice u pos a) by lia. apply dv_gap; [| |exact HM].
      * intros E0. apply (f_equal (@length N)) in E0. rewrite slice_length in E0 by lia. cbn in E0. lia.
      * rewrite slice_units_len by (assumption || lia). lia.
    + assert (a = pos) as -> by lia. exact HM.
Qed.
Lemma firstn_print k (c : wstr) : Forall printable c -> Forall printable (firstn k c).
Proof. intros H. rewrite <- (firstn_skipn k c) in H. apply Forall_app in H. apply H. Qed.
Lemma firstn_more k (c : wstr) : c <> [] -> 0 < k -> firstn k c <> [].
Proof. destruct c, k; cbn; intros; try congruence; lia. Qed.
Lemma found_tokens tok known u d : Forall printable u -> (forall c, Forall printable c -> c <> [] -> (tok c <-> id_of known c <> None)) ->
  forall pos r l, found known pos r l -> r = skipn pos u -> pos + length r = length u ->
  fields tok (fun _ _ none => none = []) (d + pos) r (map (fun m => (d + fst (fst m), slice u (fst (fst m)) (snd (fst m)))) l) /\ Forall (fun m => ~ In 32%N (slice u (fst (fst m)) (snd (fst m)))) l.
Proof.
  intros Hu Htok. assert (HP : forall pos (c s : wstr), c ++ s = skipn pos u -> Forall printable c).
  { intros pos c s E0. assert (K : Forall printable (skipn pos u)) by (rewrite <- (firstn_skipn pos u) in Hu; apply Forall_app in Hu; apply Hu). rewrite <- E0 in K. apply Forall_app in K. apply K. }
  induction 1 as [pos|pos r l H IH|pos c r k l Hn Hs Hk Hm H IH|pos c r l Hn Hs Hr Hm H IH]; intros Er El; cbn [map fst snd].
  - split; constructor.
  - cbn [length] in El. destruct IH as [I1 I2]; [rewrite <- Nat.add_1_r, <- skipn_skipn', <- Er; reflexivity | lia|]. split; [|exact I2]. apply fd_space. rewrite <- Nat.add_succ_r. exact I1.
  - rewrite app_length in El. assert (Er' : r = skipn (pos + length c) u) by (rewrite <- skipn_skipn', <- Er, skipn_app, skipn_all, Nat.sub_diag; reflexivity). destruct (IH Er') as [I1 I2]; [lia|].
    assert (Ec : slice u pos (pos + length c) = c) by (unfold slice; rewrite <- Er; replace (pos + length c - pos) with (length c) by lia; rewrite firstn_app, firstn_all, Nat.sub_diag; cbn [firstn]; apply app_nil_r).
    pose proof (HP pos c r Er) as Hpc. rewrite Ec. split; [|constructor; [cbn [fst snd]; rewrite Ec; exact Hs | exact I2]]. apply fd_token; [exact Hn | exact Hs | apply Htok; [exact Hpc | exact Hn | congruence] | |].
    + intros j Hj K. apply Htok in K; [|apply firstn_print; exact Hpc | apply firstn_more; [exact Hn | lia]]. rewrite Hm in K by exact Hj. congruence.
    + rewrite <- Nat.add_assoc. exact I1.
  - rewrite app_length in El. assert (Er' : r = skipn (pos + length c) u) by (rewrite <- skipn_skipn', <- Er, skipn_app, skipn_all, Nat.sub_diag; reflexivity). destruct (IH Er') as [I1 I2]; [lia|].
    pose proof (HP pos c r Er) as Hpc. split; [|exact I2]. apply (fd_rest tok _ (d + pos) c r []); [exact Hn | exact Hs | exact Hr | | reflexivity | rewrite <- Nat.add_assoc; exact I1].
    intros j Hj K. apply Htok in K; [|apply firstn_print; exact Hpc | apply firstn_more; [exact Hn | lia]]. rewrite Hm in K by exact Hj. congruence.
Qed.

(** the division of a printable text at the tokens of a trie *)
Lemma plain_segs_tokens (P : nat * nat -> Prop) len : forall l pos, Forall (fun m : nat * nat * Z => P (fst m)) l -> Forall (fun p : option Z * (nat * nat) => fst p <> None -> P (snd p)) (plain_segs pos len l).
Proof.
  induction l as [|[[a b] k] l IH]; intros pos H; cbn [plain_segs].
  - destruct (pos =? len); constructor; [cbn; congruence | constructor].
  - inversion H as [|? ? H1 H2]; subst. apply Forall_app. split; [destruct (pos <? a); constructor; [cbn; congruence | constructor]|]. constructor; [intros _; exact H1 | apply IH; exact H2].
Qed.
Lemma trie_divides tok known u d : Forall printable u -> (forall k, ~ In ([], k) known) -> (forall c, Forall printable c -> c <> [] -> (tok c <-> id_of known c <> None)) ->
  (exists tokens, fields tok (fun _ _ none => none = []) d u tokens /\ divided d u (map (fun p => (fst p, fst p + units (snd p))) tokens) (map (seg_item u d) (segs_of known u))) /\
  Forall (fun q : (nat * wstr) * bool => snd q = true -> ~ In 32%N (snd (fst q))) (map (seg_item u d) (segs_of known u)).
Proof.
  intros Hu Hne Htok. set (l := raw_matches (word_ids known) u (length u) 0 0). pose proof (scan_found known u Hne (length u) 0 0 eq_refl (le_n _) ltac:(cbn; tauto) ltac:(cbn; lia)) as HF. fold l in HF. cbn [skipn] in HF.
  destruct (found_tokens tok known u d Hu Htok 0 u l HF eq_refl eq_refl) as [H1 H2]. rewrite Nat.add_0_r in H1. destruct (raw_matches_ok (word_ids known) u (length u) 0 0 eq_refl (le_n _)) as [Ho Hh]. fold l in Ho, Hh. unfold segs_of. fold l. split.
  - eexists. split; [exact H1|]. pose proof (divided_plain u d Hu l 0 Ho) as HD. rewrite Nat.add_0_r in HD. cbn [skipn] in HD. rewrite map_map. cbn [fst snd].
    replace (map (fun x => (d + fst (fst x), d + fst (fst x) + units (slice u (fst (fst x)) (snd (fst x))))) l) with (map (fun m : nat * nat * Z => (d + fst (fst m), d + snd (fst m))) l); [exact HD|].
    clear - Ho Hu. revert Ho. generalize 0. induction l as [|[[a b] k] l IH]; intros pos Ho; [reflexivity|]. cbn [map fst snd ordered] in *. destruct Ho as (O1 & O2 & O3 & O4). rewrite (IH b O4). f_equal. f_equal. rewrite slice_units_len by assumption. lia.
  - apply Forall_map. eapply Forall_impl; [|apply (plain_segs_tokens (fun r => ~ In 32%N (slice u (fst r) (snd r))) (length u) l 0 H2)]. intros [o r] K. unfold seg_item. cbn [fst snd] in *. destruct o; [intros _; apply K; discriminate | discriminate].
Qed.

(** ** Pre-tokenizing pieces and tokens together *)
Definition item_holds (q : (nat * wstr) * bool) (s : split) : Prop := sp_text s = utf8_encs (snd (fst q)) /\ fst (sp_off s) = fst (fst q) /\ (if snd q then sp_tokens s <> [] else sp_tokens s = []).
Fixpoint no_prefix (t : pre_tokenizer) : Prop :=
  match t with TByteLevel aps _ => aps = false | TSequence l => (fix go (l : list pre_tokenizer) : Prop := match l with [] => True | q :: r => no_prefix q /\ go r end) l | _ => True end.
Lemma split_all_app fn b l : forall a a' l', split_all fn b a = Ok a' -> split_all fn b l = Ok l' -> split_all fn b (a ++ l) = Ok (a' ++ l').
Proof.
  induction a as [|x a IH]; intros a' l' H1 H2; cbn [split_all app] in *; [injection H1 as <-; exact H2|]. destruct (if is_nil (sp_tokens x) then _ else _) as [h| | |]; cbn [bind] in *; try discriminate.
  destruct (split_all fn b a) as [r| | |] eqn:Er; cbn [bind] in *; try discriminate. injection H1 as <-. rewrite (IH r l' eq_refl H2). cbn [bind]. rewrite app_assoc. reflexivity.
Qed.
Lemma mapM_app_ok {A B} (f : A -> res B) l : forall a a' l', mapM f a = Ok a' -> mapM f l = Ok l' -> mapM f (a ++ l) = Ok (a' ++ l').
Proof.
  induction a as [|x a IH]; intros a' l' H1 H2; cbn [mapM app] in *; [injection H1 as <-; exact H2|]. destruct (f x) as [h| | |]; cbn [bind] in *; try discriminate.
  destruct (mapM f a) as [r| | |] eqn:Er; cbn [bind] in *; try discriminate. injection H1 as <-. rewrite (IH r l' eq_refl H2). reflexivity.
Qed.
Lemma pre_app E ns : forall t a b a' b', no_prefix t -> pre_tokenize E t (mkPt ns a) = Ok (mkPt ns a') -> pre_tokenize E t (mkPt ns b) = Ok (mkPt ns b') -> pre_tokenize E t (mkPt ns (a ++ b)) = Ok (mkPt ns (a' ++ b')).
Proof.
  assert (K : forall t a p, pre_tokenize E t (mkPt ns a) = Ok p -> no_prefix t -> exists a', p = mkPt ns a').
  { fix IH 1. intros [|pat bh iv|aps rx|ts] a p H Hn; cbn [pre_tokenize no_prefix] in *.
    - rewrite bert_pre_spec in H. injection H as <-. eauto.
    - unfold split_pre_tokenize, pt_split in H. cbn [pt_splits pt_norm] in H. destruct (split_all _ _ a); cbn [bind] in H; try discriminate. injection H as <-. eauto.
    - subst aps. unfold byte_level_pre_tokenize, pt_split in H. cbn [bind pt_splits pt_norm] in H. destruct (split_all _ _ a); cbn [bind pt_splits pt_norm] in H; try discriminate. destruct (mapM _ _); cbn [bind] in H; try discriminate. injection H as <-. eauto.
    - revert a H. induction ts as [|q ts IHs]; intros a H; [injection H as <-; eauto|]. destruct Hn as [H1 H2]. destruct (pre_tokenize E q (mkPt ns a)) as [p1| | |] eqn:Ep; cbn [bind] in H; try discriminate. destruct (IH q a p1 Ep H1) as (a1 & ->). exact (IHs H2 a1 H). }
  fix IH 1. intros [|pat bh iv|aps rx|ts] a b a' b' Hn H1 H2; cbn [pre_tokenize no_prefix] in *.
  - rewrite bert_pre_spec in *. cbn [pt_norm pt_splits] in *. injection H1 as <-. injection H2 as <-. rewrite flat_map_app. reflexivity.
  - unfold split_pre_tokenize, pt_split in *. cbn [pt_splits pt_norm] in *. destruct (split_all _ _ a) eqn:Ea; cbn [bind] in H1; try discriminate. destruct (split_all _ _ b) eqn:Eb; cbn [bind] in H2; try discriminate.
    injection H1 as <-. injection H2 as <-. rewrite (split_all_app _ _ _ _ _ _ Ea Eb). reflexivity.
  - subst aps. unfold byte_level_pre_tokenize, pt_split in *. cbn [bind pt_splits pt_norm] in *. destruct (split_all _ _ a) eqn:Ea; cbn [bind pt_splits pt_norm] in H1; try discriminate. destruct (split_all _ _ b) eqn:Eb; cbn [bind pt_splits pt_norm] in H2; try discriminate.
    destruct (mapM _ _) eqn:Ma in H1; cbn [bind] in H1; try discriminate. destruct (mapM _ _) eqn:Mb in H2; cbn [bind] in H2; try discriminate. injection H1 as <-. injection H2 as <-.
    rewrite (split_all_app _ _ _ _ _ _ Ea Eb). cbn [bind pt_splits pt_norm]. rewrite (mapM_app_ok _ _ _ _ _ Ma Mb). reflexivity.
  - revert a b H1 H2. induction ts as [|q ts IHs]; intros a b H1 H2; [injection H1 as <-; injection H2 as <-; reflexivity|]. destruct Hn as [N1 N2].
    destruct (pre_tokenize E q (mkPt ns a)) as [pa| | |] eqn:Ea; cbn [bind] in H1; try discriminate. destruct (pre_tokenize E q (mkPt ns b)) as [pb| | |] eqn:Eb; cbn [bind] in H2; try discriminate.
    destruct (K q a pa Ea N1) as (a1 & ->). destruct (K q b pb Eb N1) as (b1 & ->). rewrite (IH q a b a1 b1 N1 Ea Eb). cbn [bind]. exact (IHs N2 a1 b1 H1 H2).
Qed.
Lemma gpt2_same c : printable c -> c <> 32%N -> gpt2_cp c = c.
Proof. intros H Hn. unfold gpt2_cp. replace (gpt2_printable c) with true; [reflexivity|]. symmetry. unfold gpt2_printable, printable in *. lia. Qed.
Lemma token_remap E x : Forall printable x -> ~ In 32%N x -> byte_level_text E (utf8_encs x) = Ok (utf8_encs x).
Proof.
  intros Hp Hs. pose proof (utf8_encs_bytes x (printable_valid x Hp)) as HB. rewrite byte_level_text_spec by exact HB. rewrite (proj2 (bytes_ok_iff E x) (or_intror (printable_ascii x Hp))). f_equal. rewrite remapped_word.
  assert (K : map gpt2_cp x = x). { clear HB. induction Hp as [|c x Hc _ IH]; [reflexivity|]. cbn [map]. rewrite gpt2_same by (exact Hc || (intros ->; apply Hs; left; reflexivity)). f_equal. apply IH. intros K. apply Hs. right. exact K. }
  rewrite (proj1 (ascii_encs x (printable_ascii x Hp))), K. apply (ascii_encs x (printable_ascii x Hp)).
Qed.
Lemma pre_token E ns x s : Forall printable x -> ~ In 32%N x -> sp_text s = utf8_encs x -> sp_tokens s <> [] -> forall t, no_prefix t -> pre_tokenize E t (mkPt ns [s]) = Ok (mkPt ns [s]).
Proof.
  intros Hp Hs Ht Hk. assert (Hn : is_nil (sp_tokens s) = false) by (destruct (sp_tokens s); [congruence | reflexivity]). assert (Hmk : mkSplit (sp_text s) (sp_off s) (sp_tokens s) = s) by (destruct s; reflexivity).
  fix IH 1. intros [|pat bh iv|aps rx|ts] H; cbn [pre_tokenize no_prefix] in *.
  - rewrite bert_pre_spec. cbn [pt_norm pt_splits flat_map]. unfold bert_out. rewrite Hn. reflexivity.
  - unfold split_pre_tokenize, pt_split. cbn [pt_splits pt_norm split_all]. rewrite Hn. reflexivity.
  - subst aps. unfold byte_level_pre_tokenize, pt_split. cbn [bind pt_splits pt_norm split_all]. rewrite Hn. cbn [bind app pt_splits pt_norm mapM]. rewrite Ht, (token_remap E x Hp Hs). cbn [bind]. rewrite <- Ht, Hmk. reflexivity.
  - induction ts as [|q ts IHs]; [reflexivity|]. destruct H as [H1 H2]. rewrite (IH q H1). cbn [bind]. apply IHs. exact H2.
Qed.
Lemma pre_items E t ns : no_prefix t -> forall L out ss, Forall2 item_holds L ss -> Forall (fun q : (nat * wstr) * bool => forallb valid_cp (snd (fst q)) = true /\ (snd q = true -> Forall printable (snd (fst q)) /\ ~ In 32%N (snd (fst q)))) L ->
  Forall2 (fun q ws => if (snd q : bool) then ws = [fst q] else cuts_into E t [fst q] ws) L out ->
  exists ss', pre_tokenize E t (mkPt ns ss) = Ok (mkPt ns ss') /\ Forall2 (fun p s => sp_text s = utf8_encs (snd p) /\ fst (sp_off s) = fst p) (concat out) ss' /\ all_valid (concat out).
Proof.
  intros Hn. assert (H0 : pre_tokenize E t (mkPt ns []) = Ok (mkPt ns [])).
  { clear - Hn. revert t Hn. fix IH 1. intros [|pat bh iv|aps rx|ts] H; cbn [pre_tokenize no_prefix] in *; [rewrite bert_pre_spec; reflexivity | reflexivity | subst aps; reflexivity|]. induction ts as [|q ts IHs]; [reflexivity|]. destruct H as [H1 H2]. rewrite (IH q H1). cbn [bind]. apply IHs. exact H2. }
  induction L as [|q L IH]; intros out ss HF HV HO; inversion HO as [|? ws ? out' Hw HO']; subst; inversion HF as [|? s ? ss0 Hs HF']; subst; [exists []; split; [exact H0 | split; constructor]|].
  inversion HV as [|? ? [V1 V2] V3]; subst. destruct (IH out' ss0 HF' V3 HO') as (ss' & I1 & I2 & I3). destruct Hs as (S1 & S2 & S3). cbn [concat]. destruct q as [[pos x] f]. cbn [fst snd] in *. destruct f.
  - subst ws. destruct (V2 eq_refl) as [P1 P2]. exists ([s] ++ ss'). split; [apply (pre_app E ns t [s] ss0 [s] ss' Hn); [apply (pre_token E ns x s P1 P2 S1 S3 t Hn) | exact I1]|]. split; [cbn [app]; constructor; [split; assumption | exact I2] | constructor; [exact V1 | exact I3]].
  - assert (HH : Forall2 holds [(pos, x)] [s]) by (constructor; [repeat split; assumption | constructor]). destruct (pre_cuts E t [(pos, x)] ws ns [s] Hw) as (A & ss1 & B & C); [constructor; [exact V1 | constructor] | exact HH|].
    exists (ss1 ++ ss'). split; [apply (pre_app E ns t [s] ss0 ss1 ss' Hn B I1)|]. split; [apply Forall2_app; [|exact I2] | apply Forall_app; split; assumption].
    clear - C. induction C as [|p y l l' (K1 & K2 & _) _ IH]; constructor; [split; assumption | exact IH].
Qed.

(** ** Letter by letter *)
Lemma letterwise_printable E : forall n g, letterwise E n g -> forall c, printable c -> printable (g c).
Proof.
  fix IH 1. intros [cl ch st lo|f|p|p q|x y| |l] g H c Hc; cbn [letterwise] in H; try contradiction.
  - rewrite (H c Hc). destruct lo; [apply printable_lower; exact Hc | exact Hc].
  - rewrite (proj2 H c Hc). exact Hc.
  - revert g c H Hc. induction l as [|q l IHl]; intros g c H Hc; [rewrite (H c Hc); exact Hc|]. destruct H as (g1 & g2 & H1 & H2 & H3). rewrite (H3 c Hc). apply (IHl g2 (g1 c) H2). exact (IH q g1 H1 c Hc).
Qed.
Lemma letters_printable E norm g : letters E norm g -> forall c, printable c -> printable (g c).
Proof. destruct norm as [n|]; cbn [letters]; intros H c Hc; [exact (letterwise_printable E n g H c Hc) | rewrite (H c Hc); exact Hc]. Qed.
Lemma map_same (g : N -> N) x : (forall c, printable c -> g c = c) -> Forall printable x -> map g x = x.
Proof. intros Hg H. induction H as [|c x Hc _ IH]; [reflexivity|]. cbn [map]. rewrite (Hg c Hc), IH. reflexivity. Qed.
Lemma map_agree (g h : N -> N) x : (forall c, printable c -> g c = h c) -> Forall printable x -> map g x = map h x.
Proof. intros Hg H. induction H as [|c x Hc _ IH]; [reflexivity|]. cbn [map]. rewrite (Hg c Hc), IH. reflexivity. Qed.
Lemma letterwise_run E : ascii_env E -> forall n g, letterwise E n g -> forall ns bl, Packed ns bl -> length (ns_text ns) <= length bl -> Forall printable (ns_text ns) -> normalize E n ns = Ok (set_text ns (map g (ns_text ns))).
Proof.
  intros HE. fix IH 1. intros [cl ch st lo|f|p|p q|x y| |l] g H ns bl HP Hl Hs; cbn [letterwise normalize] in *; try contradiction.
  - rewrite (bert_ascii E cl ch st lo ns bl HE HP Hl Hs). f_equal. f_equal. symmetry. apply map_agree; [exact H | exact Hs].
  - destruct H as [H1 H2]. rewrite (map_same g _ H2 Hs). unfold normalize_nf. rewrite printable_fix by exact Hs. rewrite (H1 _ Hs), grow_ids_same. cbn [apply_grow bind]. reflexivity.
  - revert g ns HP Hl Hs H. induction l as [|q l IHl]; intros g ns HP Hl Hs H.
    + rewrite (map_same g _ H Hs). rewrite set_text_same. reflexivity.
    + destruct H as (g1 & g2 & H1 & H2 & H3). rewrite (IH q g1 H1 ns bl HP Hl Hs). cbn [bind]. assert (Hp : Forall printable (map g1 (ns_text ns))) by (rewrite Forall_map; eapply Forall_impl; [|exact Hs]; exact (letterwise_printable E q g1 H1)).
      rewrite (IHl g2 (set_text ns (map g1 (ns_text ns)))); [| destruct HP as [P1 P2 P3]; constructor; assumption | cbn [ns_text set_text]; rewrite map_length; exact Hl | exact Hp | exact H2].
      cbn [ns_text set_text]. rewrite map_map, (map_agree g (fun c => g2 (g1 c)) _ H3 Hs). reflexivity.
Qed.
Lemma letters_run E norm g x : ascii_env E -> letters E norm g -> Forall printable x -> run_norm E norm x = Ok (set_text (new_nstring x) (map g x)).
Proof.
  intros HE H Hx. destruct (fresh_packed x) as [HP Ht]. destruct norm as [n|]; cbn [letters run_norm] in *.
  - rewrite (letterwise_run E HE n g H _ _ HP); rewrite Ht; [reflexivity | rewrite unit_blocks_length; apply utf16_len_ge | exact Hx].
  - rewrite (map_same g x H Hx). pose proof (set_text_same (new_nstring x)) as K. rewrite Ht in K. rewrite K. reflexivity.
Qed.

(** ** Pre-tokenizers on ASCII *)
Lemma cuttable_no_prefix E : forall t, cuttable E t -> no_prefix t.
Proof. fix IH 1. intros [|pat bh iv|aps rx|ts] H; cbn [cuttable no_prefix] in *; [exact I | exact I | apply H|]. induction ts as [|q ts IHs]; [exact I|]. destruct H as [H1 H2]. split; [apply IH; exact H1 | apply IHs; exact H2]. Qed.
Lemma ascii_no_prefix E : forall t, cuts_ascii E t -> no_prefix t.
Proof.
  fix IH 1. intros [|pat bh iv|aps rx|ts] H; cbn [cuts_ascii] in H; [exact I | exact I | exact H|]. cbn [no_prefix]. induction ts as [|q ts IHs]; [exact I|]. destruct ts as [|q' ts]; [split; [apply IH; exact H | exact I]|]. destruct H as [[H1 _] H2].
  split; [apply (cuttable_no_prefix E); exact H1 | apply IHs; exact H2].
Qed.
Lemma in_text_printable n p : Forall printable n -> in_text n p -> Forall printable (snd p) /\ fst p + units (snd p) <= units n.
Proof. intros Hn (_ & a & z & E1 & E2). rewrite E1 in Hn |- *. apply Forall_app in Hn as [_ Hn]. apply Forall_app in Hn as [Hn _]. split; [exact Hn|]. rewrite !units_app. lia. Qed.
Lemma pieces_nonempty rx x ps : x <> [] -> byte_pieces rx x ps -> Forall (fun w => w <> []) ps.
Proof. intros Hx H. destruct rx; cbn [byte_pieces] in H; [|subst ps; constructor; [exact Hx | constructor]]. clear Hx. induction H; constructor; try assumption; discriminate. Qed.
Lemma place_bounds : forall l pos lim, Forall (fun w => w <> []) l -> pos + units (concat l) <= lim -> Forall (fun p : nat * wstr => snd p <> [] /\ fst p < lim) (place pos l).
Proof.
  induction l as [|w l IH]; intros pos lim H Hl; [constructor|]. inversion H as [|? ? Hw H']; subst. cbn [concat place] in *. rewrite units_app in Hl. pose proof (units_pos w Hw). constructor; [cbn [fst snd]; split; [exact Hw | lia]|]. apply IH; [exact H' | lia].
Qed.
Lemma ascii_cuts E n : Forall printable n -> forall t, cuts_ascii E t -> forall l, Forall (in_text n) l -> exists l', cuts_into E t l l' /\ Forall (fun p => snd p <> [] /\ fst p < units n) l'.
Proof.
  intros Hn. assert (HIn : forall l, Forall (in_text n) l -> Forall (fun p => snd p <> [] /\ fst p < units n) l).
  { intros l H. eapply Forall_impl; [|exact H]. intros [a y] Hp. pose proof (in_text_printable n _ Hn Hp) as [_ K]. destruct Hp as (Hp & _). cbn [fst snd] in *. pose proof (units_pos y Hp). split; [exact Hp | lia]. }
  assert (HV : forall l, Forall (in_text n) l -> all_valid l) by (intros l H; eapply Forall_impl; [|exact H]; intros p Hp; apply printable_valid, (in_text_printable n p Hn Hp)).
  assert (HK : forall t, cuttable E t -> keeps_characters E t -> forall l, Forall (in_text n) l -> exists l', cuts_into E t l l' /\ Forall (in_text n) l').
  { intros t H1 H2 l Hl. destruct (cuts_total E t l H1 (HV l Hl)) as (l' & Hl'). exists l'. split; [exact Hl' | exact (cuts_in E n t l l' H2 Hl' Hl)]. }
  fix IH 1. intros [|pat bh iv|aps rx|ts] H l Hl.
  - cbn [cuts_ascii] in H. destruct (HK TBert (proj1 H) (proj2 H) l Hl) as (l' & H1 & H2). exists l'. split; [exact H1 | exact (HIn _ H2)].
  - cbn [cuts_ascii] in H. destruct (HK (TSplit pat bh iv) (proj1 H) (proj2 H) l Hl) as (l' & H1 & H2). exists l'. split; [exact H1 | exact (HIn _ H2)].
  - cbn [cuts_ascii] in H. subst aps. cbn [cuts_into].
    assert (G : Forall (fun p => exists ps, byte_word E rx p ps /\ Forall (fun q => snd q <> [] /\ fst q < units n) ps) l).
    { eapply Forall_impl; [|exact Hl]. intros p Hp. destruct (in_text_printable n p Hn Hp) as [P1 P2]. assert (K : exists q, byte_pieces rx (snd p) q) by (destruct rx; cbn [byte_pieces]; [apply apos_total | eauto]). destruct K as (q & K).
      eexists. split; [split; [right; apply printable_ascii; exact P1|]; exists q; split; [exact K | reflexivity]|]. apply Forall_map. cbn [fst snd].
      eapply Forall_impl; [|apply (place_bounds q (fst p) (units n)); [apply (pieces_nonempty rx (snd p)); [apply Hp | exact K] | rewrite (pieces_concat _ _ _ K); exact P2]].
      intros r [R1 R2]. split; [|exact R2]. intros E0. apply map_eq_nil in E0. exact (utf8_encs_nonempty _ R1 E0). }
    clear - G. assert (K : exists out, Forall2 (byte_word E rx) l out /\ Forall (fun p => snd p <> [] /\ fst p < units n) (concat out)).
    { induction G as [|p l (ps & P1 & P2) _ (out & O1 & O2)]; [exists []; split; constructor|]. exists (ps :: out). split; [constructor; assumption|]. cbn [concat]. apply Forall_app. split; assumption. }
    destruct K as (out & K1 & K2). exists (concat out). split; [exists out; auto | exact K2].
  - cbn [cuts_ascii cuts_into] in *. revert l H Hl. induction ts as [|q ts IHs]; intros l H Hl; [exists l; split; [reflexivity | exact (HIn _ Hl)]|]. destruct ts as [|q' ts].
    + destruct (IH q H l Hl) as (l' & L1 & L2). exists l'. split; [exists l'; auto | exact L2].
    + destruct H as [[H1 H2] H3]. destruct (HK q H1 H2 l Hl) as (m & M1 & M2). destruct (IHs m H3 M2) as (l' & L1 & L2). exists l'. split; [exists m; auto | exact L2].
Qed.
Lemma words_at_ascii E pre pos x : (forall t, pre = Some t -> cuts_ascii E t) -> Forall printable x -> x <> [] -> exists l, words_at E pre pos x l /\ Forall (fun p => snd p <> [] /\ fst p < pos + length x) l.
Proof.
  intros Hp Hx Hne. destruct pre as [t|]; cbn [words_at].
  - assert (Ha : Forall printable (repeat 32%N pos)) by (apply Forall_forall; intros c Hc; apply repeat_spec in Hc; subst c; unfold printable; lia).
    assert (Hn : Forall printable (repeat 32%N pos ++ x)) by (apply Forall_app; auto). pose proof (printable_units _ Ha) as Hu. rewrite repeat_length in Hu.
    destruct (ascii_cuts E (repeat 32%N pos ++ x) Hn t (Hp t eq_refl) [(pos, x)]) as (l & L1 & L2).
    + constructor; [|constructor]. split; [exact Hne|]. exists (repeat 32%N pos), []. cbn [fst snd]. rewrite app_nil_r. split; [reflexivity | symmetry; exact Hu].
    + exists l. split; [exact L1|]. rewrite units_app, Hu, (printable_units x Hx) in L2. exact L2.
  - eexists. split; [reflexivity|]. constructor; [|constructor]. cbn [fst snd]. split; [exact Hne|]. destruct x; [congruence | cbn [length]; lia].
Qed.

(** ** The words are determined *)
Lemma parts_fun tok (other : nat -> wstr -> list (nat * wstr) -> Prop) : (forall pos x l l', other pos x l -> other pos x l' -> l = l') -> forall pos s l l', parts tok other pos s l -> parts tok other pos s l' -> l = l'.
Proof.
  intros HO pos s l l' (T & segs & out & H1 & H2 & H3 & ->) (T' & segs' & out' & H1' & H2' & H3' & ->). rewrite (fields_fun tok (fun _ _ none => none = []) (fun _ _ a b Ha Hb => eq_trans Ha (eq_sym Hb)) _ _ _ H1' _ H1) in H2'. rewrite (divided_fun _ _ _ _ H2 _ H2') in H3'. clear - HO H3 H3'. f_equal.
  revert out' H3'. induction H3 as [|q ws segs out Hq _ IH]; intros out' H'; inversion H' as [|? ws' ? out2 Hq' H2]; subst; [reflexivity|]. f_equal; [|apply IH; exact H2]. destruct (snd q); [congruence | eapply HO; eassumption].
Qed.
Lemma words_at_fun E pre pos x l l' : words_at E pre pos x l -> words_at E pre pos x l' -> l = l'.
Proof. destruct pre as [t|]; cbn [words_at]; [apply cuts_fun | congruence]. Qed.
Lemma added_words_fun E v ops g pre s l l' : added_words E v ops g pre s l -> added_words E v ops g pre s l' -> l = l'.
Proof. unfold added_words. apply parts_fun. intros pos x a b. apply parts_fun. intros pos' y a' b'. apply words_at_fun. Qed.

(** ** The words of a prepared text *)
Definition item_words (E : env) (pre : option pre_tokenizer) (q : (nat * wstr) * bool) (ws : list (nat * wstr)) : Prop := if (snd q : bool) then ws = [fst q] else words_at E pre (fst (fst q)) (snd (fst q)) ws.
Definition item_ok (q : (nat * wstr) * bool) : Prop := forallb valid_cp (snd (fst q)) = true /\ (snd q = true -> Forall printable (snd (fst q)) /\ ~ In 32%N (snd (fst q))).
Definition inside (lim : nat) (p : nat * wstr) : Prop := snd p <> [] /\ fst p < lim.
Lemma Forall2_concat {A B} (R : A -> B -> Prop) : forall l l', Forall2 (Forall2 R) l l' -> Forall2 R (concat l) (concat l').
Proof. induction 1; cbn [concat]; [constructor | apply Forall2_app; assumption]. Qed.
Lemma pick {A B} (P : A -> B -> Prop) l : Forall (fun a => exists b, P a b) l -> exists l', Forall2 P l l'.
Proof. induction 1 as [|a l (b & Hb) _ (l' & IH)]; [exists []; constructor | exists (b :: l'); constructor; assumption]. Qed.
Lemma split_item u d p : fst (snd p) <= snd (snd p) -> item_holds (seg_item u d p) (seg_split u d p).
Proof. intros _. unfold item_holds, seg_item, seg_split. cbn [fst snd sp_text sp_off sp_tokens]. split; [reflexivity|]. split; [lia|]. destruct (fst p); [discriminate | reflexivity]. Qed.
Lemma chained_all a len segs : chained a len (map snd segs) -> Forall (fun p : option Z * (nat * nat) => fst (snd p) <= snd (snd p) /\ snd (snd p) <= len) segs.
Proof. intros H. apply chained_bounds in H. rewrite Forall_map in H. eapply Forall_impl; [|exact H]. cbn. intros p (_ & K1 & K2). auto. Qed.

Section Words.
Variables (E : env) (g : N -> N) (pre : option pre_tokenizer) (s : wstr) (v : smap Z) (ops : list added_token) (av : added_vocab).
Hypothesis Hg : forall c, printable c -> printable (g c).
Hypothesis Hpre : forall t, pre = Some t -> cuts_ascii E t.
Hypothesis Hs : Forall printable s.
Hypothesis Hd : dense v.
Hypothesis Hv : v <> [].
Hypothesis HH : history v ops av.
Hypothesis Hf : one_flag ops.
Hypothesis Hsim : Forall simple_token ops.

Lemma items_words tok other known u d : Forall printable u -> (forall k, ~ In ([], k) known) -> Forall (fun p => fst p <> []) known -> (forall c, Forall printable c -> c <> [] -> (tok c <-> id_of known c <> None)) ->
  (forall p, In p (segs_of known u) -> fst p = None -> exists ws, other (d + fst (snd p)) (slice u (fst (snd p)) (snd (snd p))) ws /\ Forall (inside (d + snd (snd p))) ws) ->
  exists out, Forall2 (fun p ws => (match fst p with Some _ => ws = [fst (seg_item u d p)] | None => other (d + fst (snd p)) (slice u (fst (snd p)) (snd (snd p))) ws end) /\ Forall (inside (d + length u)) ws) (segs_of known u) out /\
    parts tok other d u (concat out) /\ Forall item_ok (map (seg_item u d) (segs_of known u)).
Proof.
  intros Hu K1 K2 Htok Hother. destruct (trie_divides tok known u d Hu K1 Htok) as ((T & T1 & T2) & T3). pose proof (segs_chained known u) as Hc. apply chained_all in Hc. pose proof (seg_nonempty known u K2) as Hn.
  destruct (pick (fun p ws => (match fst p with Some _ => ws = [fst (seg_item u d p)] | None => other (d + fst (snd p)) (slice u (fst (snd p)) (snd (snd p))) ws end) /\ Forall (inside (d + length u)) ws) (segs_of known u)) as (out & HO).
  { apply Forall_forall. intros p Hp. pose proof (proj1 (Forall_forall _ _) Hc p Hp) as [C1 C2]. pose proof (proj1 (Forall_forall _ _) Hn p Hp) as C3. cbn beta in *. destruct (fst p) eqn:Ep.
    - eexists. split; [reflexivity|]. constructor; [|constructor]. unfold inside, seg_item. cbn [fst snd]. split; [|lia]. intros E0. apply (f_equal (@length N)) in E0. rewrite slice_length in E0 by assumption. cbn in E0. lia.
    - destruct (Hother p Hp Ep) as (ws & W1 & W2). exists ws. split; [exact W1|]. eapply Forall_impl; [|exact W2]. unfold inside. intros [a b] [Q1 Q2]. cbn [fst snd] in *. split; [exact Q1 | lia]. }
  exists out. split; [exact HO|]. split.
  - exists T, (map (seg_item u d) (segs_of known u)), out. split; [exact T1|]. split; [exact T2|]. split; [|reflexivity]. clear - HO. induction HO as [|p ws l out [H _] _ IH]; [constructor|]. cbn [map]. constructor; [|exact IH]. unfold seg_item in *. cbn [fst snd] in *. destruct (fst p); exact H.
  - rewrite Forall_map in T3 |- *. apply Forall_forall. intros p Hp. pose proof (proj1 (Forall_forall _ _) T3 p Hp) as Q. unfold item_ok, seg_item in *. cbn [fst snd] in *. split; [apply printable_valid, printable_slice; exact Hu|]. intros Ht. split; [apply printable_slice; exact Hu | exact (Q Ht)].
Qed.

Lemma inner_items u d : Forall printable u ->
  exists out, Forall2 (item_words E pre) (map (seg_item u d) (segs_of (av_trie_norm av) u)) out /\ parts (takes_part v ops true) (words_at E pre) d u (concat out) /\ Forall item_ok (map (seg_item u d) (segs_of (av_trie_norm av) u)) /\
    Forall (inside (d + length u)) (concat out).
Proof.
  intros Hu. destruct (trie_nonempty v ops av Hd Hv HH Hsim) as (T1 & T2 & T3 & T4). pose proof (segs_chained (av_trie_norm av) u) as Hc. apply chained_all in Hc. pose proof (seg_nonempty (av_trie_norm av) u T3) as Hn.
  destruct (items_words (takes_part v ops true) (words_at E pre) (av_trie_norm av) u d Hu T1 T3) as (out & O1 & O2 & O3).
  - intros c Hc' Hn'. apply (known_takes_part v ops av true c Hd Hv HH Hf Hc' Hn').
  - intros p Hp _. pose proof (proj1 (Forall_forall _ _) Hc p Hp) as [C1 C2]. pose proof (proj1 (Forall_forall _ _) Hn p Hp) as C3. cbn beta in *.
    destruct (words_at_ascii E pre (d + fst (snd p)) (slice u (fst (snd p)) (snd (snd p))) Hpre) as (l & L1 & L2); [apply printable_slice; exact Hu | intros E0; apply (f_equal (@length N)) in E0; rewrite slice_length in E0 by assumption; cbn in E0; lia|].
    exists l. split; [exact L1|]. rewrite slice_length in L2 by assumption. eapply Forall_impl; [|exact L2]. unfold inside. intros [a b] [Q1 Q2]. cbn [fst snd] in *. split; [exact Q1 | lia].
  - exists out. split; [|split; [exact O2|split; [exact O3|]]].
    + clear - O1. induction O1 as [|p ws l out [H _] _ IH]; [constructor|]. cbn [map]. constructor; [|exact IH]. unfold item_words, seg_item in *. cbn [fst snd] in *. destruct (fst p); exact H.
    + clear - O1. induction O1 as [|p ws l out [_ H] _ IH]; [constructor|]. cbn [concat]. apply Forall_app. auto.
Qed.

(** the items of one piece of the text *)
Definition items_of (p : option Z * (nat * nat)) : list ((nat * wstr) * bool) :=
  match fst p with Some _ => [seg_item s 0 p] | None => let u := map g (slice s (fst (snd p)) (snd (snd p))) in map (seg_item u (fst (snd p))) (segs_of (av_trie_norm av) u) end.
Lemma items_splits p : Forall2 item_holds (items_of p) (extracted_seg g (av_trie_norm av) s p).
Proof.
  unfold items_of, extracted_seg. destruct (fst p) eqn:Ep; cbv zeta.
  - constructor; [|constructor]. unfold item_holds, seg_item, seg_split. rewrite Ep. cbn [fst snd sp_text sp_off sp_tokens]. split; [reflexivity|]. split; [lia | discriminate].
  - generalize (segs_of (av_trie_norm av) (map g (slice s (fst (snd p)) (snd (snd p))))). induction s0 as [|q l IH]; [constructor|]. cbn [map]. constructor; [|exact IH]. unfold item_holds, seg_item, seg_split. cbn [fst snd sp_text sp_off sp_tokens]. split; [reflexivity|]. split; [lia|]. destruct (fst q); [discriminate | reflexivity].
Qed.
Lemma all_items : exists out, Forall2 (item_words E pre) (flat_map items_of (segs_of (av_trie_raw av) s)) out /\ added_words E v ops g pre s (concat out) /\ Forall item_ok (flat_map items_of (segs_of (av_trie_raw av) s)) /\
  Forall (inside (length s)) (concat out).
Proof.
  destruct (trie_nonempty v ops av Hd Hv HH Hsim) as (T1 & T2 & T3 & T4). pose proof (segs_chained (av_trie_raw av) s) as Hc. apply chained_all in Hc.
  assert (Hu : forall a b, Forall printable (map g (slice s a b))) by (intros a b; rewrite Forall_map; eapply Forall_impl; [|apply printable_slice; exact Hs]; exact Hg).
  destruct (items_words (takes_part v ops false) (fun pos x l => parts (takes_part v ops true) (words_at E pre) pos (map g x) l) (av_trie_raw av) s 0 Hs T2 T4) as (outs & O1 & O2 & O3).
  - intros c Hc' Hn'. apply (known_takes_part v ops av false c Hd Hv HH Hf Hc' Hn').
  - intros p Hp _. pose proof (proj1 (Forall_forall _ _) Hc p Hp) as [C1 C2]. cbn beta in *. cbn [Nat.add]. destruct (inner_items (map g (slice s (fst (snd p)) (snd (snd p)))) (fst (snd p)) (Hu _ _)) as (out & _ & I2 & _ & I4).
    exists (concat out). split; [exact I2|]. rewrite map_length, slice_length in I4 by assumption. eapply Forall_impl; [|exact I4]. unfold inside. intros [a b] [Q1 Q2]. cbn [fst snd] in *. split; [exact Q1 | lia].
  - assert (G : exists outs', Forall2 (fun p o => Forall2 (item_words E pre) (items_of p) o /\ Forall item_ok (items_of p)) (segs_of (av_trie_raw av) s) outs' /\ map (@concat _) outs' = outs).
    { clear O2 Hc. rewrite Forall_map in O3. revert O3. induction O1 as [|p ws l outs [H1 H2] _ IH]; intros O3; [exists []; split; [constructor | reflexivity]|]. inversion O3 as [|? ? Q1 Q2]; subst. destruct (IH Q2) as (outs' & I1 & I2). destruct (fst p) eqn:Ep.
      - exists ([ws] :: outs'). split; [constructor; [|exact I1]; unfold items_of; rewrite Ep | cbn [map concat]; rewrite app_nil_r, I2; reflexivity]. split; [constructor; [|constructor]; unfold item_words, seg_item; rewrite Ep; cbn [snd fst]; rewrite H1; unfold seg_item; reflexivity | constructor; [exact Q1 | constructor]].
      - destruct (inner_items (map g (slice s (fst (snd p)) (snd (snd p)))) (fst (snd p)) (Hu _ _)) as (out & J1 & J2 & J3 & _). exists (out :: outs'). split; [constructor; [|exact I1]; unfold items_of; rewrite Ep; split; assumption|].
        cbn [map]. rewrite I2. f_equal. cbn [Nat.add] in H1. eapply parts_fun; [|exact J2 | exact H1]. intros pos x a b. apply words_at_fun. }
    destruct G as (outs' & G1 & G2). exists (concat outs'). split; [|split; [|split]].
    + rewrite flat_map_concat_map. apply Forall2_concat. clear - G1. induction G1 as [|p o l outs' [H _] _ IH]; [constructor|]. cbn [map]. constructor; assumption.
    + unfold added_words. replace (concat (concat outs')) with (concat outs); [exact O2|]. rewrite <- G2. clear. induction outs' as [|a l IH]; [reflexivity|]. cbn [map concat]. rewrite concat_app, IH. reflexivity.
    + clear - G1. induction G1 as [|p o l outs' [_ H] _ IH]; [constructor|]. cbn [flat_map]. apply Forall_app. auto.
    + replace (concat (concat outs')) with (concat outs); [|rewrite <- G2; clear; induction outs' as [|a l IH]; [reflexivity|]; cbn [map concat]; rewrite concat_app, IH; reflexivity].
      clear - O1. cbn [Nat.add] in O1. induction O1 as [|p ws l out [_ H] _ IH]; [constructor|]. cbn [concat]. apply Forall_app. auto.
Qed.
End Words.

Lemma prepare_added E t g v ops av s : ascii_env E -> dense v -> v <> [] -> history v ops av -> Forall simple_token ops -> one_flag ops -> tz_av t = Some av -> letters E (tz_norm t) g -> (forall p, tz_pre t = Some p -> cuts_ascii E p) ->
  s <> [] -> Forall printable s ->
  exists l junk ss, added_words E v ops g (tz_pre t) s l /\ prepare E t s = Ok (Some (set_map_r av (av_map_r av)), mkPt (numbered_ns (unit_sizes s) junk s) ss) /\
    Forall2 (fun p x => sp_text x = utf8_encs (snd p) /\ fst (sp_off x) = fst p) l ss /\ all_valid l /\ Forall (fun p => snd p <> [] /\ fst p < units s) l.
Proof.
  intros HE Hd Hv HH Hsim Hf Hav Hnorm Hpre Hne Hs. pose proof (letters_printable E _ g Hnorm) as Hg.
  assert (Hgs : forall a b, Forall printable (map g (slice s a b))) by (intros a b; rewrite Forall_map; eapply Forall_impl; [|apply printable_slice; exact Hs]; exact Hg).
  destruct (history_plain _ _ _ Hd Hv HH Hsim) as (Hp1 & Hp2 & Hp3). apply Forall_app in Hp3 as [Hp3 Hp4].
  destruct (extract_pointwise E av (tz_norm t) g s Hne (printable_bmp s Hs) (printable_valid s Hs)) as (junk & Hj); try assumption.
  { intros a b. apply printable_bmp, Hgs. }
  { intros a b. apply printable_valid, Hgs. }
  { intros a b _ _. apply letters_run; [exact HE | exact Hnorm | apply printable_slice; exact Hs]. }
  { eapply Forall_impl; [|exact Hp3]. intros p K. apply K. }
  destruct (all_items E g (tz_pre t) s v ops av Hg Hpre Hs Hd Hv HH Hf Hsim) as (out & O1 & O2 & O3 & O4).
  set (ns := numbered_ns (unit_sizes s) junk s) in *. set (ss0 := flat_map (extracted_seg g (av_trie_norm av) s) (segs_of (av_trie_raw av) s)) in *.
  assert (H0 : Forall2 item_holds (flat_map (items_of g s av) (segs_of (av_trie_raw av) s)) ss0).
  { unfold ss0. rewrite !flat_map_concat_map. apply Forall2_concat. generalize (segs_of (av_trie_raw av) s). clear. induction s0 as [|p l IH]; [constructor|]. cbn [map]. constructor; [apply items_splits | exact IH]. }
  assert (HP : forall x, (match tz_pre t with Some pt => pre_tokenize E pt (mkPt ns ss0) | None => Ok (mkPt ns ss0) end) = Ok x -> prepare E t s = Ok (Some (set_map_r av (av_map_r av)), x)).
  { intros x Hx. unfold prepare. rewrite Hav, Hj. unfold new_pretok. rewrite fresh_numbered. cbn [ns_text numbered_ns]. unfold convert_to_string. rewrite (printable_valid s Hs). cbn [bind]. rewrite Hx. reflexivity. }
  rewrite (printable_units s Hs). exists (concat out), junk. destruct (tz_pre t) as [pt|].
  - destruct (pre_items E pt ns (ascii_no_prefix E pt (Hpre pt eq_refl)) _ out ss0 H0 O3) as (ss & S1 & S2 & S3).
    { clear - O1. induction O1 as [|q ws l out H _ IH]; constructor; [|exact IH]. unfold item_words in H. destruct q as [[pos x] f]. exact H. }
    exists ss. split; [exact O2|]. split; [apply HP; exact S1|]. split; [exact S2|]. split; [exact S3 | exact O4].
  - exists ss0. split; [exact O2|]. split; [apply HP; reflexivity|]. clear - O1 H0 O3 O4. assert (Ew : concat out = map fst (flat_map (items_of g s av) (segs_of (av_trie_raw av) s))).
    { clear - O1. induction O1 as [|q ws l out H _ IH]; [reflexivity|]. cbn [concat map]. rewrite IH. unfold item_words in H. destruct q as [[pos x] f]. cbn [fst snd words_at] in *. destruct f; subst ws; reflexivity. }
    rewrite Ew in *. split; [|split; [|exact O4]].
    + clear - H0. induction H0 as [|q x l l' (A1 & A2 & _) _ IH]; constructor; [split; assumption | exact IH].
    + unfold all_valid. rewrite Forall_map. eapply Forall_impl; [|exact O3]. intros q [Q _]. exact Q.
Qed.

(** ** C121 *)
Definition untokened (x : split) : split := mkSplit (sp_text x) (sp_off x) [].
Lemma splits_shape : forall l ss, Forall2 (fun p x => sp_text x = utf8_encs (snd p) /\ fst (sp_off x) = fst p) l ss ->
  exists q, map untokened ss = map (fun p : wstr * (nat * nat) => mkSplit (utf8_encs (fst p)) (snd p) []) q /\ map (fun p : wstr * (nat * nat) => (fst (snd p), fst p)) q = l.
Proof.
  induction 1 as [|[pos x] [tx [o1 o2] tk] l ss (H1 & H2) _ (q & Q1 & <-)]; [exists []; split; reflexivity|]. cbn [sp_text sp_off fst snd] in *. subst. exists ((x, (pos, o2)) :: q). cbn [map fst snd]. rewrite <- Q1. split; reflexivity.
Qed.
Lemma plain_untokened E b : forall ss, plain_words E b ss = plain_words E b (map untokened ss).
Proof. induction ss as [|x ss IH]; [reflexivity|]. unfold plain_words in *. cbn [map mapM sp_text sp_off untokened]. rewrite IH. reflexivity. Qed.
Lemma tokenized_untokened w : forall ss out, Forall2 (fun s s' => sp_text s' = sp_text s /\ sp_off s' = sp_off s /\ wp_word w (sp_text s) = Ok (sp_tokens s')) ss out ->
  Forall2 (fun s s' => sp_text s' = sp_text s /\ sp_off s' = sp_off s /\ wp_word w (sp_text s) = Ok (sp_tokens s')) (map untokened ss) out.
Proof. induction 1; cbn [map]; constructor; assumption. Qed.

(** encode of a BPE tokenizer on a printable ASCII text in which added tokens may occur, whatever letter-by-letter normalizer and pre-tokenizer it has: the words of the text exist and are determined; if every
    word has something in the vocabulary the rows are those of the words in turn, and otherwise encode reads outside an empty word. *)
Theorem C121_bpe : forall E fuel t vocab merges d unk bpre suf fu bf ig b c av ops g s add,
  pq_ok E -> ascii_env E -> new_bpe vocab merges d unk bpre suf fu bf ig = Ok b -> tz_model t = Some (MBpe b c) -> reach_cache E b c ->
  dense (b_vocab b) -> b_vocab b <> [] -> history (b_vocab b) ops av -> Forall simple_token ops -> one_flag ops -> tz_av t = Some av ->
  letters E (tz_norm t) g -> (forall p, tz_pre t = Some p -> cuts_ascii E p) -> s <> [] -> Forall printable s ->
  exists l, added_words E (b_vocab b) ops g (tz_pre t) s l /\ (forall l', added_words E (b_vocab b) ops g (tz_pre t) s l' -> l' = l) /\
    (Forall (fun p => encodable b (snd p)) l -> exists r, snd (encode E fuel (bare t) s add) = Ok r /\ en_overflowing r = [] /\ flat_parallel r /\ rows_of_words (bpe_tokens b) 0 l (rows r)) /\
    (~ Forall (fun p => encodable b (snd p)) l -> snd (encode E fuel t s add) = Undef OobIndex).
Proof.
  intros E fuel t vocab merges d unk bpre suf fu bf ig b c av ops g s add Hq HE Hb Hm Hr Hd Hv HH Hsim Hf Hav Hnorm Hpre Hne Hs.
  destruct (prepare_added E t g (b_vocab b) ops av s HE Hd Hv HH Hsim Hf Hav Hnorm Hpre Hne Hs) as (l & junk & ss & H1 & H2 & H3 & H4 & H5).
  exists l. split; [exact H1|]. split; [intros l' H'; eapply added_words_fun; eassumption|]. destruct (splits_shape l ss H3) as (q & Q1 & <-).
  assert (Hmt : forall p, snd (model_tokenize E (MBpe b c) p) = snd (bpe_tokenize E b c p)) by (intros p; cbn [model_tokenize]; destruct (bpe_tokenize E b c p); reflexivity).
  assert (HT : text_encoding E t s = (l <- plain_words E b (map (fun p => mkSplit (utf8_encs (fst p)) (snd p) []) q) ;; into_rows (numbered_ns (unit_sizes s) junk s) 0 0 l)).
  { unfold text_encoding. rewrite H2. cbn [bind]. rewrite Hm, Hmt, (proj1 (bpe_tokenize_transparent E b c _ (reach_cache_ok E b c Hr))). cbn [pt_splits pt_norm]. rewrite plain_untokened, Q1. destruct (plain_words E b _); reflexivity. }
  assert (HPos : Forall (fun p : nat * wstr => fst p < units s) (map (fun p : wstr * (nat * nat) => (fst (snd p), fst p)) q)) by (eapply Forall_impl; [|exact H5]; intros p K; apply K).
  rewrite !Forall_map. cbn [fst snd]. destruct (words_cases E b vocab merges d unk bpre suf fu bf ig Hq Hb q) as [(Hl & out & O1 & O2)|(Hl & O1)]; rewrite O1 in HT; cbn [bind] in HT.
  - split; [|intros HX; contradiction]. intros _. rewrite encode_bare, HT. destruct (bpe_into_rows E b (numbered_ns (unit_sizes s) junk s) q out 0 O2) as (e & E1 & E2).
    { apply Forall_forall. intros [x o] Hin tx ts. cbn [fst snd]. pose proof (bases s junk q (printable_valid s Hs) x o ts Hin HPos) as K. unfold split_base in *. exact K. }
    exists e. split; [exact E1|]. destruct (into_rows_flat _ _ _ _ _ E1) as [F1 F2]. split; [exact F2|]. split; [exact F1|]. eapply words_weaken; [|exact E2]. intros [pos x] ts _ Hx. cbn [snd] in *. unfold runs in Hx.
    destruct (word_cases E b vocab merges d unk bpre suf fu bf ig Hq Hb x) as [(_ & ts' & T1 & T2)|(_ & T1)]; [|congruence]. assert (ts' = ts) by congruence. subst ts'. exact T2.
  - split; [intros HX; contradiction|]. intros _. rewrite encode_stages, encode_bare, HT. reflexivity.
Qed.
Print Assumptions C121_bpe.
(** The same for WordPiece, which encodes every such text. *)
Theorem C121_wordpiece : forall E fuel t w av ops g s add, ascii_env E -> tz_model t = Some (MWordPiece w) ->
  dense (wp_vocab w) -> wp_vocab w <> [] -> history (wp_vocab w) ops av -> Forall simple_token ops -> one_flag ops -> tz_av t = Some av ->
  letters E (tz_norm t) g -> (forall p, tz_pre t = Some p -> cuts_ascii E p) -> s <> [] -> Forall printable s ->
  exists l r, added_words E (wp_vocab w) ops g (tz_pre t) s l /\ (forall l', added_words E (wp_vocab w) ops g (tz_pre t) s l' -> l' = l) /\
    snd (encode E fuel (bare t) s add) = Ok r /\ en_overflowing r = [] /\ flat_parallel r /\ rows_of_words (word_tokens w) 0 l (rows r).
Proof.
  intros E fuel t w av ops g s add HE Hm Hd Hv HH Hsim Hf Hav Hnorm Hpre Hne Hs.
  destruct (prepare_added E t g (wp_vocab w) ops av s HE Hd Hv HH Hsim Hf Hav Hnorm Hpre Hne Hs) as (l & junk & ss & H1 & H2 & H3 & H4 & H5). exists l.
  destruct (splits_shape l ss H3) as (q & Q1 & <-). assert (HPos : Forall (fun p : nat * wstr => fst p < units s) (map (fun p : wstr * (nat * nat) => (fst (snd p), fst p)) q)) by (eapply Forall_impl; [|exact H5]; intros p K; apply K).
  rewrite encode_bare. unfold text_encoding. rewrite H2. cbn [bind]. rewrite Hm. cbn [model_tokenize snd].
  destruct (wp_tokenize_ok w (mkPt (numbered_ns (unit_sizes s) junk s) ss)) as (out & Hl & HF). cbn [pt_splits pt_norm] in HF, Hl. apply tokenized_untokened in HF. rewrite Q1 in HF. rewrite Hl. cbn [bind]. unfold into_encoding. cbn [pt_norm pt_splits].
  destruct (wp_rows w (numbered_ns (unit_sizes s) junk s) q out 0 H4 HF) as (e & E1 & E2); [intros x o ts Hin; apply (bases s junk q (printable_valid s Hs) x o ts Hin HPos)|].
  exists e. split; [exact H1|]. split; [intros l' H'; eapply added_words_fun; eassumption|]. split; [exact E1|]. destruct (into_rows_flat _ _ _ _ _ E1) as [F1 F2]. auto.
Qed.
Print Assumptions C121_wordpiece.

(** From the configuration file of a BPE tokenizer to its encodings, after any use of the tokenizer: truncated, given its special tokens and padded. *)
Theorem C121_config : forall load parse path cfg text c t0 b toks g E fuel0,
  source load path cfg (Some text) -> parse text = Some (render c) -> config_ok c -> build c = Ok t0 -> pq_ok E -> ascii_env E ->
  tz_model t0 = Some (MBpe b []) -> dense (b_vocab b) -> b_vocab b <> [] -> letters E (cf_norm c) g -> (forall p, cf_pre c = Some p -> cuts_ascii E p) ->
  cf_added c = Some toks -> Forall (fun x => at_special x = true) toks -> sane t0 -> (forall p, cf_post c = Some p -> specials_ok p) ->
  exists t, construct load parse path cfg = Ok t /\
  forall h s add, Forall simple_token (toks ++ given h) -> one_flag (toks ++ given h) -> s <> [] -> Forall printable s ->
  exists l, added_words E (b_vocab b) (toks ++ given h) g (cf_pre c) s l /\
    (Forall (fun p => encodable b (snd p)) l -> exists rs, rows_of_words (bpe_tokens b) 0 l rs /\
       ((Z.of_nat (length rs) < 2 ^ 31)%Z -> (forall k, k <= length rs -> (Z.of_nat (tz_post_length t0 add k) < 2 ^ 31)%Z) ->
        exists r, (forall fuel, length rs + 2 <= fuel -> snd (encode E fuel (after E fuel0 t h) s add) = Ok r) /\ parallel r /\ finished t0 add rs (rows r))) /\
    (~ Forall (fun p => encodable b (snd p)) l -> forall fuel, snd (encode E fuel (after E fuel0 t h) s add) = Undef OobIndex).
Proof.
  intros load parse path cfg text c t0 b toks g E fuel0 Hs Hp Hok Hb HQ HE Hm0 Hd Hne Hn Hpre Ha Hspec Hsane Hsp.
  assert (HB : t0 = mkTz (cf_trunc c) (cf_pad c) (Some (new_added_vocab toks)) (cf_norm c) (cf_pre c) (Some (MBpe b [])) (cf_dec c) (cf_post c) /\ exists vocab merges dr unk pre suf fu bf ig, new_bpe vocab merges dr unk pre suf fu bf ig = Ok b).
  { unfold build in Hb. apply bind_ok in Hb as (m & Hm & Hb). injection Hb as <-. cbn [tz_model] in Hm0. subst m. rewrite Ha. split; [reflexivity|].
    destruct (cf_model c) as [[w|v ms dr u pre suf fu bf ig]|]; cbn [build_model bind] in Hm; [discriminate | | discriminate].
    apply bind_ok in Hm as (m' & Hm' & Hm). injection Hm as ->. apply bind_ok in Hm' as (b' & Hn' & Hm'). injection Hm' as <-. eauto 12. }
  destruct HB as (Ht0 & vocab & merges & dr & unk & bpre & suf & fu & bf & ig & Hnew).
  assert (Ha0 : tz_av t0 = Some (new_added_vocab toks)) by (rewrite Ht0; reflexivity).
  destruct (proj1 (C45_construction t0 toks (MBpe b []) Ha0 Hm0 Hd Hne)) as (t & Hc).
  { apply Forall_forall. intros x Hx. right. exists x. split; [exact Hx|]. split; [exact (proj1 (Forall_forall _ _) Hspec x Hx) | reflexivity]. }
  exists t. split; [rewrite (C79_construct load parse path cfg text c t0 Hs Hp Hok Hb); exact Hc|].
  intros h s add Hst Hof Hs0 Hpr.
  destruct (C38_lifetime E fuel0 t0 (MBpe b []) toks t Hd Hne Ha0 Hm0 ltac:(intros ? ? [= _ <-]; reflexivity) Hc h) as ((av & A1 & A2) & (m & M1 & M2) & S1). cbn [same_model model_vocab] in *.
  destruct m as [w'|b' c']; [contradiction|]. destruct M2 as [<- M2]. remember (after E fuel0 t h) as u eqn:Hu. destruct S1 as (S1 & S2 & S3 & S4 & S5 & S6).
  assert (U3 : tz_norm u = cf_norm c) by (rewrite S3, Ht0; reflexivity). assert (U4 : tz_pre u = cf_pre c) by (rewrite S4, Ht0; reflexivity).
  assert (HR : forall fuel, exists l, added_words E (b_vocab b) (toks ++ given h) g (cf_pre c) s l /\ (forall l', added_words E (b_vocab b) (toks ++ given h) g (cf_pre c) s l' -> l' = l) /\
    (Forall (fun p => encodable b (snd p)) l -> exists r, snd (encode E fuel (bare u) s add) = Ok r /\ en_overflowing r = [] /\ flat_parallel r /\ rows_of_words (bpe_tokens b) 0 l (rows r)) /\
    (~ Forall (fun p => encodable b (snd p)) l -> snd (encode E fuel u s add) = Undef OobIndex)).
  { intros fuel. rewrite <- U4. eapply (C121_bpe E fuel u vocab merges dr unk bpre suf fu bf ig b c' av (toks ++ given h) g s add); try eassumption; [rewrite U3; exact Hn | rewrite U4; exact Hpre]. }
  destruct (HR 0) as (l & L1 & L2 & L3 & _). exists l. split; [exact L1|]. split.
  - intros Hl. destruct (L3 Hl) as (core & H1 & H2 & H3 & H4). exists (rows core). split; [exact H4|]. rewrite rows_length by exact H3. intros Hlen Hk.
    destruct Hok as (Kt & Kp & _).
    destruct (sane_finishes E u s add core H1) as (r & R1 & R2 & R3).
    + split; intros x Hx; [rewrite S1, Ht0 in Hx; cbn [tz_trunc] in Hx; rewrite Hx in Kt; exact (int32_same _ (proj1 Kt)) | rewrite S2, Ht0 in Hx; cbn [tz_pad] in Hx; rewrite Hx in Kp; destruct Kp as (_ & _ & K3 & K4 & _); split; apply int32_same; assumption].
    + intros tr Hx. rewrite S1, Ht0 in Hx. cbn [tz_trunc] in Hx. rewrite Hx in Kt. exact (int32_same _ (proj2 Kt)).
    + destruct Hsane as [Q1 Q2]. split; [intros tr Hx; apply Q1; congruence | intros p Hx; apply Q2; congruence].
    + intros p Hx. apply Hsp. rewrite S6, Ht0 in Hx. exact Hx.
    + exact Hlen.
    + intros k Hk'. specialize (Hk k Hk'). unfold tz_post_length in *. rewrite S6. exact Hk.
    + exists r. split; [exact R1|]. split; [exact R2|]. unfold finished in *. rewrite S1, S2, S6 in R3. exact R3.
  - intros Hl fuel. destruct (HR fuel) as (l' & _ & L2' & _ & L4'). rewrite <- (L2' l L1) in L4'. exact (L4' Hl).
Qed.
Print Assumptions C121_config.

(** *** A case *)
(** A small GPT-2: bytes, two merges, the special token "<s>", which is not normalized, and "ba", added later by the user. *)
Definition gpt_vocab : smap Z := [(str "a", 0); (str "b", 1); (str "ab", 2); (str "<s>", 3); (str "ba", 4); (str "abb", 5)]%Z.
Definition gpt_config : config :=
  mkConfig (Some (mkTrunc TRight LongestFirst 8 0)) None (Some [mkAt 3 (str "<s>") false false false false true]) (Some (NForm NFC)) (Some (TByteLevel false true))
    (Some (CBpe gpt_vocab [str "a b"; str "ab b"] (QArith_base.Qmake 0 1) [] [] [] false false true)) (Some DByteLevel) None.
Definition gpt_history : list call := [CallEncode (str "abb") true; CallAddTokens [mkAt 0 (str "ba") false false false true false]].
Definition gpt_text : wstr := str "<s>bab abb <s>".
Definition gpt_tokens : list added_token := [mkAt 3 (str "<s>") false false false false true; mkAt 0 (str "ba") false false false true false].
(** The words: the special token, the added token, the bytes of "b abb " as GPT-2 characters, the special token. *)
Lemma gpt_words : added_words test_env gpt_vocab gpt_tokens (fun c => c) (Some (TByteLevel false true)) gpt_text
  [(0, str "<s>"); (3, str "ba"); (5, (str "b" ++ [0x120%N] ++ str "abb" ++ [0x120%N])); (11, str "<s>")].
Proof.
  assert (T : forall b (c : bytes), takes_part gpt_vocab gpt_tokens b c <-> c = (if b then str "ba" else str "<s>")).
  { intros b c. unfold takes_part. split.
    - intros (_ & t & Ht & <- & Hb). cbn in Ht. destruct Ht as [<-|[<-|[]]]; cbn in Hb; subst b; reflexivity.
    - intros ->. split; [destruct b; vm_compute; discriminate|]. destruct b; [exists (mkAt 0 (str "ba") false false false true false) | exists (mkAt 3 (str "<s>") false false false false true)]; cbn; auto. }
  exists [(0, str "<s>"); (11, str "<s>")], [((0, str "<s>"), true); ((3, str "bab abb "), false); ((11, str "<s>"), true)], [[(0, str "<s>")]; [(3, str "ba"); (5, (str "b" ++ [0x120%N] ++ str "abb" ++ [0x120%N]))]; [(11, str "<s>")]].
  split; [|split; [|split; [|reflexivity]]].
  - apply (fd_token _ _ 0 (str "<s>") (str "bab abb <s>")); [discriminate | cbn; intuition discriminate | apply T; reflexivity | intros k Hk K; apply T in K; destruct k as [|[|[|k]]]; cbn in *; try discriminate; lia|].
    apply (fd_rest _ _ 3 (str "bab") (str " abb <s>") []); [discriminate | cbn; intuition discriminate | right; eexists; reflexivity | intros k Hk K; apply T in K; destruct k as [|[|[|[|k]]]]; cbn in *; try discriminate; lia | reflexivity|].
    apply fd_space. apply (fd_rest _ _ 7 (str "abb") (str " <s>") []); [discriminate | cbn; intuition discriminate | right; eexists; reflexivity | intros k Hk K; apply T in K; destruct k as [|[|[|[|k]]]]; cbn in *; try discriminate; lia | reflexivity|].
    apply fd_space. apply (fd_token _ _ 11 (str "<s>") []); [discriminate | cbn; intuition discriminate | apply T; reflexivity | intros k Hk K; apply T in K; destruct k as [|[|[|k]]]; cbn in *; try discriminate; lia|]. constructor.
  - apply (dv_match 0 (str "<s>") (str "bab abb <s>")). apply (dv_gap 3 (str "bab abb ") (str "<s>") 11 14); [discriminate | reflexivity|]. apply (dv_match 11 (str "<s>") []). constructor.
  - apply Forall2_cons; [reflexivity|]. apply Forall2_cons; [|apply Forall2_cons; [reflexivity | apply Forall2_nil]]. cbn [fst snd].
    exists [(3, str "ba")], [((3, str "ba"), true); ((5, str "b abb "), false)], [[(3, str "ba")]; [(5, (str "b" ++ [0x120%N] ++ str "abb" ++ [0x120%N]))]]. split; [|split; [|split; [|reflexivity]]].
    + apply (fd_token _ _ 3 (str "ba") (str "b abb ")); [discriminate | cbn; intuition discriminate | apply T; reflexivity | intros k Hk K; apply T in K; destruct k as [|[|k]]; cbn in *; try discriminate; lia|].
      apply (fd_rest _ _ 5 (str "b") (str " abb ") []); [discriminate | cbn; intuition discriminate | right; eexists; reflexivity | intros k Hk K; apply T in K; destruct k as [|[|k]]; cbn in *; try discriminate; lia | reflexivity|].
      apply fd_space. apply (fd_rest _ _ 7 (str "abb") (str " ") []); [discriminate | cbn; intuition discriminate | right; eexists; reflexivity | intros k Hk K; apply T in K; destruct k as [|[|[|[|k]]]]; cbn in *; try discriminate; lia | reflexivity|].
      apply fd_space. constructor.
    + apply (dv_match 3 (str "ba") (str "b abb ")). apply dv_rest. discriminate.
    + apply Forall2_cons; [reflexivity|]. apply Forall2_cons; [|apply Forall2_nil]. cbn [fst snd words_at cuts_into]. exists [[(5, (str "b" ++ [0x120%N] ++ str "abb" ++ [0x120%N]))]]. split; [|reflexivity]. apply Forall2_cons; [|apply Forall2_nil].
      split; [right; cbv [str snd ascii]; repeat (apply Forall_cons; [reflexivity|]); apply Forall_nil|]. exists [str "b abb "]. split; [exact (apos_pieces_ok 6 (str "b abb ") (le_n _) [] [] (fun H => H)) | vm_compute; reflexivity].
Qed.
Example C121_case : exists t0 b, build gpt_config = Ok t0 /\ config_ok gpt_config /\ tz_model t0 = Some (MBpe b []) /\ dense (b_vocab b) /\ b_vocab b = gpt_vocab /\ letters test_env (cf_norm gpt_config) (fun c => c) /\
  (forall p, cf_pre gpt_config = Some p -> cuts_ascii test_env p) /\ sane t0 /\ ascii_env test_env /\ pq_ok test_env /\
  cf_added gpt_config = Some [mkAt 3 (str "<s>") false false false false true] /\ gpt_tokens = [mkAt 3 (str "<s>") false false false false true] ++ given gpt_history /\ Forall simple_token gpt_tokens /\ one_flag gpt_tokens /\ Forall printable gpt_text /\
  exists t, construct (fun _ => None) (fun _ => Some (render gpt_config)) [] (str "{}") = Ok t /\
  (exists r, snd (encode test_env 20 (after test_env 10 t gpt_history) gpt_text true) = Ok r /\
    en_tokens r = map str ["<s>"; "ba"; "b"; "abb"; "<s>"] /\ en_ids r = [3; 4; 1; 5; 3]%Z /\ en_words r = [Some 0; Some 1; Some 2; Some 2; Some 3] /\ en_offsets r = [(0, 0); (3, 3); (5, 6); (6, 9); (11, 11)]) /\
  snd (encode test_env 20 (after test_env 10 t gpt_history) (str "abb's <s>") true) = Undef OobIndex.
Proof.
  eexists. eexists. split; [vm_compute; reflexivity|]. split; [|split; [reflexivity|]].
  - unfold config_ok, gpt_config, gpt_vocab, opt_ok, trunc_ok, pad_ok, model_ok, vocab_ok, dec_ok, post_ok, ConfigSpec.int32, plain. cbn [cf_trunc cf_pad cf_added cf_model cf_dec cf_post t_max t_stride map fst snd].
    assert (HP : forall s, forallb (fun b => negb (b =? 34) && negb (b =? 92) && (32 <=? b))%N s = true -> Forall (fun b => b <> 34%N /\ b <> 92%N /\ (32 <= b)%N) s).
    { intros s H. apply Forall_forall. intros b Hb. rewrite forallb_forall in H. specialize (H b Hb). lia. }
    repeat match goal with |- _ /\ _ => split | |- True => exact I | |- Forall _ (_ :: _) => apply Forall_cons | |- Forall _ [] => apply Forall_nil end; cbn [fst snd at_id pc_type st_ids]; try lia; try reflexivity; try (apply HP; reflexivity).
    all: repeat (apply NoDup_cons; [cbn; intuition discriminate|]); try apply NoDup_nil; repeat (apply Forall_cons; [cbn; lia|]); try apply Forall_nil.
  - split; [split; [|split]; vm_compute; repeat (constructor; [cbn; intuition discriminate|]); try constructor; repeat (constructor; [vm_compute; split; congruence|]); constructor|].
    split; [reflexivity|]. split; [split; [reflexivity | reflexivity]|]. split; [intros p [= <-]; reflexivity|]. split; [split; intros x [= <-]; cbn; lia|]. split; [exact test_ascii|]. split; [exact test_env_pq|]. split; [reflexivity|]. split; [reflexivity|].
    split; [repeat (apply Forall_cons || apply Forall_nil); (split; [repeat split|]; split; [discriminate|]); cbv [at_content str]; repeat (apply Forall_cons || apply Forall_nil); reflexivity|].
    split; [intros t t' H H' E; cbn in H, H'; repeat (destruct H as [<-|H]; [repeat (destruct H' as [<-|H']; [try reflexivity; discriminate|]); destruct H'|]); destruct H|].
    split; [cbv [str gpt_text]; repeat (apply Forall_cons || apply Forall_nil); unfold printable; vm_compute; split; congruence|].
    eexists. split; [vm_compute; reflexivity|]. split; [eexists; split; [vm_compute; reflexivity | repeat split] | vm_compute; reflexivity].
Qed.
