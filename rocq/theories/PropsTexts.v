(** C137: texts of the basic plane in which added tokens occur, any normalizer and pre-tokenizer. Specification: TextsSpec.v, PartsSpec.v. *)
From Verif Require Import Base BaseFacts Unicode UnicodeProofs Common Utils PostProcessor Decoder Normalizer PreTokenizer WordPiece Bpe AddedVocab Tokenizer Config ConfigSpec
  Spec PostSpec DecSpec NormSpec NormProofs PreSpec PreProofs AvSpec AvProofs ExtractProofs TzSpec TzProofs WpSpec WpProofs OffSpec OffProofs RefSpec RefProofs MixSpec MixProofs HistSpec HistProofs LenSpec FullSpec BpeSpec BpeProofs BpeWord UnkSpec ByteSpec
  PropsReference PropsConfig PropsAdded PropsLifetime PropsText PropsMixed OutSpec PropsFinish PropsFull PropsPre PropsOffsets PropsEncode PropsBpe PropsByteBpe BpeRefSpec PropsBpeText CutSpec PropsCut PropsBertConfig PartsSpec PropsParts PropsTotal TextsSpec Env.
From Coq Require Import ZifyBool ZifyNat ZifyN.
Import ListNotations.

Definition plane (c : N) : Prop := (c < 0x10000)%N /\ valid_cp c = true.
Lemma plane_text s : bmp s -> forallb valid_cp s = true -> Forall plane s.
Proof. intros H1 H2. rewrite forallb_forall in H2. apply Forall_forall. intros c Hc. split; [exact (proj1 (Forall_forall _ _) H1 c Hc) | exact (H2 c Hc)]. Qed.
Lemma plane_bmp s : Forall plane s -> bmp s.
Proof. apply Forall_impl. intros c H. apply H. Qed.
Lemma plane_valid s : Forall plane s -> forallb valid_cp s = true.
Proof. intros H. apply forallb_forall. intros c Hc. apply (proj1 (Forall_forall _ _) H c Hc). Qed.
Lemma plane_slice s a b : Forall plane s -> Forall plane (slice s a b).
Proof. intros H. apply slice_all. exact H. Qed.
Lemma plane_units s : Forall plane s -> units s = length s.
Proof. intros H. unfold units. rewrite bmp_utf16 by (apply plane_bmp; exact H). reflexivity. Qed.
Lemma slice_plane_units u a b : Forall plane u -> a <= b -> b <= length u -> units (slice u a b) = b - a.
Proof. intros Hu H1 H2. rewrite plane_units by (apply plane_slice; exact Hu). apply slice_length; assumption. Qed.
Lemma firstn_plane k (c : wstr) : Forall plane c -> Forall plane (firstn k c).
Proof. intros H. rewrite <- (firstn_skipn k c) in H. apply Forall_app in H. apply H. Qed.

(** ** The tokens found in a text of the basic plane *)
Lemma divided_plane u d : Forall plane u -> forall l pos, ordered pos (length u) (map fst l) ->
  divided (d + pos) (skipn pos u) (map (fun m : nat * nat * Z => (d + fst (fst m), d + snd (fst m))) l) (map (seg_item u d) (plain_segs pos (length u) l)).
Proof.
  intros Hu. induction l as [|[[a b] k] l IH]; intros pos Ho; cbn [map ordered fst snd plain_segs] in *.
  - destruct (Nat.eqb_spec pos (length u)) as [->|Hn]; cbn [map]; [rewrite skipn_all; constructor|]. unfold seg_item. cbn [fst snd].
    rewrite <- (app_nil_r (skipn pos u)). replace (slice u pos (length u)) with (skipn pos u) by (unfold slice; rewrite firstn_all2 by (rewrite skipn_length; lia); reflexivity). rewrite app_nil_r. apply dv_rest.
    intros E0. apply (f_equal (@length N)) in E0. rewrite skipn_length in E0. cbn in E0. lia.
  - destruct Ho as (O1 & O2 & O3 & O4). specialize (IH b O4).
    assert (HM : divided (d + a) (skipn a u) ((d + a, d + b) :: map (fun m : nat * nat * Z => (d + fst (fst m), d + snd (fst m))) l) (map (seg_item u d) ((Some k, (a, b)) :: plain_segs b (length u) l))).
    { cbn [map]. unfold seg_item at 1. cbn [fst snd]. rewrite (skip_slice u a b) by assumption. replace (d + b) with (d + a + units (slice u a b)) by (rewrite slice_plane_units by assumption; lia). apply dv_match.
      replace (d + a + units (slice u a b)) with (d + b) by (rewrite slice_plane_units by assumption; lia). exact IH. }
    destruct (Nat.ltb_spec pos a) as [Hlt|Hge]; cbn [app].
    + cbn [map]. unfold seg_item at 1. cbn [fst snd]. rewrite (skip_slice u pos a) by lia. apply dv_gap; [| |exact HM].
      * intros E0. apply (f_equal (@length N)) in E0. rewrite slice_length in E0 by lia. cbn in E0. lia.
      * rewrite slice_plane_units by (assumption || lia). lia.
    + assert (a = pos) as -> by lia. exact HM.
Qed.
Lemma found_plane tok known u d : Forall plane u -> (forall c, Forall plane c -> c <> [] -> (tok c <-> id_of known c <> None)) ->
  forall pos r l, found known pos r l -> r = skipn pos u -> pos + length r = length u ->
  fields tok (fun _ _ none => none = []) (d + pos) r (map (fun m => (d + fst (fst m), slice u (fst (fst m)) (snd (fst m)))) l) /\ Forall (fun m => tok (slice u (fst (fst m)) (snd (fst m))) /\ ~ In 32%N (slice u (fst (fst m)) (snd (fst m)))) l.
Proof.
  intros Hu Htok. assert (HP : forall pos (c s : wstr), c ++ s = skipn pos u -> Forall plane c).
  { intros pos c s E0. assert (K : Forall plane (skipn pos u)) by (rewrite <- (firstn_skipn pos u) in Hu; apply Forall_app in Hu; apply Hu). rewrite <- E0 in K. apply Forall_app in K. apply K. }
  induction 1 as [pos|pos r l H IH|pos c r k l Hn Hs Hk Hm H IH|pos c r l Hn Hs Hr Hm H IH]; intros Er El; cbn [map fst snd].
  - split; constructor.
  - cbn [length] in El. destruct IH as [I1 I2]; [rewrite <- Nat.add_1_r, <- skipn_skipn', <- Er; reflexivity | lia|]. split; [|exact I2]. apply fd_space. rewrite <- Nat.add_succ_r. exact I1.
  - rewrite app_length in El. assert (Er' : r = skipn (pos + length c) u) by (rewrite <- skipn_skipn', <- Er, skipn_app, skipn_all, Nat.sub_diag; reflexivity). destruct (IH Er') as [I1 I2]; [lia|].
    assert (Ec : slice u pos (pos + length c) = c) by (unfold slice; rewrite <- Er; replace (pos + length c - pos) with (length c) by lia; rewrite firstn_app, firstn_all, Nat.sub_diag; cbn [firstn]; apply app_nil_r).
    pose proof (HP pos c r Er) as Hpc. assert (Ht : tok c) by (apply Htok; [exact Hpc | exact Hn | congruence]). rewrite Ec. split; [|constructor; [cbn [fst snd]; rewrite Ec; auto | exact I2]]. apply fd_token; [exact Hn | exact Hs | exact Ht | |].
    + intros j Hj K. apply Htok in K; [|apply firstn_plane; exact Hpc | apply firstn_more; [exact Hn | lia]]. rewrite Hm in K by exact Hj. congruence.
    + rewrite <- Nat.add_assoc. exact I1.
  - rewrite app_length in El. assert (Er' : r = skipn (pos + length c) u) by (rewrite <- skipn_skipn', <- Er, skipn_app, skipn_all, Nat.sub_diag; reflexivity). destruct (IH Er') as [I1 I2]; [lia|].
    pose proof (HP pos c r Er) as Hpc. split; [|exact I2]. apply (fd_rest tok _ (d + pos) c r []); [exact Hn | exact Hs | exact Hr | | reflexivity | rewrite <- Nat.add_assoc; exact I1].
    intros j Hj K. apply Htok in K; [|apply firstn_plane; exact Hpc | apply firstn_more; [exact Hn | lia]]. rewrite Hm in K by exact Hj. congruence.
Qed.
Lemma trie_plane tok known u d : Forall plane u -> (forall k, ~ In ([], k) known) -> (forall c, Forall plane c -> c <> [] -> (tok c <-> id_of known c <> None)) ->
  (exists tokens, fields tok (fun _ _ none => none = []) d u tokens /\ divided d u (map (fun p => (fst p, fst p + units (snd p))) tokens) (map (seg_item u d) (segs_of known u))) /\
  Forall (fun q : (nat * wstr) * bool => snd q = true -> tok (snd (fst q)) /\ ~ In 32%N (snd (fst q))) (map (seg_item u d) (segs_of known u)).
Proof.
  intros Hu Hne Htok. set (l := raw_matches (word_ids known) u (length u) 0 0). pose proof (scan_found known u Hne (length u) 0 0 eq_refl (le_n _) ltac:(cbn; tauto) ltac:(cbn; lia)) as HF. fold l in HF. cbn [skipn] in HF.
  destruct (found_plane tok known u d Hu Htok 0 u l HF eq_refl eq_refl) as [H1 H2]. rewrite Nat.add_0_r in H1. destruct (raw_matches_ok (word_ids known) u (length u) 0 0 eq_refl (le_n _)) as [Ho Hh]. fold l in Ho, Hh. unfold segs_of. fold l. split.
  - eexists. split; [exact H1|]. pose proof (divided_plane u d Hu l 0 Ho) as HD. rewrite Nat.add_0_r in HD. cbn [skipn] in HD. rewrite map_map. cbn [fst snd].
    replace (map (fun x => (d + fst (fst x), d + fst (fst x) + units (slice u (fst (fst x)) (snd (fst x))))) l) with (map (fun m : nat * nat * Z => (d + fst (fst m), d + snd (fst m))) l); [exact HD|].
    clear - Ho Hu. revert Ho. generalize 0. induction l as [|[[a b] k] l IH]; intros pos Ho; [reflexivity|]. cbn [map fst snd ordered] in *. destruct Ho as (O1 & O2 & O3 & O4). rewrite (IH b O4). f_equal. f_equal. rewrite slice_plane_units by assumption. lia.
  - apply Forall_map. eapply Forall_impl; [|apply (plain_segs_tokens (fun r => tok (slice u (fst r) (snd r)) /\ ~ In 32%N (slice u (fst r) (snd r))) (length u) l 0 H2)]. intros [o r] K. unfold seg_item. cbn [fst snd] in *. destruct o; [intros _; apply K; discriminate | discriminate].
Qed.
Lemma printable_simple t : printable_token t -> simple_token t.
Proof. intros (H1 & H2 & H3). split; [exact H1|]. split; [exact H2|]. eapply Forall_impl; [|exact H3]. unfold printable. intros. lia. Qed.
Lemma encs_printable c x : forallb valid_cp c = true -> Forall printable x -> utf8_encs c = x -> c = x.
Proof.
  intros Hc Hx H. pose proof (proj2 (convert_from_string_iff x c) (conj (eq_sym H) Hc)) as K1. pose proof (proj2 (convert_from_string_iff x x) (conj (eq_sym (proj1 (ascii_encs x (printable_ascii x Hx)))) (printable_valid x Hx))) as K2. congruence.
Qed.
Lemma known_plane v ops av b c : dense v -> v <> [] -> history v ops av -> one_flag ops -> Forall printable_token ops -> Forall plane c -> c <> [] ->
  (takes_part v ops b c <-> id_of (if b then av_trie_norm av else av_trie_raw av) c <> None).
Proof.
  intros Hd Hne HH Hf Hp Hc Hn. assert (HX : takes_part v ops b c \/ id_of (if b then av_trie_norm av else av_trie_raw av) c <> None -> Forall printable c).
  { intros [(_ & t & Ht & <- & _)|K]; [apply (proj1 (Forall_forall _ _) Hp t Ht)|]. unfold id_of in K. rewrite <- (bmp_utf16 c (plane_bmp c Hc)), (to_utf8_encs c (plane_valid c Hc)) in K. apply sfind_some_in in K as (i & Hi). apply in_rev in Hi.
    assert (Hin : In (utf8_encs c, i) (av_trie_norm av ++ av_trie_raw av)) by (apply in_app_iff; destruct b; auto). destruct (trie_model v ops av _ i (history_ok v ops av Hd Hne HH) Hin) as (_ & tok & T1 & T2).
    pose proof (proj1 (Forall_forall _ _) Hp tok T1) as (_ & _ & T3). rewrite (encs_printable c (at_content tok) (plane_valid c Hc) T3 (eq_sym T2)). exact T3. }
  split; intros H; apply (known_takes_part v ops av b c Hd Hne HH Hf (HX ltac:(auto)) Hn); exact H.
Qed.

(** ** The texts of the words do not depend on the position *)
Lemma cuts_moved E : forall t l l', cuts_into E t l l' -> forall m, map snd m = map snd l -> exists m', cuts_into E t m m' /\ map snd m' = map snd l'.
Proof.
  assert (HE : forall R : nat * wstr -> list (nat * wstr) -> Prop, (forall p ps, R p ps -> forall q, snd q = snd p -> exists qs, R q qs /\ map snd qs = map snd ps) -> forall l l', each R l l' -> forall m, map snd m = map snd l -> exists m', each R m m' /\ map snd m' = map snd l').
  { intros R HR l l' (out & HF & ->). induction HF as [|p ps l out Hp _ IH]; intros m Hm; [apply map_eq_nil in Hm as ->; exists []; split; [exists []; split; constructor | reflexivity]|].
    destruct m as [|q m]; [discriminate|]. cbn [map] in Hm. injection Hm as Hq Hm. destruct (HR p ps Hp q Hq) as (qs & Q1 & Q2). destruct (IH m Hm) as (m' & (outm & O1 & ->) & O2). exists (qs ++ concat outm). split; [exists (qs :: outm); split; [constructor; assumption | reflexivity]|].
    cbn [concat]. rewrite !map_app, Q2, O2. reflexivity. }
  assert (HP : forall l a b, map snd (place a l) = map snd (place b l)) by (induction l as [|w l IH]; intros a b; [reflexivity|]; cbn [place map snd]; f_equal; apply IH).
  assert (HG : forall l1 l2 : list (nat * wstr), map snd l1 = map snd l2 -> map (fun x => map gpt2_cp (utf8_encs (snd x))) l1 = map (fun x => map gpt2_cp (utf8_encs (snd x))) l2).
  { induction l1 as [|[a x] l1 IH]; intros [|[b y] l2] K; cbn [map snd] in *; try discriminate; [reflexivity|]. injection K as K1 K2. subst y. rewrite (IH l2 K2). reflexivity. }
  fix IH 1. intros [|pat bh iv|aps rx|ts] l l' H m Hm; cbn [cuts_into] in *.
  - revert m Hm. apply HE; [|exact H]. clear. intros [a x] ps Hp [b y] Hq. cbn [fst snd] in *. subst y. destruct (bert_split_total (e_u_space E) (e_u_punct E) (length x) x b (le_n _)) as (qs & Hqs). exists qs. split; [exact Hqs|].
    rewrite (TextProofs.split_bw _ _ _ _ _ Hqs), (TextProofs.split_bw _ _ _ _ _ Hp). reflexivity.
  - revert m Hm. apply HE; [|exact H]. clear. intros [a x] ps (ms & segs & H1 & H2 & ->) [b y] Hq. cbn [fst snd] in *. subst y. eexists. split; [exists ms, segs; cbn [fst snd]; split; [exact H1|]; split; [exact H2 | reflexivity]|]. rewrite !map_map. reflexivity.
  - destruct aps; [contradiction|]. revert m Hm. apply HE; [|exact H]. intros [a x] ps (H1 & ps' & H2 & ->) [b y] Hq. cbn [fst snd] in *. subst y. eexists. split; [split; [exact H1|]; exists ps'; cbn [fst snd]; split; [exact H2 | reflexivity]|].
    rewrite !map_map. cbn [snd]. apply HG. apply HP.
  - revert l m H Hm. induction ts as [|q ts IHs]; intros l m H Hm; [subst l'; exists m; auto|]. destruct H as (k & K1 & K2). destruct (IH q l k K1 m Hm) as (k' & K3 & K4). destruct (IHs k k' K2 K4) as (m' & M1 & M2). exists m'. split; [exists k'; auto | exact M2].
Qed.
Lemma words_at_moved E pre x a b l : words_at E pre a x l -> exists l', words_at E pre b x l' /\ map snd l' = map snd l.
Proof. destruct pre as [t|]; cbn [words_at]; [intros H; exact (cuts_moved E t _ _ H [(b, x)] eq_refl) | intros ->; exists [(b, x)]; split; reflexivity]. Qed.
Lemma words_at_total E pre pos x : (forall t, pre = Some t -> cuttable E t) -> forallb valid_cp x = true -> exists l, words_at E pre pos x l.
Proof. intros H Hv. destruct pre as [t|]; cbn [words_at]; [apply cuts_total; [exact (H t eq_refl) | constructor; [exact Hv | constructor]] | eauto]. Qed.

(** ** Pieces *)
Definition seg_text (u : wstr) (p : option Z * (nat * nat)) : wstr * bool := (slice u (fst (snd p)) (snd (snd p)), match fst p with Some _ => true | None => false end).
Definition t_holds (q : wstr * bool) (s : split) : Prop := sp_text s = utf8_encs (fst q) /\ (if snd q then sp_tokens s <> [] else sp_tokens s = []).
Definition good_text (q : wstr * bool) : Prop := forallb valid_cp (fst q) = true /\ (snd q = true -> Forall printable (fst q) /\ ~ In 32%N (fst q)).
Lemma seg_t_holds u base p : t_holds (seg_text u p) (seg_split u base p).
Proof. unfold t_holds, seg_text, seg_split. cbn [fst snd sp_text sp_tokens]. split; [reflexivity|]. destruct (fst p); [discriminate | reflexivity]. Qed.
Lemma map_t_holds u base segs : Forall2 t_holds (map (seg_text u) segs) (map (seg_split u base) segs).
Proof. induction segs as [|p segs IH]; cbn [map]; constructor; [apply seg_t_holds | exact IH]. Qed.
Definition piece_made (E : env) (norm : option normalizer) (trie : list (bytes * Z)) (q : wstr * bool) (it : list (wstr * bool)) : Prop :=
  if snd q then it = [q] else exists sub, run_norm E norm (fst q) = Ok sub /\ Forall plane (ns_text sub) /\ it = map (seg_text (ns_text sub)) (segs_of trie (ns_text sub)).
Lemma normalize_items E norm trie map_r : plain_ids map_r trie -> forall raw L ns ending ns' m' out, Forall2 t_holds L raw -> Forall (fun q => forallb valid_cp (fst q) = true) L ->
  (forall q sub, In q L -> run_norm E norm (fst q) = Ok sub -> bmp (ns_text sub)) ->
  normalize_splits E norm trie ns map_r ending raw = Ok (ns', m', out) -> m' = map_r /\ exists LL, Forall2 (piece_made E norm trie) L LL /\ Forall2 t_holds (concat LL) out.
Proof.
  intros HP. induction raw as [|x raw IH]; intros L ns ending ns' m' out HF HV HB H; inversion HF as [|q ? L' ? Hq HF']; subst; cbn [normalize_splits] in H.
  - injection H as <- <- <-. split; [reflexivity|]. exists []. split; constructor.
  - pose proof (Forall_inv HV) as V1. pose proof (Forall_inv_tail HV) as V2. cbn beta in V1. assert (HB' : forall q sub, In q L' -> run_norm E norm (fst q) = Ok sub -> bmp (ns_text sub)) by (intros q0 sub Hin; apply HB; right; exact Hin).
    destruct Hq as [Q1 Q2]. destruct (sp_tokens x) as [|t ts] eqn:Et.
    + destruct (snd q) eqn:Ef; [congruence|]. rewrite Q1 in H. rewrite (proj2 (convert_from_string_iff _ (fst q)) (conj eq_refl V1)) in H. cbn [bind] in H. fold (run_norm E norm (fst q)) in H.
      destruct (run_norm E norm (fst q)) as [sub| | |] eqn:En; cbn [bind] in H; try discriminate.
      destruct (transform_range ns (ending, ending + snd (sp_off x) - fst (sp_off x)) sub) as [ns1| | |]; cbn [bind] in H; try discriminate.
      pose proof (HB q sub (or_introl eq_refl) En) as Hb. unfold convert_to_string at 1 in H. destruct (forallb valid_cp (ns_text sub)) eqn:Hv; cbn [bind] in H; [|discriminate].
      destruct (find_plain map_r (utf8_encs (ns_text sub)) trie HP) as [Hf _]. rewrite Hf in H. cbn [bind] in H. rewrite from_utf8_encs, bmp_utf16 in H by assumption.
      rewrite (norm_splits_ok _ _ _ 0 Hv (segs_chained _ _)) in H. cbn [bind] in H.
      destruct (normalize_splits E norm trie ns1 map_r (ending + length (ns_text sub)) raw) as [[[ns2 m2] rest]| | |] eqn:Er; cbn [bind] in H; try discriminate. injection H as <- <- <-.
      destruct (IH _ _ _ _ _ _ HF' V2 HB' Er) as (-> & LL & H1 & H2). split; [reflexivity|]. exists (map (seg_text (ns_text sub)) (segs_of trie (ns_text sub)) :: LL). split; [constructor; [|exact H1] | cbn [concat]; apply Forall2_app; [apply map_t_holds | exact H2]].
      unfold piece_made. rewrite Ef. exists sub. split; [exact En|]. split; [apply plane_text; assumption | reflexivity].
    + destruct (normalize_splits E norm trie ns map_r (ending + length (sp_text x)) raw) as [[[ns2 m2] rest]| | |] eqn:Er; cbn [bind] in H; try discriminate. injection H as <- <- <-.
      destruct (IH _ _ _ _ _ _ HF' V2 HB' Er) as (-> & LL & H1 & H2). split; [reflexivity|]. destruct (snd q) eqn:Ef; [|discriminate]. exists ([q] :: LL). split; [constructor; [unfold piece_made; rewrite Ef; reflexivity | exact H1]|].
      cbn [concat app]. constructor; [|exact H2]. split; [exact Q1 | rewrite Ef; discriminate].
Qed.

(** ** Cutting the pieces *)
Definition item_texts (E : env) (pre : option pre_tokenizer) (q : wstr * bool) (ws : list wstr) : Prop := if (snd q : bool) then ws = [fst q] else exists l, words_at E pre 0 (fst q) l /\ ws = map snd l.
Lemma pre_texts E pre ns items ss : (forall t, pre = Some t -> cuttable E t) -> Forall2 t_holds items ss -> Forall good_text items ->
  exists TT ss', Forall2 (item_texts E pre) items TT /\ match pre with Some pt => pre_tokenize E pt (mkPt ns ss) | None => Ok (mkPt ns ss) end = Ok (mkPt ns ss') /\
    Forall2 (fun x s => sp_text s = utf8_encs x) (concat TT) ss' /\ Forall (fun x => forallb valid_cp x = true) (concat TT).
Proof.
  intros Hpre HF HG.
  assert (HL : exists L out TT, Forall2 item_holds L ss /\ Forall (fun q : (nat * wstr) * bool => forallb valid_cp (snd (fst q)) = true /\ (snd q = true -> Forall printable (snd (fst q)) /\ ~ In 32%N (snd (fst q)))) L /\
    Forall2 (fun q ws => if (snd q : bool) then ws = [fst q] else words_at E pre (fst (fst q)) (snd (fst q)) ws) L out /\ Forall2 (item_texts E pre) items TT /\ map (map snd) out = TT).
  { revert HG. induction HF as [|[x f] s items ss [H1 H2] _ IH]; intros HG; [exists [], [], []; repeat split; constructor|]. pose proof (Forall_inv HG) as [G1 G2]. destruct (IH (Forall_inv_tail HG)) as (L & out & TT & I1 & I2 & I3 & I4 & I5). cbn [fst snd] in *.
    destruct f.
    - exists (((fst (sp_off s), x), true) :: L), ([(fst (sp_off s), x)] :: out), ([x] :: TT). split; [constructor; [split; [exact H1|]; split; [reflexivity | exact H2] | exact I1]|]. split; [constructor; [cbn [fst snd]; auto | exact I2]|].
      split; [constructor; [reflexivity | exact I3]|]. split; [constructor; [reflexivity | exact I4] | cbn [map snd]; rewrite I5; reflexivity].
    - destruct (words_at_total E pre (fst (sp_off s)) x Hpre G1) as (l & Hl). destruct (words_at_moved E pre x _ 0 l Hl) as (l' & L1 & L2).
      exists (((fst (sp_off s), x), false) :: L), (l :: out), (map snd l :: TT). split; [constructor; [split; [exact H1|]; split; [reflexivity | exact H2] | exact I1]|]. split; [constructor; [cbn [fst snd]; auto | exact I2]|].
      split; [constructor; [exact Hl | exact I3]|]. split; [constructor; [exists l'; auto | exact I4] | cbn [map]; rewrite I5; reflexivity]. }
  destruct HL as (L & out & TT & L1 & L2 & L3 & L4 & L5). assert (HC : concat TT = map snd (concat out)) by (rewrite <- L5, concat_map; reflexivity). exists TT.
  assert (HZ : forall ss' : list split, Forall2 (fun p s => sp_text s = utf8_encs (snd p) /\ fst (sp_off s) = fst p) (concat out) ss' -> Forall2 (fun x s => sp_text s = utf8_encs x) (concat TT) ss').
  { intros ss' H. rewrite HC. clear - H. induction H as [|p s l l' [H _] _ IH]; cbn [map]; constructor; assumption. }
  assert (HX : forall l, all_valid l -> Forall (fun x => forallb valid_cp x = true) (map snd l)) by (intros l H; rewrite Forall_map; exact H).
  destruct pre as [pt|].
  - destruct (pre_items E pt ns (cuttable_no_prefix E pt (Hpre pt eq_refl)) L out ss L1 L2) as (ss' & S1 & S2 & S3).
    { clear - L3. induction L3 as [|[[pos x] f] ws l out H _ IH]; constructor; [exact H | exact IH]. }
    exists ss'. split; [exact L4|]. split; [exact S1|]. split; [apply HZ; exact S2 | rewrite HC; apply HX; exact S3].
  - exists ss. split; [exact L4|]. split; [reflexivity|]. assert (Ew : concat out = map fst L) by (clear - L3; induction L3 as [|[[pos x] f] ws l out H _ IH]; [reflexivity|]; cbn [concat map fst snd words_at] in *; rewrite IH; destruct f; subst ws; reflexivity).
    split; [apply HZ; rewrite Ew; clear - L1; induction L1 as [|q x l l' (A1 & A2 & _) _ IH]; cbn [map]; constructor; [split; assumption | exact IH]|].
    rewrite HC, Ew. apply HX. unfold all_valid. rewrite Forall_map. eapply Forall_impl; [|exact L2]. intros q [Q _]. exact Q.
Qed.

(** ** The words of the pieces are the words of the text *)
Lemma Forall2_split {A B} (R : A -> B -> Prop) : forall LL TT, Forall2 R (concat LL) TT -> exists TTT, concat TTT = TT /\ Forall2 (Forall2 R) LL TTT.
Proof.
  induction LL as [|l LL IH]; intros TT H; cbn [concat] in H; [inversion H; exists []; split; [reflexivity | constructor]|]. apply Forall2_app_inv_l in H as (T1 & T2 & H1 & H2 & ->). destruct (IH T2 H2) as (TTT & <- & H3). exists (T1 :: TTT). split; [reflexivity | constructor; assumption].
Qed.
Lemma Forall2_len {A B} (R : A -> B -> Prop) l l' : Forall2 R l l' -> length l = length l'.
Proof. induction 1; cbn [length]; congruence. Qed.
Lemma only_whole s segs p : chained 0 (length s) (map snd segs) -> Forall (fun p : option Z * (nat * nat) => fst (snd p) < snd (snd p)) segs -> In p segs -> slice s (fst (snd p)) (snd (snd p)) = s -> segs = [p].
Proof.
  intros Hc Hn Hin Hs. assert (Hb : fst (snd p) = 0 /\ snd (snd p) = length s).
  { pose proof (chained_bounds _ _ _ Hc) as HB. rewrite Forall_map in HB. pose proof (proj1 (Forall_forall _ _) HB p Hin) as K. cbn beta in K. apply (f_equal (@length N)) in Hs. rewrite slice_length in Hs by lia. pose proof (proj1 (Forall_forall _ _) Hn p Hin). cbn beta in *. lia. }
  destruct segs as [|[o [a b]] segs]; [contradiction|]. cbn [map snd chained] in Hc. destruct Hc as (-> & H1 & H2). pose proof (Forall_inv Hn) as N1. pose proof (Forall_inv_tail Hn) as N2. cbn [fst snd] in N1. destruct Hin as [<-|Hin].
  - cbn [fst snd] in Hb. destruct Hb as [_ ->]. destruct segs as [|[o' [a' b']] segs]; [reflexivity|]. exfalso. pose proof (Forall_inv N2) as N3. cbn [map snd fst chained] in *. destruct H2 as (-> & H3 & H4). apply chained_le in H4. lia.
  - exfalso. apply chained_bounds in H2. rewrite Forall_map in H2. pose proof (proj1 (Forall_forall _ _) H2 p Hin) as K. cbn beta in K. lia.
Qed.
Lemma no_tokens_whole known u : u <> [] -> Forall (fun p : option Z * (nat * nat) => fst p = None) (segs_of known u) -> segs_of known u = [(None, (0, length u))].
Proof.
  intros Hu. unfold segs_of. destruct (raw_matches (word_ids known) u (length u) 0 0) as [|[[a b] k] l]; cbn [plain_segs]; intros H.
  - destruct (Nat.eqb_spec 0 (length u)) as [E0|]; [destruct u; [congruence | discriminate] | reflexivity].
  - exfalso. apply Forall_app in H as [_ H]. apply Forall_inv in H. discriminate.
Qed.
Lemma seg_item_text u d p : (snd (fst (seg_item u d p)), snd (seg_item u d p)) = seg_text u p.
Proof. reflexivity. Qed.

Section Texts.
Variables (E : env) (norm : option normalizer) (pre : option pre_tokenizer) (s : wstr) (v : smap Z) (ops : list added_token) (av : added_vocab).
Hypothesis Hpre : forall t, pre = Some t -> cuttable E t.
Hypothesis (Hne : s <> []) (Hs : Forall plane s) (Hd : dense v) (Hv : v <> []) (HH : history v ops av) (Hf : one_flag ops) (Hsim : Forall printable_token ops).
Hypothesis Hnb : forall a x b n, s = a ++ x ++ b -> normalized_to E norm x n -> bmp n.
Lemma all_simple : Forall simple_token ops.
Proof. eapply Forall_impl; [|exact Hsim]. exact printable_simple. Qed.
Lemma tries_nonempty : (forall k, ~ In ([], k) (av_trie_norm av)) /\ (forall k, ~ In ([], k) (av_trie_raw av)) /\ Forall (fun p => fst p <> []) (av_trie_norm av) /\ Forall (fun p => fst p <> []) (av_trie_raw av).
Proof. exact (trie_nonempty v ops av Hd Hv HH all_simple). Qed.
Lemma good_seg_texts (b : bool) u : Forall plane u -> Forall good_text (map (seg_text u) (segs_of (if b then av_trie_norm av else av_trie_raw av) u)).
Proof.
  intros Hu. destruct tries_nonempty as (T1 & T2 & _ & _). destruct (trie_plane (takes_part v ops b) (if b then av_trie_norm av else av_trie_raw av) u 0 Hu) as [_ H].
  - destruct b; assumption.
  - intros c Hc Hn. apply (known_plane v ops av b c Hd Hv HH Hf Hsim Hc Hn).
  - rewrite Forall_map in H |- *. eapply Forall_impl; [|exact H]. intros p K. split; cbn [fst snd seg_text] in *; [apply valid_slice, plane_valid; exact Hu|]. intros Ht. destruct (K Ht) as [(_ & t & K1 & K2 & _) K3]. split; [|exact K3]. change (snd (fst (seg_item u 0 p))) with (slice u (fst (snd p)) (snd (snd p))) in K2. rewrite <- K2. apply (proj1 (Forall_forall _ _) Hsim t K1).
Qed.
(** the words of a normalized stretch *)
Lemma inner_texts n TT : Forall plane n -> Forall2 (item_texts E pre) (map (seg_text n) (segs_of (av_trie_norm av) n)) TT -> exists l, parts (takes_part v ops true) (words_at E pre) 0 n l /\ map snd l = concat TT.
Proof.
  intros Hn HT. destruct tries_nonempty as (T1 & _ & _ & _). destruct (trie_plane (takes_part v ops true) (av_trie_norm av) n 0 Hn T1) as [(tokens & F1 & F2) _]; [intros c Hc Hcn; apply (known_plane v ops av true c Hd Hv HH Hf Hsim Hc Hcn)|].
  assert (G : exists out, Forall2 (fun q ws => if (snd q : bool) then ws = [fst q] else words_at E pre (fst (fst q)) (snd (fst q)) ws) (map (seg_item n 0) (segs_of (av_trie_norm av) n)) out /\ map snd (concat out) = concat TT).
  { clear F1 F2. revert TT HT. generalize (segs_of (av_trie_norm av) n). induction s0 as [|p segs IH]; intros TT HT; inversion HT as [|? T ? TT' H1 H2]; subst; [exists []; split; [constructor | reflexivity]|]. destruct (IH TT' H2) as (out & O1 & O2). unfold item_texts, seg_text in H1. cbn [fst snd] in H1.
    destruct (fst p) eqn:Ep.
    - subst T. exists ([fst (seg_item n 0 p)] :: out). split; [cbn [map]; constructor; [unfold seg_item; cbn [fst snd]; rewrite Ep; reflexivity | exact O1]|]. cbn [concat]. rewrite map_app, O2. reflexivity.
    - destruct H1 as (l & L1 & ->). destruct (words_at_moved E pre _ 0 (fst (snd p)) l L1) as (l' & L2 & L3). exists (l' :: out). split; [cbn [map]; constructor; [unfold seg_item; cbn [fst snd]; rewrite Ep; exact L2 | exact O1]|]. cbn [concat]. rewrite map_app, O2, L3. reflexivity. }
  destruct G as (out & G1 & G2). exists (concat out). split; [|exact G2]. exists tokens, (map (seg_item n 0) (segs_of (av_trie_norm av) n)), out. split; [exact F1|]. split; [exact F2|]. split; [exact G1 | reflexivity].
Qed.
Lemma empty_segs n : segs_of (av_trie_norm av) n = [] -> n = [].
Proof. intros H. pose proof (segs_chained (av_trie_norm av) n) as K. rewrite H in K. cbn in K. destruct n; [reflexivity | discriminate]. Qed.
Lemma outer_texts out : (forall p T, In (p, T) (combine (segs_of (av_trie_raw av) s) out) -> match fst p with Some _ => T = [slice s (fst (snd p)) (snd (snd p))] | None => exists l, stretch_words E v ops norm pre s (slice s (fst (snd p)) (snd (snd p))) l /\ T = map snd l end) ->
  length out = length (segs_of (av_trie_raw av) s) -> all_words E v ops norm pre s (concat out).
Proof.
  intros HT Hl. destruct tries_nonempty as (_ & T2 & _ & _). destruct (trie_plane (takes_part v ops false) (av_trie_raw av) s 0 Hs T2) as [(tokens & F1 & F2) _]; [intros c Hc Hcn; apply (known_plane v ops av false c Hd Hv HH Hf Hsim Hc Hcn)|].
  assert (G : exists o, Forall2 (fun q ws => if (snd q : bool) then ws = [fst q] else stretch_words E v ops norm pre s (snd (fst q)) ws) (map (seg_item s 0) (segs_of (av_trie_raw av) s)) o /\ map snd (concat o) = concat out).
  { clear F1 F2. revert out HT Hl. generalize (segs_of (av_trie_raw av) s). induction s0 as [|p segs IH]; intros [|T out] HT Hl; try discriminate; [exists []; split; [constructor | reflexivity]|]. injection Hl as Hl. destruct (IH out) as (o & O1 & O2); [intros p' T' Hin; apply HT; right; exact Hin | exact Hl|].
    specialize (HT p T (or_introl eq_refl)). destruct (fst p) eqn:Ep.
    - subst T. exists ([fst (seg_item s 0 p)] :: o). split; [cbn [map]; constructor; [unfold seg_item; cbn [fst snd]; rewrite Ep; reflexivity | exact O1]|]. cbn [concat]. rewrite map_app, O2. reflexivity.
    - destruct HT as (l & L1 & ->). exists (l :: o). split; [cbn [map]; constructor; [unfold seg_item; cbn [fst snd]; rewrite Ep; exact L1 | exact O1]|]. cbn [concat]. rewrite map_app, O2. reflexivity. }
  destruct G as (o & G1 & G2). exists (concat o). split; [|symmetry; exact G2]. exists tokens, (map (seg_item s 0) (segs_of (av_trie_raw av) s)), o. split; [exact F1|]. split; [exact F2|]. split; [exact G1 | reflexivity].
Qed.
Lemma pieces_words LL TTT : Forall2 (piece_made E norm (av_trie_norm av)) (map (seg_text s) (segs_of (av_trie_raw av) s)) LL -> concat LL <> [] -> Forall2 (Forall2 (item_texts E pre)) LL TTT -> all_words E v ops norm pre s (concat (concat TTT)).
Proof.
  intros HL Hn HT. replace (concat (concat TTT)) with (concat (map (@concat _) TTT)) by (clear; induction TTT as [|a l IH]; [reflexivity|]; cbn [map concat]; rewrite concat_app, IH; reflexivity).
  destruct tries_nonempty as (_ & _ & _ & T4). pose proof (segs_chained (av_trie_raw av) s) as Hc. pose proof (seg_nonempty (av_trie_raw av) s T4) as Hp. remember (segs_of (av_trie_raw av) s) as segs eqn:Esegs.
  assert (Hlen : length TTT = length segs) by (clear - HL HT; apply Forall2_len in HL; apply Forall2_len in HT; rewrite map_length in HL; congruence).
  apply outer_texts; rewrite <- Esegs; [|rewrite map_length; exact Hlen].
  assert (HX : Forall2 (fun p it => piece_made E norm (av_trie_norm av) (seg_text s p) it) segs LL) by (clear - HL; revert LL HL; induction segs as [|p segs IH]; intros LL HL; inversion HL; subst; constructor; auto).
  assert (HW : forall p it, In (p, it) (combine segs LL) -> slice s (fst (snd p)) (snd (snd p)) = s -> it <> []).
  { intros p it Hin Hw. pose proof (only_whole s segs p Hc Hp (in_combine_l _ _ _ _ Hin) Hw) as ->. inversion HX as [|? it' ? LL' _ HX']; subst. inversion HX'; subst. cbn [combine] in Hin. destruct Hin as [[= ->]|[]]. intros ->. apply Hn. reflexivity. }
  clear - HX HT HW Hnb Hs Hd Hv HH Hf Hsim Hpre. intros p T Hin. revert TTT HT Hin. induction HX as [|q it segs LL Hq _ IH]; intros TTT HT Hin; [contradiction|]. inversion HT as [|? T0 ? TTT' H1 H2]; subst. cbn [map combine] in Hin. destruct Hin as [[= -> <-]|Hin].
  - specialize (HW p it (or_introl eq_refl)). unfold piece_made, seg_text in Hq. cbn [fst snd] in Hq. destruct (fst p) eqn:Ep.
    + subst it. inversion H1 as [|? x ? y K1 K2]; subst. inversion K2; subst. cbn [concat]. rewrite app_nil_r. exact K1.
    + destruct Hq as (sub & S1 & S2 & ->). destruct (inner_texts (ns_text sub) T0 S2 H1) as (l & L1 & L2). exists l. split; [|symmetry; exact L2]. exists (ns_text sub). split; [exists sub; auto|]. right. split; [|exact L1].
      intros [E1 E2]. apply (HW E2). rewrite E1. reflexivity.
  - apply IH with (TTT := TTT'); [intros p' it' H'; apply HW; right; exact H' | exact H2 | exact Hin].
Qed.
Lemma nothing_words LL T : Forall2 (piece_made E norm (av_trie_norm av)) (map (seg_text s) (segs_of (av_trie_raw av) s)) LL -> concat LL = [] -> Forall2 (item_texts E pre) (map (seg_text s) (segs_of (av_trie_raw av) s)) T -> all_words E v ops norm pre s (concat T).
Proof.
  intros HL Hn HT. assert (HN : Forall (fun p : option Z * (nat * nat) => fst p = None) (segs_of (av_trie_raw av) s)).
  { clear HT. revert LL HL Hn. generalize (segs_of (av_trie_raw av) s). induction s0 as [|p segs IH]; intros LL HL Hn; [constructor|]. inversion HL as [|? it ? LL' H1 H2]; subst. cbn [concat] in Hn. apply app_eq_nil in Hn as [-> Hn]. constructor; [|exact (IH LL' H2 Hn)].
    unfold piece_made, seg_text in H1. cbn [fst snd] in H1. destruct (fst p); [discriminate | reflexivity]. }
  pose proof (no_tokens_whole _ s Hne HN) as ES. rewrite ES in HL, HT. apply outer_texts; rewrite ES; [|apply Forall2_len in HT; cbn [map length] in *; symmetry; exact HT].
  assert (EW : slice s 0 (length s) = s) by (unfold slice; cbn [skipn]; rewrite Nat.sub_0_r; apply firstn_all).
  inversion HL as [|? it ? LL' H1 H2]; subst. inversion HT as [|? T0 ? T' H3 H4]; subst. inversion H2; subst. inversion H4; subst. cbn [concat] in Hn. rewrite app_nil_r in Hn. subst it. intros p T [[= <- <-]|[]]. cbn [fst snd]. rewrite EW.
  unfold piece_made, item_texts, seg_text in *. cbn [fst snd] in *. rewrite EW in *. destruct H1 as (sub & S1 & S2 & S3). symmetry in S3. apply map_eq_nil, empty_segs in S3. destruct H3 as (l & L1 & ->). exists l. split; [|reflexivity]. exists (ns_text sub). split; [exists sub; auto|]. left. auto.
Qed.
(** what the pre-tokenizer gets *)
Lemma extracted_texts m p1 : extract_and_normalize E av norm s = Ok (m, p1) ->
  exists items, Forall2 t_holds items (pt_splits p1) /\ Forall good_text items /\ forall TT, Forall2 (item_texts E pre) items TT -> all_words E v ops norm pre s (concat TT).
Proof.
  intros Ex. pose proof (plane_valid s Hs) as Hvs. pose proof (plane_bmp s Hs) as Hb.
  destruct (history_plain _ _ _ Hd Hv HH all_simple) as (HP1 & HP2 & _). unfold extract_and_normalize in Ex. rewrite fresh_numbered in Ex. unfold new_pretok in Ex. cbn [ns_text numbered_ns] in Ex. unfold convert_to_string at 1 in Ex.
    rewrite Hvs in Ex. cbn [bind pt_norm pt_splits] in Ex. cbn [ns_text numbered_ns] in Ex. unfold convert_to_string at 1 in Ex. rewrite Hvs in Ex. cbn [bind] in Ex.
    destruct (find_plain (av_map_r av) (utf8_encs s) (av_trie_raw av)) as [Hfp _]; [assumption|]. rewrite Hfp in Ex. cbn [bind] in Ex. rewrite from_utf8_encs, bmp_utf16 in Ex by assumption.
    rewrite (raw_splits_ok s _ 0 Hvs (segs_chained _ _)) in Ex. cbn [bind] in Ex. pose proof (segs_chained (av_trie_raw av) s) as Hc.
    remember (map (seg_split s 0) (segs_of (av_trie_raw av) s)) as raw eqn:Hraw0.
    assert (Hr : raw <> []). { rewrite Hraw0. destruct (segs_of (av_trie_raw av) s); [cbn in Hc; destruct s; [congruence | discriminate] | discriminate]. }
    assert (Hm : forall d : list split, match raw with [] => d | _ => raw end = raw) by (destruct raw; [congruence | reflexivity]). rewrite Hm in Ex. clear Hm.
    destruct (normalize_splits E norm (av_trie_norm av) _ (av_map_r av) 0 raw) as [[[ns m2] out]| | |] eqn:Eo; cbn [bind] in Ex; try discriminate. assert (Ep : p1 = mkPt ns match out with [] => raw | _ :: _ => out end) by congruence. clear Ex. subst p1. cbn [pt_splits].
    assert (HF0 : Forall2 t_holds (map (seg_text s) (segs_of (av_trie_raw av) s)) raw) by (rewrite Hraw0; apply map_t_holds).
    pose proof (good_seg_texts false s Hs) as HG0. cbn match in HG0.
    destruct (normalize_items E norm (av_trie_norm av) (av_map_r av)) with (raw := raw) (L := map (seg_text s) (segs_of (av_trie_raw av) s)) (ns := numbered_ns (unit_sizes s) [] s) (ending := 0) (ns' := ns) (m' := m2) (out := out) as (-> & LL & L1 & L2).
    - assumption.
    - exact HF0.
    - eapply Forall_impl; [|exact HG0]. intros q K. apply K.
    - intros q sub Hq Hn. apply in_map_iff in Hq as (p0 & <- & Hp). cbn [seg_text fst] in Hn. pose proof (chained_all _ _ _ Hc) as HB. pose proof (proj1 (Forall_forall _ _) HB p0 Hp) as [B1 B2]. cbn beta in B1, B2.
      apply (Hnb (firstn (fst (snd p0)) s) (slice s (fst (snd p0)) (snd (snd p0))) (skipn (snd (snd p0)) s) (ns_text sub)); [|exists sub; auto]. rewrite <- (skip_slice s (fst (snd p0)) (snd (snd p0)) B1 B2). symmetry. apply firstn_skipn.
    - exact Eo.
    - destruct out as [|o out].
      + assert (EL : concat LL = []) by (inversion L2; reflexivity). exists (map (seg_text s) (segs_of (av_trie_raw av) s)). split; [exact HF0|]. split; [exact HG0|]. intros TT HT. exact (nothing_words LL TT L1 EL HT).
      + exists (concat LL). split; [exact L2|]. split.
        * clear - L1 HG0 Hd Hv HH Hf Hsim. revert HG0. induction L1 as [|q it L LL Hq _ IH]; intros HG; [constructor|]. pose proof (Forall_inv HG) as G1. cbn [concat]. apply Forall_app. split; [|exact (IH (Forall_inv_tail HG))]. unfold piece_made in Hq. destruct (snd q) eqn:Eq; [subst it; constructor; [exact G1 | constructor]|].
          destruct Hq as (sub & _ & S2 & ->). exact (good_seg_texts true (ns_text sub) S2).
        * intros TT HT. destruct (Forall2_split _ _ _ HT) as (TTT & <- & H3). apply (pieces_words LL TTT L1); [|exact H3]. intros E0. rewrite E0 in L2. inversion L2.
Qed.
(** what is handed to the model *)
Lemma prepared_texts t a p : tz_av t = Some av -> tz_norm t = norm -> tz_pre t = pre -> prepare E t s = Ok (a, p) ->
  exists ws, all_words E v ops norm pre s ws /\ Forall2 (fun x y => sp_text y = utf8_encs x) ws (pt_splits p) /\ Forall (fun x => forallb valid_cp x = true) ws.
Proof.
  intros Hav Hno Hpr H. pose proof (plane_valid s Hs) as Hvs. pose proof (plane_bmp s Hs) as Hb. unfold prepare in H. unfold new_pretok at 1 in H. assert (Ht : ns_text (new_nstring s) = s) by (apply (fresh_packed s)). rewrite Ht in H. unfold convert_to_string in H at 1. rewrite Hvs in H. cbn [bind] in H.
  rewrite Hav, Hno, Hpr in H. destruct (extract_and_normalize E av norm s) as [[m p1]| | |] eqn:Ex; cbn [bind] in H; try discriminate.
  pose proof (extracted_texts m p1 Ex) as HE.
  destruct HE as (items & I1 & I2 & I3). destruct p1 as [ns ss]. cbn [pt_splits] in I1. destruct (pre_texts E pre ns items ss Hpre I1 I2) as (TT & ss' & T1 & T2 & T3 & T4). rewrite T2 in H. cbn [bind] in H. injection H as _ <-. cbn [pt_splits].
  exists (concat TT). split; [exact (I3 TT T1)|]. split; assumption.
Qed.
End Texts.

(** The words are determined. *)
Lemma stretch_words_fun E v ops norm pre s x l l' : stretch_words E v ops norm pre s x l -> stretch_words E v ops norm pre s x l' -> l = l'.
Proof.
  intros (n & (sub & R1 & R2) & H) (n' & (sub' & R1' & R2') & H'). assert (En : n' = n) by congruence. rewrite En in H'. clear En. destruct H as [(A1 & A2 & A3)|[A1 A2]], H' as [(B1 & B2 & B3)|[B1 B2]].
  - exact (words_at_fun E pre 0 s _ _ A3 B3).
  - exfalso. apply B1. split; assumption.
  - exfalso. apply A1. split; assumption.
  - revert A2 B2. apply parts_fun. intros pos y a b. apply words_at_fun.
Qed.
Theorem C137_determined : forall E v ops norm pre s ws ws', all_words E v ops norm pre s ws -> all_words E v ops norm pre s ws' -> ws = ws'.
Proof. intros E v ops norm pre s ws ws' (l & H1 & ->) (l' & H2 & ->). f_equal. revert H1 H2. apply parts_fun. intros pos x a b. apply stretch_words_fun. Qed.
Print Assumptions C137_determined.

(** ** From the words to the rows *)
Lemma rows_any (P : wstr -> list token -> Prop) ns : forall ws out i e, Forall2 (fun x y => P x (sp_tokens y)) ws out -> into_rows ns 0 i out = Ok e -> exists l, map snd l = ws /\ rows_of_words P i l (rows e).
Proof.
  intros ws out i e H. revert i e. induction H as [|x y ws out Hx _ IH]; intros i e He; cbn [into_rows] in He; [injection He as <-; exists []; split; [reflexivity | constructor]|].
  destruct (split_base ns y) as [base| | |]; cbn [bind] in He; try discriminate. destruct (into_rows ns 0 (S i) out) as [rest| | |] eqn:Er; cbn [bind] in He; try discriminate. injection He as <-. destruct (IH _ _ Er) as (l & <- & L). exists ((base, x) :: l). split; [reflexivity|].
  rewrite rows_append by apply split_rows_flat. rewrite split_rows_rows. apply rw_cons; assumption.
Qed.
Lemma texts_shape : forall ws ss, Forall2 (fun x y => sp_text y = utf8_encs x) ws ss -> exists q, map untokened ss = map (fun p : wstr * (nat * nat) => mkSplit (utf8_encs (fst p)) (snd p) []) q /\ map fst q = ws.
Proof. induction 1 as [|x [tx o tk] ws ss H _ (q & Q1 & <-)]; [exists []; split; reflexivity|]. cbn [sp_text] in H. subst tx. exists ((x, o) :: q). cbn [map fst snd]. rewrite <- Q1. split; reflexivity. Qed.

Section Rows.
Variables (E : env) (s : wstr) (v : smap Z) (ops : list added_token) (av : added_vocab) (t : tokenizer).
Hypothesis (Hav : tz_av t = Some av) (Hpre : forall p, tz_pre t = Some p -> cuttable E p) (Hne : s <> []) (Hs : bmp s) (Hd : dense v) (Hv : v <> []) (HH : history v ops av) (Hf : one_flag ops) (Hsim : Forall printable_token ops).
Hypothesis Hnb : forall a x b n, s = a ++ x ++ b -> normalized_to E (tz_norm t) x n -> bmp n.
Lemma prepared_plane a p : prepare E t s = Ok (a, p) ->
  exists ws, all_words E v ops (tz_norm t) (tz_pre t) s ws /\ Forall2 (fun x y => sp_text y = utf8_encs x) ws (pt_splits p) /\ Forall (fun x => forallb valid_cp x = true) ws.
Proof.
  intros H. assert (Hvs : forallb valid_cp s = true).
  { unfold prepare in H. unfold new_pretok at 1 in H. assert (Ht : ns_text (new_nstring s) = s) by (apply (fresh_packed s)). rewrite Ht in H. unfold convert_to_string in H at 1. destruct (forallb valid_cp s); [reflexivity | discriminate]. }
  exact (prepared_texts E (tz_norm t) (tz_pre t) s v ops av Hpre Hne (plane_text s Hs Hvs) Hd Hv HH Hf Hsim Hnb t a p Hav eq_refl eq_refl H).
Qed.
Lemma wp_texts w core : tz_model t = Some (MWordPiece w) -> text_encoding E t s = Ok core -> exists ws l, all_words E v ops (tz_norm t) (tz_pre t) s ws /\ map snd l = ws /\ rows_of_words (word_tokens w) 0 l (rows core).
Proof.
  intros Hm H. unfold text_encoding in H. destruct (prepare E t s) as [[a p]| | |] eqn:Ep; cbn [bind] in H; try discriminate. rewrite Hm in H. cbn [model_tokenize snd] in H. destruct (prepared_plane a p Ep) as (ws & W1 & W2 & W3).
  destruct (wp_tokenize_ok w p) as (out & Hl & HF). rewrite Hl in H. cbn [bind] in H. unfold into_encoding in H. cbn [pt_norm pt_splits] in H. exists ws.
  destruct (rows_any (word_tokens w) (pt_norm p) ws out 0 core) as (l & L1 & L2); [|exact H|exists l; auto]. clear - W2 W3 HF. revert out HF W3. induction W2 as [|x y ws ss Hx _ IH]; intros out HF W3; inversion HF as [|? z ? out' (A1 & A2 & A3) HF']; subst; constructor.
  - rewrite Hx in A3. apply word_tokens_word; [exact (Forall_inv W3) | exact A3].
  - apply IH; [exact HF' | exact (Forall_inv_tail W3)].
Qed.
Lemma bpe_texts vocab merges d unk bpre suf fu bf ig b c core : pq_ok E -> new_bpe vocab merges d unk bpre suf fu bf ig = Ok b -> reach_cache E b c -> tz_model t = Some (MBpe b c) -> text_encoding E t s = Ok core ->
  exists ws l, all_words E v ops (tz_norm t) (tz_pre t) s ws /\ map snd l = ws /\ rows_of_words (bpe_tokens b) 0 l (rows core).
Proof.
  intros Hq Hb Hr Hm H. unfold text_encoding in H. destruct (prepare E t s) as [[a p]| | |] eqn:Ep; cbn [bind] in H; try discriminate. rewrite Hm in H. destruct (prepared_plane a p Ep) as (ws & W1 & W2 & W3).
  assert (Hmt : snd (model_tokenize E (MBpe b c) p) = snd (bpe_tokenize E b c p)) by (cbn [model_tokenize]; destruct (bpe_tokenize E b c p); reflexivity).
  rewrite Hmt, (proj1 (bpe_tokenize_transparent E b c _ (reach_cache_ok E b c Hr))), plain_untokened in H. destruct (texts_shape _ _ W2) as (q & Q1 & <-). rewrite Q1 in H. set (z := plain_words E b _) in H.
  destruct (words_cases E b vocab merges d unk bpre suf fu bf ig Hq Hb q) as [(Hl & out & O1 & O2)|(Hl & O1)]; [assert (Ez : z = Ok out) by exact O1 | assert (Ez : z = Undef OobIndex) by exact O1]; rewrite Ez in H; cbn [bind] in H; [|discriminate]. unfold into_encoding in H. cbn [pt_norm pt_splits] in H. exists (map fst q).
  destruct (rows_any (bpe_tokens b) (pt_norm p) (map fst q) out 0 core) as (l & L1 & L2); [|exact H|exists l; auto]. clear - O2 Hq Hb. induction O2 as [|[x o] y q out [A1 A2] _ IH]; cbn [map fst] in *; constructor; [|exact IH].
  unfold runs in A2. destruct (word_cases E b vocab merges d unk bpre suf fu bf ig Hq Hb x) as [(_ & ts' & T1 & T2)|(_ & T1)]; [|congruence]. assert (ts' = sp_tokens y) by congruence. subst ts'. exact T2.
Qed.
End Rows.

(** ** C137 *)
Definition fails (outcome : nat -> res encoding) : Prop := exists o, (forall r, o <> Ok r) /\ forall fuel, outcome fuel = o.
Lemma finish_texts E u t0 c s add (P : wstr -> list token -> Prop) (W : list wstr -> Prop) : build c = Ok t0 -> config_ok c -> same_setup t0 u -> sane t0 -> (forall p, cf_post c = Some p -> specials_ok p) ->
  (forall core, text_encoding E u s = Ok core -> exists ws l, W ws /\ map snd l = ws /\ rows_of_words P 0 l (rows core)) ->
  fails (fun fuel => snd (encode E fuel u s add)) \/
  exists ws l rs, W ws /\ map snd l = ws /\ rows_of_words P 0 l rs /\
    ((Z.of_nat (length rs) < 2 ^ 31)%Z -> (forall k, k <= length rs -> (Z.of_nat (tz_post_length t0 add k) < 2 ^ 31)%Z) ->
     exists r, (forall fuel, length rs + 2 <= fuel -> snd (encode E fuel u s add) = Ok r) /\ parallel r /\ finished t0 add rs (rows r)).
Proof.
  intros Hb Hok Ss Hsane Hsp HC. destruct (text_encoding E u s) as [core|e|x|] eqn:ET.
  - right. destruct (HC core eq_refl) as (ws & l & H1 & H2 & H3). exists ws, l, (rows core). split; [exact H1|]. split; [exact H2|]. split; [exact H3|]. intros B1 B2. destruct (text_encoding_parallel _ _ _ _ ET) as [Hfl _].
    apply (bound_total E u t0 c s add core Hb Hok Ss Hsane Hsp); [rewrite encode_bare; exact ET | exact Hfl | exact B1 | exact B2].
  - left. exists (Throw e). split; [discriminate | intros fuel; rewrite encode_stages, encode_bare, ET; reflexivity].
  - left. exists (Undef x). split; [discriminate | intros fuel; rewrite encode_stages, encode_bare, ET; reflexivity].
  - left. exists Diverge. split; [discriminate | intros fuel; rewrite encode_stages, encode_bare, ET; reflexivity].
Qed.

(** A tokenizer constructed from a configuration with WordPiece, any normalizer and pre-tokenizer, and special added tokens, at any later time, on any text of the basic plane in which added tokens may occur:
    encode either returns no encoding at all, or it returns the rows of exactly the words of the text, truncated, given the special tokens and padded. *)
Theorem C137_wordpiece : forall load parse path cfg text c t0 w toks E fuel0,
  source load path cfg (Some text) -> parse text = Some (render c) -> config_ok c -> build c = Ok t0 ->
  cf_model c = Some (CWordPiece w) -> dense (wp_vocab w) -> wp_vocab w <> [] -> (forall p, cf_pre c = Some p -> cuttable E p) ->
  cf_added c = Some toks -> Forall (fun x => at_special x = true) toks -> sane t0 -> (forall p, cf_post c = Some p -> specials_ok p) ->
  exists t, construct load parse path cfg = Ok t /\
  forall h s add, s <> [] -> bmp s -> Forall printable_token (toks ++ given h) -> one_flag (toks ++ given h) ->
  (forall a x b n, s = a ++ x ++ b -> normalized_to E (cf_norm c) x n -> bmp n) ->
  let outcome fuel := snd (encode E fuel (HistSpec.after E fuel0 t h) s add) in
  fails outcome \/
  exists ws l rs, all_words E (wp_vocab w) (toks ++ given h) (cf_norm c) (cf_pre c) s ws /\ map snd l = ws /\ rows_of_words (word_tokens w) 0 l rs /\
    ((Z.of_nat (length rs) < 2 ^ 31)%Z -> (forall k, k <= length rs -> (Z.of_nat (tz_post_length t0 add k) < 2 ^ 31)%Z) ->
     exists r, (forall fuel, length rs + 2 <= fuel -> outcome fuel = Ok r) /\ parallel r /\ finished t0 add rs (rows r)).
Proof.
  intros load parse path cfg text c t0 w toks E fuel0 Hs Hp Hok Hb Hm Hd Hne Hpre Ha Hspec Hsane Hsp.
  assert (Ht0 : t0 = mkTz (cf_trunc c) (cf_pad c) (Some (new_added_vocab toks)) (cf_norm c) (cf_pre c) (Some (MWordPiece w)) (cf_dec c) (cf_post c)).
  { unfold build in Hb. rewrite Hm, Ha in Hb. cbn [build_model bind option_map] in Hb. injection Hb as <-. reflexivity. }
  assert (Ha0 : tz_av t0 = Some (new_added_vocab toks)) by (rewrite Ht0; reflexivity). assert (Hm0 : tz_model t0 = Some (MWordPiece w)) by (rewrite Ht0; reflexivity).
  destruct (proj1 (C45_construction t0 toks (MWordPiece w) Ha0 Hm0 Hd Hne)) as (t & Hc).
  { apply Forall_forall. intros x Hx. right. exists x. split; [exact Hx|]. split; [exact (proj1 (Forall_forall _ _) Hspec x Hx) | reflexivity]. }
  exists t. split; [rewrite (C79_construct load parse path cfg text c t0 Hs Hp Hok Hb); exact Hc|].
  intros h s add Hs0 Hbm Hsim Hf Hnb outcome.
  destruct (C38_lifetime E fuel0 t0 (MWordPiece w) toks t Hd Hne Ha0 Hm0 ltac:(discriminate) Hc h) as ((av & A1 & A2) & (m & M1 & M2) & S). cbn [same_model model_vocab] in *.
  destruct m as [w'|b' c']; [|contradiction]. subst w'. unfold outcome. remember (HistSpec.after E fuel0 t h) as u eqn:Hu. clear outcome.
  assert (SN : tz_norm u = cf_norm c) by (destruct S as (_ & _ & S3 & _); rewrite S3, Ht0; reflexivity). assert (SP : tz_pre u = cf_pre c) by (destruct S as (_ & _ & _ & S4 & _); rewrite S4, Ht0; reflexivity).
  apply (finish_texts E u t0 c s add (word_tokens w) (all_words E (wp_vocab w) (toks ++ given h) (cf_norm c) (cf_pre c) s) Hb Hok S Hsane Hsp).
  intros core HT. rewrite <- SN, <- SP. rewrite <- SN in Hnb. rewrite <- SP in Hpre. exact (wp_texts E s (wp_vocab w) (toks ++ given h) av u A1 Hpre Hs0 Hbm Hd Hne A2 Hf Hsim Hnb w core M1 HT).
Qed.
Print Assumptions C137_wordpiece.
Theorem C137_bpe : forall load parse path cfg text c t0 vocab merges d unk pre suf fu bf ig b toks E fuel0,
  source load path cfg (Some text) -> parse text = Some (render c) -> config_ok c -> build c = Ok t0 -> pq_ok E ->
  cf_model c = Some (CBpe vocab merges d unk pre suf fu bf ig) -> new_bpe vocab merges d unk pre suf fu bf ig = Ok b -> dense vocab -> vocab <> [] -> (forall p, cf_pre c = Some p -> cuttable E p) ->
  cf_added c = Some toks -> Forall (fun x => at_special x = true) toks -> sane t0 -> (forall p, cf_post c = Some p -> specials_ok p) ->
  exists t, construct load parse path cfg = Ok t /\
  forall h s add, s <> [] -> bmp s -> Forall printable_token (toks ++ given h) -> one_flag (toks ++ given h) ->
  (forall a x b n, s = a ++ x ++ b -> normalized_to E (cf_norm c) x n -> bmp n) ->
  let outcome fuel := snd (encode E fuel (HistSpec.after E fuel0 t h) s add) in
  fails outcome \/
  exists ws l rs, all_words E vocab (toks ++ given h) (cf_norm c) (cf_pre c) s ws /\ map snd l = ws /\ rows_of_words (bpe_tokens b) 0 l rs /\
    ((Z.of_nat (length rs) < 2 ^ 31)%Z -> (forall k, k <= length rs -> (Z.of_nat (tz_post_length t0 add k) < 2 ^ 31)%Z) ->
     exists r, (forall fuel, length rs + 2 <= fuel -> outcome fuel = Ok r) /\ parallel r /\ finished t0 add rs (rows r)).
Proof.
  intros load parse path cfg text c t0 vocab merges d unk pre suf fu bf ig b toks E fuel0 Hs Hp Hok Hb Hq Hm Hbp Hd Hne Hpre Ha Hspec Hsane Hsp.
  assert (Ht0 : t0 = mkTz (cf_trunc c) (cf_pad c) (Some (new_added_vocab toks)) (cf_norm c) (cf_pre c) (Some (MBpe b [])) (cf_dec c) (cf_post c)).
  { unfold build in Hb. rewrite Hm, Ha in Hb. cbn [build_model bind option_map] in Hb. rewrite Hbp in Hb. cbn [bind] in Hb. injection Hb as <-. reflexivity. }
  assert (Hvo : model_vocab (MBpe b []) = vocab) by (apply new_bpe_vocab in Hbp as (_ & Ev & _); exact Ev).
  assert (Ha0 : tz_av t0 = Some (new_added_vocab toks)) by (rewrite Ht0; reflexivity). assert (Hm0 : tz_model t0 = Some (MBpe b [])) by (rewrite Ht0; reflexivity). rewrite <- Hvo in Hd, Hne |- *.
  destruct (proj1 (C45_construction t0 toks (MBpe b []) Ha0 Hm0 Hd Hne)) as (t & Hc).
  { apply Forall_forall. intros x Hx. right. exists x. split; [exact Hx|]. split; [exact (proj1 (Forall_forall _ _) Hspec x Hx) | reflexivity]. }
  exists t. split; [rewrite (C79_construct load parse path cfg text c t0 Hs Hp Hok Hb); exact Hc|].
  intros h s add Hs0 Hbm Hsim Hf Hnb outcome.
  destruct (C38_lifetime E fuel0 t0 (MBpe b []) toks t Hd Hne Ha0 Hm0 ltac:(congruence) Hc h) as ((av & A1 & A2) & (m & M1 & M2) & S).
  destruct m as [w'|b' c']; [contradiction|]. cbn [same_model] in M2. destruct M2 as [<- M2]. unfold outcome. remember (HistSpec.after E fuel0 t h) as u eqn:Hu. clear outcome.
  assert (SN : tz_norm u = cf_norm c) by (destruct S as (_ & _ & S3 & _); rewrite S3, Ht0; reflexivity). assert (SP : tz_pre u = cf_pre c) by (destruct S as (_ & _ & _ & S4 & _); rewrite S4, Ht0; reflexivity).
  apply (finish_texts E u t0 c s add (bpe_tokens b) (all_words E (model_vocab (MBpe b [])) (toks ++ given h) (cf_norm c) (cf_pre c) s) Hb Hok S Hsane Hsp).
  intros core HT. rewrite <- SN, <- SP. rewrite <- SN in Hnb. rewrite <- SP in Hpre. exact (bpe_texts E s (model_vocab (MBpe b [])) (toks ++ given h) av u A1 Hpre Hs0 Hbm Hd Hne A2 Hf Hsim Hnb vocab merges d unk pre suf fu bf ig b c' core Hq Hbp M2 M1 HT).
Qed.
Print Assumptions C137_bpe.

(** *** A case *)
(** The small bert-base-uncased of C112 after its history, which has added "chess", on e-acute, a space and "[MASK]chess": the words are "e", the special token and the added token. *)
Definition plane_ok (E : env) (norm : option normalizer) (s : wstr) : bool := forallb (fun x => match run_norm E norm x with Ok y => forallb (fun c => (c <? 0x10000)%N) (ns_text y) | _ => true end) (stretches s).
Lemma plane_okay E norm s : plane_ok E norm s = true -> forall a x b n, s = a ++ x ++ b -> normalized_to E norm x n -> bmp n.
Proof.
  unfold plane_ok. intros H a x b n -> (sub & R1 & <-). rewrite forallb_forall in H. specialize (H x (stretches_in a x b)). rewrite R1 in H. rewrite forallb_forall in H. apply Forall_forall. intros c Hc. apply N.ltb_lt. exact (H c Hc).
Qed.
Definition mask_text : wstr := [0xE9; 32]%N ++ str "[MASK]Chess!".
Lemma mask_takes b c : takes_part base_vocab (base_tokens ++ given base_history) b c <-> if b then c = str "chess" else In c (map str ["[PAD]"; "[UNK]"; "[CLS]"; "[SEP]"; "[MASK]"]).
Proof.
  unfold takes_part. split.
  - intros (_ & t & Ht & <- & Hb). cbn [base_tokens given base_history app In] in Ht. repeat destruct Ht as [<-|Ht]; cbn [at_normalized base_special] in Hb; subst b; cbn [at_content base_special map In]; auto 10; contradiction.
  - destruct b.
    + intros ->. split; [vm_compute; discriminate|]. exists (mkAt 0 (str "chess") false false false true false). split; [cbn; auto 10 | split; reflexivity].
    + intros H. cbn [map In] in H. destruct H as [<-|[<-|[<-|[<-|[<-|[]]]]]]; (split; [vm_compute; discriminate|]);
        [exists (base_special 0 (str "[PAD]")) | exists (base_special 1 (str "[UNK]")) | exists (base_special 2 (str "[CLS]")) | exists (base_special 3 (str "[SEP]")) | exists (base_special 4 (str "[MASK]"))];
        (split; [cbn [base_tokens given base_history app In]; auto 10 | split; reflexivity]).
Qed.
Lemma mask_words : all_words test_env base_vocab (base_tokens ++ given base_history) (cf_norm base_config) (cf_pre base_config) mask_text [str "e"; str "[MASK]"; str "chess"; str "!"].
Proof.
  assert (HX : forall k (x : wstr), 0 < k <= 1 -> x = [0xE9]%N -> ~ takes_part base_vocab (base_tokens ++ given base_history) false (firstn k x)) by (intros k x Hk -> K; apply mask_takes in K; destruct k as [|[|k]]; [lia | | lia]; vm_compute in K; intuition discriminate).
  exists ([(0, str "e")] ++ [(2, str "[MASK]")] ++ [(0, str "chess"); (5, str "!")]). split; [|reflexivity]. exists [(2, str "[MASK]")], [((0, [0xE9; 32]%N), false); ((2, str "[MASK]"), true); ((8, str "Chess!"), false)], [[(0, str "e")]; [(2, str "[MASK]")]; [(0, str "chess"); (5, str "!")]].
  split; [|split; [|split; [|reflexivity]]].
  - apply (fd_rest _ _ 0 [0xE9]%N (32%N :: str "[MASK]Chess!") []); [discriminate | cbn; intuition discriminate | right; eexists; reflexivity | intros k Hk; apply HX; [exact Hk | reflexivity] | reflexivity|]. apply fd_space.
    apply (fd_token _ _ 2 (str "[MASK]") (str "Chess!")); [discriminate | cbn; intuition discriminate | apply mask_takes; cbn; auto 10 | intros k Hk K; apply mask_takes in K; do 6 (destruct k as [|k]; [first [lia | vm_compute in K; intuition discriminate]|]); cbn in Hk; lia|].
    apply (fd_rest _ _ 8 (str "Chess!") [] []); [discriminate | cbn; intuition discriminate | left; reflexivity | intros k Hk K; apply mask_takes in K; do 7 (destruct k as [|k]; [first [lia | vm_compute in K; intuition discriminate]|]); cbn in Hk; lia | reflexivity | constructor].
  - apply (dv_gap 0 [0xE9; 32]%N (str "[MASK]Chess!") 2 8); [discriminate | reflexivity|]. apply (dv_match 2 (str "[MASK]") (str "Chess!")). apply dv_rest. discriminate.
  - apply Forall2_cons; [|apply Forall2_cons; [reflexivity | apply Forall2_cons; [|apply Forall2_nil]]]; cbn [fst snd].
    + exists (str "e "). split; [eexists; split; [vm_compute; reflexivity | reflexivity]|]. right. split; [intros [K _]; discriminate|]. exists [], [((0, str "e "), false)], [[(0, str "e")]]. split; [|split; [|split; [|reflexivity]]].
      * apply (fd_rest _ _ 0 (str "e") [32%N] []); [discriminate | cbn; intuition discriminate | right; eexists; reflexivity | intros k Hk K; apply mask_takes in K; destruct k as [|[|k]]; [lia | discriminate | cbn in Hk; lia] | reflexivity|]. apply fd_space. constructor.
      * apply dv_rest. discriminate.
      * apply Forall2_cons; [|apply Forall2_nil]. cbn [fst snd words_at cf_pre base_config cuts_into]. exists [[(0, str "e")]]. split; [|reflexivity]. constructor; [|constructor]. apply (bs_word _ _ 0 (str "e") [32%N] []); [discriminate | repeat (constructor; [split; reflexivity|]); constructor | left; reflexivity|]. apply bs_space; [reflexivity | constructor].
    + exists (str "chess!"). split; [eexists; split; [vm_compute; reflexivity | reflexivity]|]. right. split; [intros [K _]; discriminate|]. exists [(0, str "chess")], [((0, str "chess"), true); ((5, str "!"), false)], [[(0, str "chess")]; [(5, str "!")]]. split; [|split; [|split; [|reflexivity]]].
      * apply (fd_token _ _ 0 (str "chess") (str "!")); [discriminate | cbn; intuition discriminate | apply mask_takes; reflexivity | intros k Hk K; apply mask_takes in K; do 5 (destruct k as [|k]; [first [lia | discriminate]|]); cbn in Hk; lia|].
        apply (fd_rest _ _ 5 (str "!") [] []); [discriminate | cbn; intuition discriminate | left; reflexivity | intros k Hk K; apply mask_takes in K; destruct k as [|[|k]]; [lia | discriminate | cbn in Hk; lia] | reflexivity | constructor].
      * apply (dv_match 0 (str "chess") (str "!")). apply dv_rest. discriminate.
      * apply Forall2_cons; [reflexivity|]. apply Forall2_cons; [|apply Forall2_nil]. cbn [fst snd words_at cf_pre base_config cuts_into]. exists [[(5, str "!")]]. split; [|reflexivity]. constructor; [|constructor]. apply bs_punct; [reflexivity | reflexivity | constructor].
Qed.
Example C137_case : Forall printable_token (base_tokens ++ given base_history) /\ one_flag (base_tokens ++ given base_history) /\ bmp mask_text /\
  (forall a x b n, mask_text = a ++ x ++ b -> normalized_to test_env (cf_norm base_config) x n -> bmp n) /\ (forall p, cf_pre base_config = Some p -> cuttable test_env p) /\
  exists t, construct (fun _ => None) (fun _ => Some (render base_config)) [] (str "{}") = Ok t /\
  exists r, snd (encode test_env 20 (HistSpec.after test_env 10 t base_history) mask_text true) = Ok r /\ en_tokens r = map str ["[CLS]"; "[UNK]"; "[MASK]"; "chess"; "!"; "[SEP]"; "[PAD]"; "[PAD]"] /\ en_ids r = [2; 1; 4; 7; 8; 3; 0; 0]%Z.
Proof.
  split; [|split; [|split; [|split; [|split]]]].
  - repeat (apply Forall_cons || apply Forall_nil); (split; [repeat split|]; split; [discriminate|]); cbv [at_content str base_special]; repeat (apply Forall_cons || apply Forall_nil); unfold printable; vm_compute; split; congruence.
  - intros t t' H H' E. cbn in H, H'. repeat (destruct H as [<-|H]; [repeat (destruct H' as [<-|H']; [try reflexivity; discriminate|]); destruct H'|]); destruct H.
  - unfold bmp. apply Forall_forall. intros c Hc. apply N.ltb_lt. assert (K : forallb (fun c => (c <? 0x10000)%N) mask_text = true) by reflexivity. rewrite forallb_forall in K. exact (K c Hc).
  - apply plane_okay. vm_compute. reflexivity.
  - intros p [= <-]. exact I.
  - eexists. split; [vm_compute; reflexivity|]. eexists. split; [vm_compute; reflexivity|]. split; reflexivity.
Qed.
(** Outside the basic plane the claim fails: after an emoji the special token is not recognised, although it stands at the beginning of a field. *)
Example C137_emoji_case : exists t, construct (fun _ => None) (fun _ => Some (render base_config)) [] (str "{}") = Ok t /\
  exists r, snd (encode test_env 20 (HistSpec.after test_env 10 t base_history) ([0x1F600; 32]%N ++ str "[MASK] Playing") true) = Ok r /\ ~ In (str "[MASK]") (en_tokens r).
Proof. eexists. split; [vm_compute; reflexivity|]. eexists. split; [vm_compute; reflexivity|]. cbn. intuition discriminate. Qed.
