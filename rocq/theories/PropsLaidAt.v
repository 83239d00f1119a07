(** C139: the positions of the words lie inside the text, and are those of the characters the words stand for. Specification: LaidSpec.v. *)
From Verif Require Import Base BaseFacts Unicode UnicodeProofs Common Utils PostProcessor Decoder Normalizer PreTokenizer WordPiece Bpe AddedVocab Tokenizer Config ConfigSpec
  Spec PostSpec DecSpec NormSpec NormProofs PreSpec PreProofs AvSpec AvProofs ExtractProofs TzSpec TzProofs WpSpec WpProofs OffSpec OffProofs RefSpec RefProofs MixSpec MixProofs HistSpec HistProofs LenSpec FullSpec BpeSpec BpeProofs BpeWord UnkSpec ByteSpec
  PropsReference PropsConfig PropsAdded PropsLifetime PropsText PropsMixed OutSpec PropsFinish PropsFull PropsNorm PropsPre PropsOffsets PropsEncode PropsBpe PropsByteBpe BpeRefSpec PropsBpeText CutSpec PropsCut PropsBertConfig PartsSpec PropsParts PropsTotal TextsSpec PropsTexts LaidSpec PropsLaid Env.
From Coq Require Import ZifyBool ZifyNat ZifyN.
Import ListNotations.

Lemma bmp_length s : bmp s -> units s = length s.
Proof. intros H. unfold units. rewrite bmp_utf16 by exact H. reflexivity. Qed.
Definition moved (d : nat) (l : list (nat * wstr)) : list (nat * wstr) := map (fun p => (d + fst p, snd p)) l.
Lemma cuts_shift E d : forall t, keeps_characters E t -> forall l l', cuts_into E t l l' -> cuts_into E t (moved d l) (moved d l').
Proof.
  assert (HE : forall R : nat * wstr -> list (nat * wstr) -> Prop, (forall p ps, R p ps -> R (d + fst p, snd p) (moved d ps)) -> forall l l', each R l l' -> each R (moved d l) (moved d l')).
  { intros R HR l l' (out & HF & ->). exists (map (moved d) out). split; [|unfold moved; rewrite concat_map; reflexivity]. induction HF as [|p ps l out Hp _ IH]; [constructor|]. unfold moved at 1. cbn [map]. constructor; [apply HR; exact Hp | exact IH]. }
  fix IH 1. intros [|pat bh iv|aps rx|ts] HK l l' H; cbn [cuts_into keeps_characters] in *; [| |contradiction|].
  - revert l l' H. apply HE. intros [a x] ps Hp. cbn [fst snd] in *. exact (bert_split_shift _ _ _ _ _ Hp d).
  - revert l l' H. apply HE. intros [a x] ps (ms & segs & H1 & H2 & ->). exists ms, segs. cbn [fst snd] in *. split; [exact H1|]. split; [exact H2|]. unfold moved. rewrite map_map. apply map_ext. intros q. cbn [fst snd]. f_equal. lia.
  - revert l l' H. induction ts as [|q ts IHs]; intros l l' H; [subst l'; reflexivity|]. destruct HK as [K1 K2]. destruct H as (m & M1 & M2). exists (moved d m). split; [exact (IH q K1 l m M1) | exact (IHs K2 m l' M2)].
Qed.

(** the word is a non-empty part of [n], which begins at [pos] *)
Definition part_at (pos : nat) (n : wstr) (p : nat * wstr) : Prop := snd p <> [] /\ exists a z, n = a ++ snd p ++ z /\ fst p = pos + length a.
Lemma words_part E pre pos n l : n <> [] -> bmp n -> forallb valid_cp n = true -> (forall t, pre = Some t -> cuttable E t /\ keeps_characters E t) -> words_at E pre pos n l -> Forall (part_at pos n) l.
Proof.
  intros Hn Hb Hv HK HW. destruct pre as [t|]; cbn [words_at] in HW.
  - destruct (HK t eq_refl) as [K1 K2]. destruct (PropsCut.cuts_total E t [(0, n)] K1) as (l0 & L0); [constructor; [exact Hv | constructor]|]. pose proof (cuts_shift E pos t K2 _ _ L0) as L1. unfold moved at 1 in L1. cbn [map fst snd] in L1. rewrite Nat.add_0_r in L1. assert (El : l = moved pos l0) by (eapply cuts_fun; eassumption). rewrite El.
    assert (H : Forall (in_text n) l0) by (apply (cuts_in E n t [(0, n)] l0 K2 L0); constructor; [split; [exact Hn|]; exists [], []; rewrite app_nil_r; split; reflexivity | constructor]).
    unfold moved. rewrite Forall_map. eapply Forall_impl; [|exact H]. intros [a x] (H1 & u & z & H2 & H3). cbn [fst snd] in *. split; [exact H1|]. exists u, z. cbn [fst snd]. split; [exact H2|]. subst n. apply Forall_app in Hb as [Hu _]. rewrite (bmp_length u Hu) in H3. lia.
  - subst l. constructor; [|constructor]. split; [exact Hn|]. exists [], []. cbn [fst snd length]. rewrite app_nil_r. split; [reflexivity | lia].
Qed.

(** segments that follow one another from [o] on *)
Fixpoint follow (o : nat) (segs : list ((nat * wstr) * bool)) : Prop := match segs with [] => True | q :: r => fst (fst q) = o /\ follow (o + length (snd (fst q))) r end.
Lemma divided_follow pos x ms segs : divided pos x ms segs -> bmp x -> Forall (fun m => fst m < snd m) ms -> follow pos segs /\ x = flat_map (fun q => snd (fst q)) segs /\ Forall (fun q => snd (fst q) <> []) segs.
Proof.
  induction 1 as [pos|pos x Hx|pos x rest a b ms segs Hx Ha H IH|pos x rest ms segs H IH]; intros Hb Hm.
  - repeat split. constructor.
  - cbn [follow flat_map fst snd]. rewrite app_nil_r. split; [split; [reflexivity | exact I]|]. split; [reflexivity | constructor; [exact Hx | constructor]].
  - apply Forall_app in Hb as [B1 B2]. destruct (IH B2 Hm) as (I1 & I2 & I3). cbn [follow flat_map fst snd]. rewrite <- I2. rewrite Ha, (bmp_length x B1) in I1. split; [split; [reflexivity | exact I1]|]. split; [reflexivity | constructor; assumption].
  - apply Forall_app in Hb as [B1 B2]. pose proof (Forall_inv Hm) as Hm1. cbn [fst snd] in Hm1. destruct (IH B2 (Forall_inv_tail Hm)) as (I1 & I2 & I3). cbn [follow flat_map fst snd]. rewrite <- I2. rewrite (bmp_length x B1) in I1, Hm1. split; [split; [reflexivity | exact I1]|]. split; [reflexivity|]. constructor; [cbn [fst snd]; intros ->; cbn in Hm1; lia | exact I3].
Qed.
Lemma fields_nonempty tok pos s l : fields tok (fun _ _ none => none = []) pos s l -> Forall (fun p : nat * wstr => snd p <> []) l.
Proof. induction 1; [constructor | assumption | constructor; [assumption | assumption] | subst; cbn [app]; assumption]. Qed.
Lemma tokens_grow tok pos s l : fields tok (fun _ _ none => none = []) pos s l -> Forall (fun m : nat * nat => fst m < snd m) (map (fun p => (fst p, fst p + units (snd p))) l).
Proof. intros H. apply fields_nonempty in H. rewrite Forall_map. eapply Forall_impl; [|exact H]. intros p Hp. cbn [fst snd]. apply units_pos in Hp. lia. Qed.
Lemma follow_parts (R : nat -> wstr -> list (nat * wstr) -> Prop) : (forall o x l, x <> [] -> bmp x -> R o x l -> Forall (part_at o x) l) ->
  forall segs out, Forall2 (fun q ws => if (snd q : bool) then ws = [fst q] else R (fst (fst q)) (snd (fst q)) ws) segs out -> forall pos h, follow (pos + length h) segs -> Forall (fun q => snd (fst q) <> []) segs ->
  Forall (fun q => bmp (snd (fst q))) segs -> Forall (part_at pos (h ++ flat_map (fun q => snd (fst q)) segs)) (concat out).
Proof.
  intros HR segs out H. induction H as [|[[o x] f] ws segs out Hq _ IH]; intros pos h HF HN HB; [constructor|]. cbn [follow fst snd] in HF. destruct HF as [-> HF]. pose proof (Forall_inv HN) as N1. pose proof (Forall_inv HB) as B1. cbn [fst snd flat_map concat] in *.
  apply Forall_app. split.
  - assert (K : Forall (part_at (pos + length h) x) ws) by (destruct f; [subst ws; constructor; [|constructor]; split; [exact N1|]; exists [], []; cbn [fst snd length]; rewrite app_nil_r; split; [reflexivity | lia] | exact (HR _ _ _ N1 B1 Hq)]).
    eapply Forall_impl; [|exact K]. intros p (P1 & a & z & P2 & P3). split; [exact P1|]. exists (h ++ a), (z ++ flat_map (fun q => snd (fst q)) segs). rewrite P2, <- !app_assoc, app_length. split; [reflexivity | lia].
  - specialize (IH pos (h ++ x)). rewrite app_length, Nat.add_assoc, <- app_assoc in IH. exact (IH HF (Forall_inv_tail HN) (Forall_inv_tail HB)).
Qed.
Lemma follow_bmp (segs : list ((nat * wstr) * bool)) : bmp (flat_map (fun q => snd (fst q)) segs) -> Forall (fun q => bmp (snd (fst q))) segs.
Proof. induction segs as [|q segs IH]; intros H; [constructor|]. cbn [flat_map] in H. apply Forall_app in H as [H1 H2]. constructor; [exact H1 | exact (IH H2)]. Qed.
Lemma parts_part tok E pre pos n l : bmp n -> forallb valid_cp n = true -> (forall t, pre = Some t -> cuttable E t /\ keeps_characters E t) -> parts tok (words_at E pre) pos n l -> Forall (part_at pos n) l.
Proof.
  intros Hb Hv HK (tokens & segs & out & H1 & H2 & H3 & ->). destruct (divided_follow _ _ _ _ H2 Hb (tokens_grow _ _ _ _ H1)) as (F1 & F2 & F3).
  assert (HV : Forall (fun q : (nat * wstr) * bool => forallb valid_cp (snd (fst q)) = true) segs).
  { clear - Hv F2. subst n. induction segs as [|q segs IH]; [constructor|]. cbn [flat_map] in Hv. rewrite forallb_app in Hv. apply andb_prop in Hv as [V1 V2]. constructor; [exact V1 | exact (IH V2)]. }
  rewrite F2 in Hb |- *. apply (follow_parts (fun o x ws => forallb valid_cp x = true /\ words_at E pre o x ws)) with (h := []).
  - intros o x ws Hx Hbx [Hvx Hw]. exact (words_part E pre o x ws Hx Hbx Hvx HK Hw).
  - clear - H3 HV. induction H3 as [|q ws segs out Hq _ IH]; constructor; [destruct (snd q); [exact Hq | split; [exact (Forall_inv HV) | exact Hq]] | exact (IH (Forall_inv_tail HV))].
  - cbn [length]. rewrite Nat.add_0_r. exact F1.
  - exact F3.
  - apply follow_bmp. exact Hb.
Qed.

Section At.
Variables (E : env) (v : smap Z) (ops : list added_token) (norm : option normalizer) (pre : option pre_tokenizer) (s : wstr).
Hypothesis Hpre : forall t, pre = Some t -> cuttable E t /\ keeps_characters E t.
Hypothesis Hw : works_in_place E norm s.
Lemma laid_inside : forall pos segs l, laid E v ops norm pre pos segs l -> forall h, s = h ++ flat_map (fun q => snd (fst q)) segs -> Forall (fun q => snd (fst q) <> []) segs -> pos <= length h ->
  Forall (fun p => snd p <> [] /\ fst p < length s) l.
Proof.
  induction 1 as [pos|pos o x segs l _ IH|pos o x n segs l k Hi Hp _ IH]; intros h Hs HN Hl; [constructor|..]; cbn [flat_map fst snd] in Hs; pose proof (Forall_inv HN) as N1; cbn [fst snd] in N1.
  - constructor; [cbn [fst snd]; split; [exact N1|]; rewrite Hs, !app_length; destruct x; [congruence | cbn [length]; lia]|]. apply (IH (h ++ x)); [rewrite <- app_assoc; exact Hs | exact (Forall_inv_tail HN) | rewrite app_length; lia].
  - destruct (Hw h x (flat_map (fun q => snd (fst q)) segs) Hs N1) as (n' & W1 & W2 & W3). pose proof (in_place_one E norm x n' n W1 Hi). subst n'. pose proof (proj2 (in_place_norm E norm x n Hi)) as Hln. apply Forall_app. split.
    + eapply Forall_impl; [|exact (parts_part _ E pre pos n l W2 W3 Hpre Hp)]. intros [pp px] (P1 & a & z & P2 & P3). cbn [fst snd] in *. split; [exact P1|]. rewrite Hs, !app_length. rewrite P2, !app_length in Hln. assert (P4 : 0 < length px) by (destruct px; [congruence | cbn [length]; lia]). lia.
    + apply (IH (h ++ x)); [rewrite <- app_assoc; exact Hs | exact (Forall_inv_tail HN) | rewrite app_length; lia].
Qed.
Lemma laid_there : (forall x n, in_place_to E norm x n -> length n = length x) -> forall pos segs l, laid E v ops norm pre pos segs l -> forall h, s = h ++ flat_map (fun q => snd (fst q)) segs ->
  Forall (fun q => snd (fst q) <> []) segs -> pos = length h -> Forall (stands_there E norm s) l.
Proof.
  intros HL. induction 1 as [pos|pos o x segs l _ IH|pos o x n segs l k Hi Hp _ IH]; intros h Hs HN Hl; [constructor|..]; cbn [flat_map fst snd] in Hs; pose proof (Forall_inv HN) as N1; cbn [fst snd] in N1.
  - constructor; [|apply (IH (h ++ x)); [rewrite <- app_assoc; exact Hs | exact (Forall_inv_tail HN) | rewrite app_length; lia]].
    exists h, x, (flat_map (fun q => snd (fst q)) segs), x, [], []. cbn [fst snd length app]. rewrite app_nil_r. split; [exact Hs|]. split; [left; reflexivity|]. split; [reflexivity|]. split; [reflexivity | lia].
  - destruct (Hw h x (flat_map (fun q => snd (fst q)) segs) Hs N1) as (n' & W1 & W2 & W3). pose proof (in_place_one E norm x n' n W1 Hi). subst n'. pose proof (HL x n Hi) as Hln. apply Forall_app. split.
    + eapply Forall_impl; [|exact (parts_part _ E pre pos n l W2 W3 Hpre Hp)]. intros p (P1 & a & z & P2 & P3). exists h, x, (flat_map (fun q => snd (fst q)) segs), n, a, z. split; [exact Hs|]. split; [right; exact Hi|]. split; [exact Hln|]. split; [exact P2 | lia].
    + apply (IH (h ++ x)); [rewrite <- app_assoc; exact Hs | exact (Forall_inv_tail HN) | rewrite app_length; lia].
Qed.
End At.

(** With a pre-tokenizer that keeps the characters no word begins past the end of the text, so that by [C139_wordpiece] the text is encoded. *)
Theorem C139_inside : forall E v ops norm pre s l, (forall t, pre = Some t -> cuttable E t /\ keeps_characters E t) -> s <> [] -> bmp s -> forallb valid_cp s = true -> works_in_place E norm s ->
  laid_words E v ops norm pre s l -> Forall (fun p => snd p <> [] /\ fst p < length s) l.
Proof.
  intros E v ops norm pre s l Hpre Hne Hb Hv Hw (tokens & segs & F & D & H). cbn beta in H. destruct (divided_follow _ _ _ _ D Hb (tokens_grow _ _ _ _ F)) as (F1 & F2 & F3). destruct H as [[_ H]|[_ H]].
  - eapply Forall_impl; [|exact (words_part E pre 0 s l Hne Hb Hv Hpre H)]. intros [pp px] (P1 & a & z & P2 & P3). cbn [fst snd] in *. split; [exact P1|]. rewrite P2, !app_length. assert (P4 : 0 < length px) by (destruct px; [congruence | cbn [length]; lia]). lia.
  - exact (laid_inside E v ops norm pre s Hpre Hw 0 segs l H [] F2 F3 (le_n 0)).
Qed.
Print Assumptions C139_inside.
(** With a normalizer that keeps the length, every word is reported at the characters it stands for. *)
Theorem C139_stands_there : forall E v ops norm pre s l, (forall t, pre = Some t -> cuttable E t /\ keeps_characters E t) -> s <> [] -> bmp s -> works_in_place E norm s ->
  (forall x n, in_place_to E norm x n -> length n = length x) -> laid_words E v ops norm pre s l -> Forall (stands_there E norm s) l.
Proof.
  intros E v ops norm pre s l Hpre Hne Hb Hw HL (tokens & segs & F & D & H). cbn beta in H. destruct (divided_follow _ _ _ _ D Hb (tokens_grow _ _ _ _ F)) as (F1 & F2 & F3). destruct H as [[[_ H] _]|[_ H]].
  - apply HL in H. destruct s; [congruence | discriminate].
  - exact (laid_there E v ops norm pre s Hpre Hw HL 0 segs l H [] F2 F3 eq_refl).
Qed.
Print Assumptions C139_stands_there.

(** *** A case *)
(** A decision procedure for the BERT normalizer and texts whose normal form is the text itself. *)
Definition bert_in_place (E : env) (cl ch st lo : bool) (x : wstr) : bool :=
  let y := if cl then map (fun c => if NormSpec.blank E c then 32%N else c) x else x in
  let n := if lo then map (e_towlower E) y else y in
  (if cl then forallb (fun c => negb (unwanted E c)) x else true) && (if ch then forallb (fun c => negb (cjk_seen c)) y else true) &&
  (if st || lo then match e_norm E NFD (map repaired y) with Some z => leqb z y && forallb (fun c => negb (e_is_mn E c)) y | None => false end else true) &&
  forallb (fun c => (c <? 0x10000)%N) n && forallb valid_cp n.
Lemma none_all (f : N -> bool) l : forallb (fun c => negb (f c)) l = true -> Forall (fun c => f c = false) l.
Proof. intros H. apply Forall_forall. intros c Hc. rewrite forallb_forall in H. specialize (H c Hc). destruct (f c); [discriminate | reflexivity]. Qed.
Lemma bert_works E cl ch st lo s : forallb (bert_in_place E cl ch st lo) (stretches s) = true -> works_in_place E (Some (NBert cl ch st lo)) s.
Proof.
  intros H a x b -> _. rewrite forallb_forall in H. specialize (H x (stretches_in a x b)). unfold bert_in_place in H. cbn zeta in H.
  remember (if cl then map (fun c => if NormSpec.blank E c then 32%N else c) x else x) as y eqn:Ey. apply andb_prop in H as [H H5]. apply andb_prop in H as [H H4]. apply andb_prop in H as [H H3]. apply andb_prop in H as [H1 H2].
  exists (if lo then map (e_towlower E) y else y). split; [|split; [|exact H5]].
  - cbn [in_place_to in_place]. rewrite <- Ey. split; [intros ->; apply none_all; exact H1|]. split; [intros ->; apply none_all; exact H2|]. split; [|reflexivity].
    intros Es. rewrite Es in H3. destruct (e_norm E NFD (map repaired y)) as [z|]; [|discriminate]. apply andb_prop in H3 as [H3 H6]. apply leqb_eq in H3. subst z. split; [reflexivity | apply none_all; exact H6].
  - apply Forall_forall. intros c Hc. rewrite forallb_forall in H4. apply N.ltb_lt. exact (H4 c Hc).
Qed.
(** The small bert-base-uncased of C112 after its history, which has added "chess", on the Cyrillic letter Zhe, a space and "[MASK]Chess!". *)
Definition zhe_text : wstr := [0x416; 32]%N ++ str "[MASK]Chess!".
Definition zhe_words : list (nat * wstr) := [(0, [0x416]%N); (2, str "[MASK]"); (8, str "chess"); (13, str "!")].
Lemma zhe_laid : laid_words test_env base_vocab (base_tokens ++ given base_history) (cf_norm base_config) (cf_pre base_config) zhe_text zhe_words.
Proof.
  exists [(2, str "[MASK]")], [((0, [0x416; 32]%N), false); ((2, str "[MASK]"), true); ((8, str "Chess!"), false)].
  split; [|split; [|right; split; [intros [K _]; discriminate|]]].
  - apply (fd_rest _ _ 0 [0x416]%N (32%N :: str "[MASK]Chess!") []); [discriminate | cbn; intuition discriminate | right; eexists; reflexivity | | reflexivity|].
    { intros k Hk K; apply mask_takes in K; destruct k as [|[|k]]; [lia | vm_compute in K; intuition discriminate | cbn in Hk; lia]. }
    apply fd_space. apply (fd_token _ _ 2 (str "[MASK]") (str "Chess!")); [discriminate | cbn; intuition discriminate | apply mask_takes; cbn; auto 10 | intros k Hk K; apply mask_takes in K; do 6 (destruct k as [|k]; [first [lia | vm_compute in K; intuition discriminate]|]); cbn in Hk; lia|].
    apply (fd_rest _ _ 8 (str "Chess!") [] []); [discriminate | cbn; intuition discriminate | left; reflexivity | intros k Hk K; apply mask_takes in K; do 7 (destruct k as [|k]; [first [lia | vm_compute in K; intuition discriminate]|]); cbn in Hk; lia | reflexivity | constructor].
  - apply (dv_gap 0 [0x416; 32]%N (str "[MASK]Chess!") 2 8); [discriminate | reflexivity|]. apply (dv_match 2 (str "[MASK]") (str "Chess!")). apply dv_rest. discriminate.
  - apply (laid_stretch _ _ _ _ _ 0 0 [0x416; 32]%N [0x416; 32]%N _ [(0, [0x416]%N)] [(2, str "[MASK]"); (8, str "chess"); (13, str "!")]).
    + cbn [in_place_to cf_norm base_config in_place]. split; [intros _; repeat constructor|]. split; [intros _; repeat constructor|]. split; [intros _; split; [vm_compute; reflexivity | repeat constructor]|]. vm_compute. reflexivity.
    + exists [], [((0, [0x416; 32]%N), false)], [[(0, [0x416]%N)]]. split; [|split; [|split; [|reflexivity]]].
      * apply (fd_rest _ _ 0 [0x416]%N [32%N] []); [discriminate | cbn; intuition discriminate | right; eexists; reflexivity | intros k Hk K; apply mask_takes in K; destruct k as [|[|k]]; [lia | discriminate | cbn in Hk; lia] | reflexivity|]. apply fd_space. constructor.
      * apply dv_rest. discriminate.
      * apply Forall2_cons; [|apply Forall2_nil]. cbn [fst snd words_at cf_pre base_config cuts_into]. exists [[(0, [0x416]%N)]]. split; [|reflexivity]. constructor; [|constructor]. apply (bs_word _ _ 0 [0x416]%N [32%N] []); [discriminate | repeat (constructor; [split; reflexivity|]); constructor | left; reflexivity|]. apply bs_space; [reflexivity | constructor].
    + apply laid_token. apply (laid_stretch _ _ _ _ _ 8 8 (str "Chess!") (str "chess!") [] [(8, str "chess"); (13, str "!")] []); [| |constructor].
      * cbn [in_place_to cf_norm base_config in_place]. split; [intros _; repeat constructor|]. split; [intros _; repeat constructor|]. split; [intros _; split; [vm_compute; reflexivity | repeat constructor]|]. vm_compute. reflexivity.
      * exists [(8, str "chess")], [((8, str "chess"), true); ((13, str "!"), false)], [[(8, str "chess")]; [(13, str "!")]]. split; [|split; [|split; [|reflexivity]]].
        -- apply (fd_token _ _ 8 (str "chess") (str "!")); [discriminate | cbn; intuition discriminate | apply mask_takes; reflexivity | intros k Hk K; apply mask_takes in K; do 5 (destruct k as [|k]; [first [lia | discriminate]|]); cbn in Hk; lia|].
           apply (fd_rest _ _ 13 (str "!") [] []); [discriminate | cbn; intuition discriminate | left; reflexivity | intros k Hk K; apply mask_takes in K; destruct k as [|[|k]]; [lia | discriminate | cbn in Hk; lia] | reflexivity | constructor].
        -- apply (dv_match 8 (str "chess") (str "!")). apply dv_rest. discriminate.
        -- apply Forall2_cons; [reflexivity|]. apply Forall2_cons; [|apply Forall2_nil]. cbn [fst snd words_at cf_pre base_config cuts_into]. exists [[(13, str "!")]]. split; [|reflexivity]. constructor; [|constructor]. apply bs_punct; [reflexivity | reflexivity | constructor].
Qed.
Example C139_case : Forall printable_token (base_tokens ++ given base_history) /\ one_flag (base_tokens ++ given base_history) /\ bmp zhe_text /\ forallb valid_cp zhe_text = true /\
  works_in_place test_env (cf_norm base_config) zhe_text /\ (forall p, cf_pre base_config = Some p -> cuttable test_env p /\ keeps_characters test_env p) /\
  laid_words test_env base_vocab (base_tokens ++ given base_history) (cf_norm base_config) (cf_pre base_config) zhe_text zhe_words /\
  exists t, construct (fun _ => None) (fun _ => Some (render base_config)) [] (str "{}") = Ok t /\
  exists r, snd (encode test_env 20 (HistSpec.after test_env 10 t base_history) zhe_text true) = Ok r /\ en_tokens r = map str ["[CLS]"; "[UNK]"; "[MASK]"; "chess"; "!"; "[SEP]"; "[PAD]"; "[PAD]"] /\
    en_offsets r = [(0, 0); (0, 1); (2, 8); (8, 13); (13, 14); (0, 0); (0, 0); (0, 0)].
Proof.
  destruct C137_case as (H1 & H2 & _). split; [exact H1|]. split; [exact H2|]. split; [|split; [|split; [|split; [|split; [exact zhe_laid|]]]]].
  - apply Forall_forall. intros c Hc. apply N.ltb_lt. assert (K : forallb (fun c => (c <? 0x10000)%N) zhe_text = true) by reflexivity. rewrite forallb_forall in K. exact (K c Hc).
  - reflexivity.
  - apply bert_works. vm_compute. reflexivity.
  - intros p [= <-]. split; exact I.
  - eexists. split; [vm_compute; reflexivity|]. eexists. split; [vm_compute; reflexivity|]. split; reflexivity.
Qed.
(** A decomposable character is outside the claim's reach: the stretch with e-acute is not normalized in place. *)
Example C139_not_in_place : ~ works_in_place test_env (cf_norm base_config) [0xE9]%N.
Proof. intros H. destruct (H [] [0xE9]%N [] eq_refl) as (n & (_ & _ & K & _) & _); [discriminate|]. destruct (K eq_refl) as [K1 _]. vm_compute in K1. discriminate. Qed.
