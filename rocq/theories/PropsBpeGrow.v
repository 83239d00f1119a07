(** C126: BPE models that differ in entries and merge rules that do not matter for a text. *)
From Verif Require Import Base BaseFacts Unicode Common Utils PostProcessor Decoder Normalizer PreTokenizer WordPiece Bpe AddedVocab Tokenizer Spec
  EncFacts TzSpec TzProofs AvSpec WpSpec WpProofs UnicodeProofs RefSpec PropsReference PropsPre BpeSpec BpeProofs BpeWord MergeSpec PropsMerges RelevSpec GrowSpec PropsGrow AsciiSpec PropsAscii BpeAgree BpeGrowSpec ComesProofs OutProofs Env.
From Coq Require Import ZifyBool ZifyNat ZifyN Relations.
From Coq Require QArith_base.
Import ListNotations.

Lemma scattered_app z1 z2 l1 l2 : scattered z1 l1 -> scattered z2 l2 -> scattered (z1 ++ z2) (l1 ++ l2).
Proof.
  intros H H2. induction H as [l|x z l H IH|x z l H IH]; cbn [app]; [|constructor; exact IH | apply sc_skip; exact IH].
  induction l as [|x l IH]; cbn [app]; [exact H2 | apply sc_skip; exact IH].
Qed.
Lemma scattered_refl l : scattered l l.
Proof. induction l; constructor; assumption. Qed.
Lemma scattered_stretch z x y : scattered z x -> stretch x y -> scattered z y.
Proof. intros H (p & q & ->). change z with ([] ++ z). apply scattered_app; [constructor|]. rewrite <- (app_nil_r z). apply scattered_app; [exact H | constructor]. Qed.
Lemma mfind_dec (x y : option (Z * Z)) : x = y \/ x <> y.
Proof. destruct x as [[a b]|], y as [[c d]|]; try (right; discriminate); [|left; reflexivity]. destruct (Z.eq_dec a c) as [->|], (Z.eq_dec b d) as [->|]; [left; reflexivity | right; congruence | right; congruence | right; congruence]. Qed.

Section Word.
Context (E : env) (norm : option normalizer) (s : wstr) (v v' : smap Z) (lines lines' : list bytes) (d : QArith_base.Q) (unk pre suf : bytes) (fu ig : bool) (b b' : bpe).
Hypothesis Hpq : pq_ok E.
Hypothesis Hb : new_bpe v lines d unk pre suf fu false ig = Ok b.
Hypothesis Hb' : new_bpe v' lines' d unk pre suf fu false ig = Ok b'.
Hypothesis Hv : sound_vocab v.
Hypothesis Hv' : sound_vocab v'.
Hypothesis Hpre : plain pre.
Hypothesis Hsuf : plain suf.
Hypothesis Hent : unseen_entries E norm s b v'.
Hypothesis Hrul : unseen_rules E norm s b b'.
Hypothesis Hnu : forall line, In line (lines ++ lines') -> ~ names unk line.
Context (w : bytes).
Hypothesis Hw : drawn E norm s w.
Let gaps := vanish b.
Lemma eb : build_merges v (length pre) 0 lines [] = Ok (b_merges b) /\ b_vocab b = v /\ b_dropout b = d /\ b_unk b = unk /\ b_prefix b = pre /\
  b_suffix b = suf /\ b_fuse_unk b = fu /\ b_byte_fallback b = false /\ b_ignore_merges b = ig.
Proof. exact (new_bpe_vocab _ _ _ _ _ _ _ _ _ _ Hb). Qed.
Lemma eb' : build_merges v' (length pre) 0 lines' [] = Ok (b_merges b') /\ b_vocab b' = v' /\ b_dropout b' = d /\ b_unk b' = unk /\ b_prefix b' = pre /\
  b_suffix b' = suf /\ b_fuse_unk b' = fu /\ b_byte_fallback b' = false /\ b_ignore_merges b' = ig.
Proof. exact (new_bpe_vocab _ _ _ _ _ _ _ _ _ _ Hb'). Qed.
Definition decor (f l : bool) (z : bytes) : bytes := (if f then [] else pre) ++ z ++ (if l then suf else []).
Lemma decor_decorated f l z : decorated b z (decor f l z).
Proof. unfold decorated. destruct eb as (_ & _ & _ & _ & -> & -> & _). unfold decor. destruct f, l; cbn [app]; rewrite ?app_nil_r; cbn [In]; auto. Qed.
Lemma known_seen z : z <> [] -> plain z -> shows gaps z w -> forall f l, sfind (decor f l z) v' = sfind (decor f l z) v.
Proof.
  intros Hne Hz HS f l. destruct (option_eq_dec (sfind (decor f l z) v') (sfind (decor f l z) v)) as [D|D]; [exact D|]. exfalso.
  destruct Hent as (_ & K). destruct eb as (_ & Ev & _). rewrite Ev in K. destruct (K _ D) as [K1 _]. apply (K1 z Hne Hz (decor_decorated f l z)). eapply drawn_appears; eassumption.
Qed.
Lemma unk_same : unk_id b' = unk_id b.
Proof. unfold unk_id. destruct eb as (_ & Ev & _ & Eu & _), eb' as (_ & Ev' & _ & Eu' & _), Hent as (K & _). rewrite Eu in K. rewrite Ev in K. rewrite Eu, Eu', Ev, Ev', K. reflexivity. Qed.
Lemma no_unk_rule lns u mm vv a c r n : build_merges vv (length pre) 0 lns [] = Ok mm -> NoDup (map snd vv) -> (forall line, In line lns -> ~ names unk line) -> sfind unk vv = Some u -> mfind a c mm = Some (r, n) -> a <> u /\ c <> u.
Proof.
  intros HM HN HL HU Hm. apply (build_merges_spec _ _ _ _ _ _ HM) in Hm as [Hm|(_ & k & line & _ & Hk & (p & Hp & G1 & G2 & _) & _)]; [discriminate|].
  apply nth_error_In in Hk. destruct p as [p q]. cbn [fst snd] in *. apply two_fields_iff in Hp. split; intros ->; apply (HL line Hk); exists p, q; (split; [exact Hp|]).
  - left. apply (same_text vv HN _ _ u); apply sfind_in; assumption.
  - right. apply (same_text vv HN _ _ u); apply sfind_in; assumption.
Qed.
Lemma unk_find u : unk_id b = Some u -> sfind unk v = Some u /\ sfind unk v' = Some u.
Proof.
  unfold unk_id. destruct eb as (_ & Ev & _ & Eu & _), Hent as (K & _). rewrite Eu, Ev in *. destruct (is_nil unk); [discriminate|]. intros H. split; [exact H | congruence].
Qed.
Lemma unk_left u c : unk_id b = Some u -> mfind u c (b_merges b) = None /\ mfind u c (b_merges b') = None /\ mfind c u (b_merges b) = None /\ mfind c u (b_merges b') = None.
Proof.
  intros Hu. apply unk_find in Hu as [U1 U2]. destruct eb as (M & _), eb' as (M' & _).
  assert (L1 : forall line, In line lines -> ~ names unk line) by (intros; apply Hnu, in_app_iff; auto). assert (L2 : forall line, In line lines' -> ~ names unk line) by (intros; apply Hnu, in_app_iff; auto).
  split; [|split; [|split]].
  - destruct (mfind u c (b_merges b)) as [[r n]|] eqn:Em; [|reflexivity]. destruct (no_unk_rule _ u _ _ _ _ _ _ M (proj1 Hv) L1 U1 Em). congruence.
  - destruct (mfind u c (b_merges b')) as [[r n]|] eqn:Em; [|reflexivity]. destruct (no_unk_rule _ u _ _ _ _ _ _ M' (proj1 Hv') L2 U2 Em). congruence.
  - destruct (mfind c u (b_merges b)) as [[r n]|] eqn:Em; [|reflexivity]. destruct (no_unk_rule _ u _ _ _ _ _ _ M (proj1 Hv) L1 U1 Em). congruence.
  - destruct (mfind c u (b_merges b')) as [[r n]|] eqn:Em; [|reflexivity]. destruct (no_unk_rule _ u _ _ _ _ _ _ M' (proj1 Hv') L2 U2 Em). congruence.
Qed.

(** *** What the symbols of the word stand for *)
Definition part (p e : nat) : bytes := firstn (e - p) (skipn p w).
Definition cover (p e : nat) (z : bytes) : Prop := if gaps then scattered z (part p e) else z = part p e.
Inductive reads : nat -> seqn -> Prop :=
| rd_nil i : reads i []
| rd_known i p e z id n y : i <= p -> p < e -> e <= length w -> (gaps = false -> p = i) -> cover p e z -> z <> [] -> plain z ->
    sfind (decor (p =? 0) (e =? length w) z) v = Some id -> reads e y -> reads i ((id, n) :: y)
| rd_unk i e u n y : unk_id b = Some u -> i < e -> e <= length w -> reads e y -> reads i ((u, n) :: y).
Lemma part_stretch p e : stretch (part p e) w.
Proof. exists (firstn p w), (skipn (e - p) (skipn p w)). unfold part. rewrite (firstn_skipn (e - p)), firstn_skipn. reflexivity. Qed.
Lemma cover_shows p e z : cover p e z -> shows gaps z w.
Proof. unfold cover, shows. destruct gaps; intros H; [eapply scattered_stretch; [exact H | apply part_stretch] | subst z; apply part_stretch]. Qed.
Lemma part_app p e p2 e2 : p <= e -> e <= p2 -> p2 <= e2 -> e2 <= length w -> exists m, part p e2 = part p e ++ m ++ part p2 e2 /\ (e = p2 -> m = []).
Proof.
  intros H1 H2 H3 H4. exists (part e p2). unfold part. split.
  - assert (L : forall a c f (l : bytes), a <= c -> c <= f -> firstn (f - a) (skipn a l) = firstn (c - a) (skipn a l) ++ firstn (f - c) (skipn c l)).
    { intros a c f l Ha Hc. replace (f - a) with ((c - a) + (f - c)) by lia. rewrite <- (firstn_skipn (c - a) (skipn a l)) at 1. rewrite skipn_skipn'. replace (a + (c - a)) with c by lia.
      destruct (Nat.le_gt_cases (length (skipn a l)) (c - a)) as [HL|HL].
      - rewrite (firstn_all2 (n := c - a)) by exact HL. rewrite skipn_length in HL. rewrite (skipn_all2 (n := c)) by lia. rewrite firstn_nil, !app_nil_r. apply firstn_all2. rewrite skipn_length. lia.
      - rewrite firstn_app, firstn_length. replace (Nat.min (c - a) (length (skipn a l))) with (c - a) by lia. replace (c - a + (f - c) - (c - a)) with (f - c) by lia. rewrite firstn_firstn. replace (Nat.min (c - a + (f - c)) (c - a)) with (c - a) by lia. reflexivity. }
    rewrite (L p e e2) by lia. rewrite (L e p2 e2) by lia. reflexivity.
  - intros ->. rewrite Nat.sub_diag. reflexivity.
Qed.
Lemma cover_app p e z p2 e2 z2 : p < e -> e <= p2 -> p2 < e2 -> e2 <= length w -> (gaps = false -> p2 = e) -> cover p e z -> cover p2 e2 z2 -> cover p e2 (z ++ z2).
Proof.
  intros H1 H2 H3 H4 HG C1 C2. destruct (part_app p e p2 e2) as (m & Em & Hm); [lia | lia | lia | exact H4|]. unfold cover in *. rewrite Em. destruct gaps.
  - apply scattered_app; [exact C1|]. change z2 with ([] ++ z2). apply scattered_app; [constructor | exact C2].
  - rewrite Hm by (symmetry; apply HG; reflexivity). cbn [app]. subst. reflexivity.
Qed.
Lemma decor_join p e p2 e2 z z2 : p < e -> e <= p2 -> p2 < e2 -> e2 <= length w ->
  decor (p =? 0) (e =? length w) z ++ skipn (length pre) (decor (p2 =? 0) (e2 =? length w) z2) = decor (p =? 0) (e2 =? length w) (z ++ z2).
Proof.
  intros H1 H2 H3 H4. unfold decor. replace (e =? length w) with false by lia. replace (p2 =? 0) with false by lia. rewrite skipn_app, skipn_all, Nat.sub_diag. cbn [skipn app]. rewrite app_nil_r, <- !app_assoc. reflexivity.
Qed.
Lemma pair_read i a la c lc y : reads i ((a, la) :: (c, lc) :: y) ->
  (exists p e z p2 e2 z2, i <= p /\ p < e /\ e <= p2 /\ p2 < e2 /\ e2 <= length w /\ (gaps = false -> p = i) /\ (gaps = false -> p2 = e) /\ cover p e z /\ cover p2 e2 z2 /\ z <> [] /\ z2 <> [] /\ plain z /\ plain z2 /\
     sfind (decor (p =? 0) (e =? length w) z) v = Some a /\ sfind (decor (p2 =? 0) (e2 =? length w) z2) v = Some c /\ reads e2 y) \/
  unk_id b = Some a \/ unk_id b = Some c.
Proof.
  intros H. inversion H as [|? p e z ? ? ? K1 K2 K3 K4 K5 K6 K7 K8 K9|? e u ? ? K1 K2 K3 K4]; subst; [|auto]. inversion K9 as [|? p2 e2 z2 ? ? ? M1 M2 M3 M4 M5 M6 M7 M8 M9|? e2 u ? ? M1 M2 M3 M4]; subst; [|auto].
  left. exists p, e, z, p2, e2, z2. auto 20.
Qed.
Lemma reads_step i x y : step (b_merges b) x y -> reads i x -> reads i y.
Proof.
  intros (rank & H). destruct H as [A a la c lc B n Hm]. revert i. induction A as [|h A IH]; intros i H; cbn [app] in *.
  - destruct (pair_read _ _ _ _ _ _ H) as [(p & e & z & p2 & e2 & z2 & H1 & H2 & H3 & H4 & H5 & G1 & G2 & C1 & C2 & N1 & N2 & P1 & P2 & F1 & F2 & R)|[U|U]].
    + apply (rd_known i p e2 (z ++ z2)); [lia | lia | lia | exact G1 | eapply cover_app; eassumption | destruct z; [congruence | discriminate] | apply Forall_app; split; assumption | | exact R].
      destruct eb as (M & _). apply (build_merges_spec _ _ _ _ _ _ M) in Hm as [Hm|(_ & k & line & _ & _ & (pq & _ & Q1 & Q2 & Q3) & _)]; [discriminate|].
      rewrite (same_text v (proj1 Hv) _ _ a (sfind_in _ _ _ Q1) (sfind_in _ _ _ F1)) in Q3. rewrite (same_text v (proj1 Hv) _ _ c (sfind_in _ _ _ Q2) (sfind_in _ _ _ F2)) in Q3. rewrite decor_join in Q3 by lia. exact Q3.
    + destruct (unk_left a c U) as (K & _). congruence.
    + destruct (unk_left c a U) as (_ & _ & K & _). congruence.
  - inversion H; subst; [eapply rd_known; eauto | eapply rd_unk; eauto].
Qed.
Lemma reads_agree i y : reads i y -> agree (b_merges b) (b_merges b') y.
Proof.
  intros H A a la c lc B ->. revert i H. induction A as [|h A IH]; intros i H; cbn [app] in *.
  - destruct (pair_read _ _ _ _ _ _ H) as [(p & e & z & p2 & e2 & z2 & H1 & H2 & H3 & H4 & H5 & G1 & G2 & C1 & C2 & N1 & N2 & P1 & P2 & F1 & F2 & R)|[U|U]].
    + destruct (mfind_dec (mfind a c (b_merges b')) (mfind a c (b_merges b))) as [D|D]; [exact D|]. exfalso.
      assert (C : cover p e2 (z ++ z2)) by (eapply cover_app; eassumption). assert (PZ : plain (z ++ z2)) by (apply Forall_app; split; assumption). assert (NZ : z ++ z2 <> []) by (destruct z; [congruence | discriminate]).
      destruct eb as (_ & Ev & _ & _ & Ep & _), eb' as (_ & Ev' & _).
      pose proof (Hrul (decor (p =? 0) (e =? length w) z) (decor (p2 =? 0) (e2 =? length w) z2) a c) as K. unfold joined in K. rewrite Ev, Ev', Ep in K. rewrite decor_join in K by lia.
      refine (K F1 _ F2 _ D (z ++ z2) NZ PZ (decor_decorated _ _ _) _).
      * rewrite (known_seen z N1 P1 (cover_shows _ _ _ C1)). exact F1.
      * rewrite (known_seen z2 N2 P2 (cover_shows _ _ _ C2)). exact F2.
      * eapply drawn_appears; [exact Hw | exact PZ | exact NZ | apply (cover_shows _ _ _ C)].
    + destruct (unk_left a c U) as (K1 & K2 & _). congruence.
    + destruct (unk_left c a U) as (_ & _ & K1 & K2). congruence.
  - inversion H; subst; eapply IH; eassumption.
Qed.
Lemma reads_steps i x y : steps (step (b_merges b)) x y -> reads i x -> reads i y.
Proof. induction 1 as [x|x y z H1 _ IH]; [auto|]. intros H. apply IH. eapply reads_step; eassumption. Qed.

(** *** The symbols at the start *)
Let lk := map (fun p => sfind p v).
Let L := lk (pieces pre suf w).
Lemma L_length : length L = length w.
Proof. unfold L, lk, pieces. rewrite !map_length, combine_length, seq_length. lia. Qed.
Lemma L_nth k o : nth_error L k = Some o -> exists x, nth_error w k = Some x /\ o = sfind (decor (k =? 0) (S k =? length w) [x]) v.
Proof.
  intros H. unfold L, lk, pieces in H. rewrite !nth_error_map in H.
  assert (HN : nth_error (combine (seq 0 (length w)) w) k = match nth_error w k with Some x => Some (k, x) | None => @None (nat * N) end).
  { assert (G : forall l a, nth_error (combine (seq a (length l)) l) k = match nth_error l k with Some x => Some (a + k, x) | None => @None (nat * N) end).
    { clear. induction k as [|k IH]; intros [|x l] a; cbn [length seq combine nth_error]; [reflexivity | rewrite Nat.add_0_r; reflexivity | reflexivity|]. rewrite IH. destruct (nth_error l k); [|reflexivity]. do 2 f_equal. lia. }
    apply G. }
  rewrite HN in H. destruct (nth_error w k) as [x|]; [|discriminate]. cbn [option_map fst snd] in H. exists x. split; [reflexivity|]. injection H as <-. unfold piece_at, decor. reflexivity.
Qed.
Lemma part_one k x : nth_error w k = Some x -> part k (S k) = [x].
Proof.
  intros H. unfold part. replace (S k - k) with 1 by lia. apply nth_error_split in H as (A & B & -> & <-). rewrite skipn_app, skipn_all, Nat.sub_diag. reflexivity.
Qed.
Lemma one_plain vv f l x i : sound_vocab vv -> sfind (decor f l [x]) vv = Some i -> (x < 128)%N.
Proof.
  intros [_ HU] H. apply sfind_in in H. destruct (HU _ _ H) as (cs & Vc & Ec). symmetry in Ec. apply (utf8_lone_high cs (if f then [] else pre) x (if l then suf else []) Vc); [exact Ec | destruct f; [constructor | exact Hpre] | destruct l; [exact Hsuf | constructor]].
Qed.
Lemma known_one k id x : nth_error w k = Some x -> sfind (decor (k =? 0) (S k =? length w) [x]) v = Some id -> forall i n y, i <= k -> (gaps = false -> k = i) -> reads (S k) y -> reads i ((id, n) :: y).
Proof.
  intros Hx H i n y Hi HG HR. pose proof (one_plain v _ _ _ _ Hv H) as Hlow. apply (rd_known i k (S k) [x]); [exact Hi | lia | apply nth_error_Some; congruence | exact HG | | discriminate | constructor; [exact Hlow | constructor] | exact H | exact HR].
  unfold cover. rewrite (part_one k x Hx). destruct gaps; [apply scattered_refl | reflexivity].
Qed.
Lemma skipn_cons {A} (l : list A) i x r : skipn i l = x :: r -> nth_error l i = Some x /\ skipn (S i) l = r.
Proof. revert i. induction l as [|y l IH]; intros [|i] H; cbn in *; try discriminate; [injection H as -> ->; auto | apply IH; exact H]. Qed.
Lemma start_known l : forall i, l = skipn i L -> gaps = true -> reads i (known_only l).
Proof.
  induction l as [|o l IH]; intros i Hl HG; [apply rd_nil|]. symmetry in Hl. apply skipn_cons in Hl as [H1 H2]. destruct (L_nth _ _ H1) as (x & Hx & Ho).
  assert (R : reads (S i) (known_only l)) by (apply IH; [symmetry; exact H2 | exact HG]). cbn [known_only]. destruct o as [id|].
  - eapply known_one; [exact Hx | symmetry; exact Ho | lia | intros; congruence | exact R].
  - assert (G : forall i j y, reads j y -> i <= j -> (gaps = true) -> reads i y). { clear. intros i j y H. revert i. induction H; intros k Hk HG; [apply rd_nil | apply (rd_known k p e z); [lia | assumption | assumption | intros; congruence | assumption..] | apply (rd_unk k e); [assumption | lia | assumption..]]. }
    apply (G i (S i)); [exact R | lia | exact HG].
Qed.
Lemma start_unfused u l : unk_id b = Some u -> forall i, l = skipn i L -> reads i (unfused u l).
Proof.
  intros Hu. induction l as [|o l IH]; intros i Hl; [apply rd_nil|]. symmetry in Hl. apply skipn_cons in Hl as [H1 H2]. destruct (L_nth _ _ H1) as (x & Hx & Ho).
  assert (R : reads (S i) (unfused u l)) by (apply IH; symmetry; exact H2). unfold unfused in *. cbn [map]. destruct o as [id|].
  - eapply known_one; [exact Hx | symmetry; exact Ho | lia | intros; reflexivity | exact R].
  - apply (rd_unk i (S i)); [exact Hu | lia | apply nth_error_Some; congruence | exact R].
Qed.
Lemma start_fused u l r : unk_id b = Some u -> fused u l r -> forall i, l = skipn i L -> reads i r.
Proof.
  intros Hu. induction 1 as [|id l r H IH|k l r Hk Hh H IH]; intros i Hl; [apply rd_nil | |].
  - symmetry in Hl. apply skipn_cons in Hl as [H1 H2]. destruct (L_nth _ _ H1) as (x & Hx & Ho). eapply known_one; [exact Hx | symmetry; exact Ho | lia | intros; reflexivity | apply IH; symmetry; exact H2].
  - assert (HL : i + k <= length w). { rewrite <- L_length. apply (f_equal (@length _)) in Hl. rewrite app_length, repeat_length, skipn_length in Hl. lia. }
    apply (rd_unk i (i + k)); [exact Hu | lia | exact HL|]. apply IH. rewrite <- skipn_skipn', <- Hl, skipn_app, skipn_all2 by (rewrite repeat_length; lia). rewrite repeat_length, Nat.sub_diag. reflexivity.
Qed.
Lemma items_same ps : (forall p, In p ps -> sfind p v' = sfind p v) -> forall o, items_of b' ps o = items_of b ps o.
Proof.
  destruct eb as (_ & Ev & _ & Eu & _ & _ & Ef & Eb & _), eb' as (_ & Ev' & _ & Eu' & _ & _ & Ef' & Eb' & _). destruct Hent as (K & _). rewrite Eu, Ev in K.
  induction ps as [|p ps IH]; intros Hp o; [reflexivity|]. cbn [items_of]. unfold fb. rewrite Eb, Eb', Eu, Eu', Ef, Ef', Ev, Ev', K. rewrite (Hp p (or_introl eq_refl)).
  assert (Hp' : forall q, In q ps -> sfind q v' = sfind q v) by (intros q Hq; apply Hp; right; exact Hq).
  destruct (sfind p v); [rewrite (IH Hp'); reflexivity|]. destruct (is_nil unk); [apply (IH Hp')|]. destruct o as [[u n]|]; [|apply (IH Hp')]. destruct fu; [apply (IH Hp') | rewrite (IH Hp'); reflexivity].
Qed.
Lemma pieces_known p : In p (pieces pre suf w) -> sfind p v' = sfind p v.
Proof.
  intros H. apply In_nth_error in H as (k & Hk). unfold pieces in Hk. rewrite nth_error_map in Hk. destruct (nth_error (combine (seq 0 (length w)) w) k) as [[j x]|] eqn:Ec; [|discriminate]. cbn [option_map fst snd] in Hk. injection Hk as <-.
  apply nth_error_In, in_combine_r in Ec. unfold piece_at. fold (decor (j =? 0) (S j =? length w) [x]). destruct (N.lt_ge_cases x 128) as [Hx|Hx].
  - apply known_seen; [discriminate | constructor; [exact Hx | constructor]|]. apply in_split in Ec as (l1 & l2 & ->). unfold shows. destruct gaps; [|exists l1, l2; reflexivity]. apply (scattered_stretch _ [x]); [apply scattered_refl | exists l1, l2; reflexivity].
  - destruct (sfind (decor (j =? 0) (S j =? length w) [x]) v') as [i|] eqn:E1; [pose proof (one_plain v' _ _ _ _ Hv' E1); lia|]. destruct (sfind (decor (j =? 0) (S j =? length w) [x]) v) as [i|] eqn:E2; [pose proof (one_plain v _ _ _ _ Hv E2); lia | reflexivity].
Qed.
Lemma initial_same : initial b' w = initial b w.
Proof.
  destruct (initial_eq b w) as (-> & _), (initial_eq b' w) as (-> & _). destruct eb as (_ & _ & _ & _ & Ep & Es & _), eb' as (_ & _ & _ & _ & Ep' & Es' & _). rewrite Ep, Es, Ep', Es'. apply items_same. apply pieces_known.
Qed.
Lemma start_reads : reads 0 (initial b w).
Proof.
  destruct (initial_eq b w) as (-> & _). destruct eb as (_ & Ev & _ & _ & Ep & Es & Ef & Eb & _). rewrite Ep, Es.
  assert (EL : map (fun p => sfind p (b_vocab b)) (pieces pre suf w) = L) by (unfold L, lk; rewrite Ev; reflexivity).
  destruct (unk_id b) as [u|] eqn:Eu.
  - destruct (b_fuse_unk b) eqn:EF.
    + destruct (items_fused b Eb u (pieces pre suf w) Eu EF) as [H _]. rewrite EL in H. eapply start_fused; [exact Eu | exact H | reflexivity].
    + destruct (items_unfused b Eb u (pieces pre suf w) Eu EF) as [H _]. rewrite H, EL. apply start_unfused; [exact Eu | reflexivity].
  - rewrite (items_no_unk b Eb _ Eu), EL. apply start_known; [reflexivity|]. unfold gaps, vanish. rewrite Eu. reflexivity.
Qed.
Lemma merge_word_same : merge_word E b' w = merge_word E b w.
Proof.
  unfold merge_word. destruct (initial_eq b w) as (_ & HP & ->), (initial_eq b' w) as (_ & _ & ->). rewrite initial_same. destruct eb as (_ & _ & -> & _), eb' as (_ & _ & -> & _).
  apply merge_all_agree; [exact Hpq | exact HP|]. intros y Hy. apply (reads_agree 0). eapply reads_steps; [exact Hy | apply start_reads].
Qed.
Lemma tokens_same l : forall i pos, reads i (contents l) -> word_to_tokens v' pos l = word_to_tokens v pos l.
Proof.
  induction l as [|x l IH]; intros i pos H; [reflexivity|]. unfold contents in H. cbn [map] in H. fold (contents l) in H.
  assert (K : exists j, model_id_to_token v' (s_c x) = model_id_to_token v (s_c x) /\ reads j (contents l)).
  { inversion H as [|? p e z ? ? ? K1 K2 K3 K4 K5 K6 K7 K8 K9|? e u ? ? K1 K2 K3 K4]; subst; exists e; (split; [|assumption]).
    - rewrite (id_to_token_unique v _ _ (proj1 Hv) (sfind_in _ _ _ K8)). apply id_to_token_unique; [exact (proj1 Hv')|]. apply sfind_in. rewrite (known_seen z K6 K7 (cover_shows _ _ _ K5)). exact K8.
    - apply unk_find in K1 as [U1 U2]. rewrite (id_to_token_unique v _ _ (proj1 Hv) (sfind_in _ _ _ U1)). apply id_to_token_unique; [exact (proj1 Hv') | apply sfind_in; exact U2]. }
  destruct K as (j & K & HR). cbn [word_to_tokens]. rewrite K, (IH j _ HR). reflexivity.
Qed.
Lemma bpe_word_same : snd (bpe_word E b' [] w) = snd (bpe_word E b [] w).
Proof.
  assert (T : forall x, merge_word E b w = Ok x -> word_to_tokens v' 0 x = word_to_tokens v 0 x).
  { intros x Hx. destruct (merge_word_spec E b w Hpq) as [[_ H]|[_ (x' & H & HS & _)]]; [congruence|]. assert (x' = x) by congruence. subst x'. apply (tokens_same x 0). eapply reads_steps; [exact HS | apply start_reads]. }
  destruct eb as (_ & Ev & Ed & _ & _ & _ & _ & _ & Ei), eb' as (_ & Ev' & Ed' & _ & _ & _ & _ & _ & Ei'). unfold bpe_word. rewrite Ed, Ed'. destruct (QArith_base.Qeq_bool d (QArith_base.Qmake 0 1)).
  - unfold tokenize_with_cache. rewrite Ei, Ei', Ev, Ev', merge_word_same. cbn [sfind find].
    assert (HD : (if ig then sfind w v' else None) = (if ig then sfind w v else None)).
    { destruct ig; [|reflexivity]. destruct (option_eq_dec (sfind w v') (sfind w v)) as [D|D]; [exact D|]. exfalso. destruct Hent as (_ & K). rewrite Ev in K. destruct (K _ D) as [_ K2]. exact (comes_relevant _ _ _ _ (drawn_comes _ _ _ _ Hw) (K2 Ei)). }
    rewrite HD. destruct (if ig then sfind w v else None); [reflexivity|]. unfold sfind. cbn [find option_map].
    destruct (merge_word E b w) as [x| | |] eqn:Em; [|reflexivity..]. rewrite (T x eq_refl). destruct (word_to_tokens v 0 x); reflexivity.
  - cbn [snd]. rewrite merge_word_same, Ev, Ev'. destruct (merge_word E b w) as [x| | |] eqn:Em; [|reflexivity..]. cbn [bind]. apply T. reflexivity.
Qed.
End Word.

(** ** C126 *)
(** [b'] differs from [b] only in entries and in rules that do not matter for the text: the same result, whatever it is. The two models may have been used before (caches [c], [c']). *)
Theorem C126_irrelevant : forall E fuel t s v v' lines lines' d unk pre suf fu ig b b' c c', pq_ok E ->
  new_bpe v lines d unk pre suf fu false ig = Ok b -> new_bpe v' lines' d unk pre suf fu false ig = Ok b' -> reach_cache E b c -> reach_cache E b' c' ->
  sound_vocab v -> sound_vocab v' -> plain pre -> plain suf -> (forall line, In line (lines ++ lines') -> ~ names unk line) ->
  tz_model t = Some (MBpe b c) -> (forall q, tz_pre t = Some q -> no_byte_level q) ->
  unseen_entries E (tz_norm t) s b v' -> unseen_rules E (tz_norm t) s b b' ->
  forall add, snd (encode E fuel (set_model t (Some (MBpe b' c'))) s add) = snd (encode E fuel t s add).
Proof.
  intros E fuel t s v v' lines lines' d unk pre suf fu ig b b' c c' Hpq Hb Hb' Hc Hc' Hv Hv' Hpre Hsuf Hnu Hm Hp Hent Hrul add. rewrite !encode_text.
  assert (K : text_encoding E (set_model t (Some (MBpe b' c'))) s = text_encoding E t s); [|rewrite K; reflexivity].
  unfold text_encoding. change (prepare E (set_model t (Some (MBpe b' c'))) s) with (prepare E t s). destruct (prepare E t s) as [[av p]| | |] eqn:EP; [|reflexivity..]. cbn [bind set_model tz_model]. rewrite Hm. cbn [model_tokenize].
  pose proof (prepare_drawn E t s av p Hp EP) as HA.
  assert (K : snd (bpe_tokenize E b' c' p) = snd (bpe_tokenize E b c p)).
  { rewrite (proj1 (bpe_tokenize_transparent E b c p (reach_cache_ok E b c Hc))), (proj1 (bpe_tokenize_transparent E b' c' p (reach_cache_ok E b' c' Hc'))).
    assert (K : plain_words E b' (pt_splits p) = plain_words E b (pt_splits p)); [|rewrite K; reflexivity]. unfold plain_words. induction HA as [|x l Hx Hl IH]; [reflexivity|]. cbn [mapM]. rewrite IH.
    rewrite (bpe_word_same E (tz_norm t) s v v' lines lines' d unk pre suf fu ig b b' Hpq Hb Hb' Hv Hv' Hpre Hsuf Hent Hrul Hnu (sp_text x) Hx). reflexivity. }
  destruct (bpe_tokenize E b' c' p) as [c1 r1], (bpe_tokenize E b c p) as [c2 r2]. cbn [snd] in K |- *. rewrite K. reflexivity.
Qed.
Print Assumptions C126_irrelevant.

(** Rules appended to the list, with their entries: nothing changes for a text in which no part of a word is what the new rules join. *)
Theorem C126_appended : forall E fuel t s v v' lines extra d unk pre suf fu ig b b' c c', pq_ok E ->
  new_bpe v lines d unk pre suf fu false ig = Ok b -> new_bpe v' (lines ++ extra) d unk pre suf fu false ig = Ok b' -> reach_cache E b c -> reach_cache E b' c' ->
  sound_vocab v -> sound_vocab v' -> plain pre -> plain suf -> (forall line, In line (lines ++ extra) -> ~ names unk line) ->
  tz_model t = Some (MBpe b c) -> (forall q, tz_pre t = Some q -> no_byte_level q) ->
  unseen_entries E (tz_norm t) s b v' -> (forall line p q, In line extra -> rule_text line (p, q) -> unseen E (tz_norm t) s b (joined b p q)) ->
  forall add, snd (encode E fuel (set_model t (Some (MBpe b' c'))) s add) = snd (encode E fuel t s add).
Proof.
  intros E fuel t s v v' lines extra d unk pre suf fu ig b b' c c' Hpq Hb Hb' Hc Hc' Hv Hv' Hpre Hsuf Hnu Hm Hp Hent Hext.
  apply (C126_irrelevant E fuel t s v v' lines (lines ++ extra) d unk pre suf fu ig b b' c c'); [exact Hpq | exact Hb | exact Hb' | exact Hc | exact Hc' | exact Hv | exact Hv' | exact Hpre | exact Hsuf | | exact Hm | exact Hp | exact Hent|].
  { intros line HI. apply Hnu. apply in_app_iff in HI as [HI|HI]; [apply in_app_iff; left; exact HI | exact HI]. }
  intros p q i j F1 F1' F2 F2' HD z Hz Pz Dz HA. apply HD. clear HD.
  pose proof (new_bpe_vocab _ _ _ _ _ _ _ _ _ _ Hb) as (M & Ev & _ & _ & Ep & _). pose proof (new_bpe_vocab _ _ _ _ _ _ _ _ _ _ Hb') as (M' & Ev' & _). rewrite Ev in F1, F2. rewrite Ev' in F1', F2'.
  assert (HJ : sfind (p ++ skipn (length pre) q) v' = sfind (p ++ skipn (length pre) q) v).
  { destruct (option_eq_dec (sfind (p ++ skipn (length pre) q) v') (sfind (p ++ skipn (length pre) q) v)) as [D|D]; [exact D|]. exfalso. destruct Hent as (_ & K). rewrite Ev in K. destruct (K _ D) as [K1 _]. unfold joined in Dz. rewrite Ep in Dz. exact (K1 z Hz Pz Dz HA). }
  assert (G1 : forall line n, gives v (length pre) line i j n <-> gives v' (length pre) line i j n).
  { intros line n. unfold gives. split; intros ([p0 q0] & H0 & H1 & H2 & H3); exists (p0, q0); (split; [exact H0|]); unfold rule_gives in *; cbn [fst snd] in *.
    - rewrite (same_text v (proj1 Hv) _ _ i (sfind_in _ _ _ H1) (sfind_in _ _ _ F1)) in *. rewrite (same_text v (proj1 Hv) _ _ j (sfind_in _ _ _ H2) (sfind_in _ _ _ F2)) in *. rewrite HJ. auto.
    - rewrite (same_text v' (proj1 Hv') _ _ i (sfind_in _ _ _ H1) (sfind_in _ _ _ F1')) in *. rewrite (same_text v' (proj1 Hv') _ _ j (sfind_in _ _ _ H2) (sfind_in _ _ _ F2')) in *. rewrite <- HJ. auto. }
  assert (G2 : forall line n, In line extra -> ~ gives v' (length pre) line i j n).
  { intros line n HI ([p0 q0] & H0 & H1 & H2 & H3). cbn [fst snd] in *. apply two_fields_iff in H0. rewrite (same_text v' (proj1 Hv') _ _ i (sfind_in _ _ _ H1) (sfind_in _ _ _ F1')) in H0. rewrite (same_text v' (proj1 Hv') _ _ j (sfind_in _ _ _ H2) (sfind_in _ _ _ F2')) in H0.
    exact (Hext line p q HI H0 z Hz Pz Dz HA). }
  assert (HN : forall a c, mfind a c [] = None) by reflexivity.
  assert (G3 : forall r n, mfind i j (b_merges b') = Some (r, n) <-> mfind i j (b_merges b) = Some (r, n)).
  { intros r n. rewrite (build_merges_spec _ _ _ _ _ _ M), (build_merges_spec _ _ _ _ _ _ M'). split; intros [H|(_ & k & line & Hr & Hk & Hg & Hf)]; try discriminate; right; (split; [reflexivity|]); exists k, line; (split; [exact Hr|]).
    - destruct (Nat.lt_ge_cases k (length lines)) as [Hlt|Hge].
      + rewrite nth_error_app1 in Hk by exact Hlt. split; [exact Hk|]. split; [apply G1; exact Hg|]. intros k' line' n' Hk' Hl' Hg'. apply (Hf k' line' n' Hk'); [rewrite nth_error_app1 by lia; exact Hl' | apply G1; exact Hg'].
      + exfalso. rewrite nth_error_app2 in Hk by exact Hge. apply nth_error_In in Hk. exact (G2 line n Hk Hg).
    - assert (Hlt : k < length lines) by (apply nth_error_Some; congruence). split; [rewrite nth_error_app1 by exact Hlt; exact Hk|]. split; [apply G1; exact Hg|]. intros k' line' n' Hk' Hl' Hg'. rewrite nth_error_app1 in Hl' by lia. apply (Hf k' line' n' Hk' Hl'). apply G1. exact Hg'. }
  destruct (mfind i j (b_merges b')) as [[r n]|] eqn:E1; [symmetry; apply G3; reflexivity|]. destruct (mfind i j (b_merges b)) as [[r n]|] eqn:E2; [|reflexivity]. apply G3. reflexivity.
Qed.
Print Assumptions C126_appended.

(** *** Witnesses *)
Lemma stretch_find z s : stretch z s -> existsb (fun k => leqb z (firstn (length z) (skipn k s))) (seq 0 (S (length s))) = true.
Proof.
  intros (p & q & ->). apply existsb_exists. exists (length p). split; [apply in_seq; rewrite !app_length; lia|]. rewrite skipn_app, skipn_all, Nat.sub_diag. cbn [app skipn]. rewrite firstn_app, firstn_all, Nat.sub_diag. cbn [firstn]. rewrite app_nil_r. apply leqb_refl.
Qed.
Definition bg_vocab (more : smap Z) : smap Z := [(str "[UNK]", 0); (str "a", 1); (str "b", 2); (str "c", 3); (str "ab", 4)]%Z ++ more.
Definition bg_more : smap Z := [(str "bc", 5); (str "z", 6); (str "az", 7)]%Z.
Definition bg_bpe (v : smap Z) (lines : list bytes) (unk : bytes) : bpe := match new_bpe v lines (QArith_base.Qmake 0 1) unk [] [] false false false with Ok b => b | _ => mkBpe [] [] (QArith_base.Qmake 0 1) [] [] [] false false false end.
Definition bg_b : bpe := bg_bpe (bg_vocab []) [str "a b"] (str "[UNK]").
Definition bg_b' : bpe := bg_bpe (bg_vocab bg_more) [str "a b"; str "b c"; str "a z"] (str "[UNK]").
Definition bg_t (b : bpe) : tokenizer := mkTz None None (Some (new_added_vocab [])) None (Some TBert) (Some (MBpe b [])) None None.
Lemma plain_appears E s gaps z : appears E None s gaps z -> shows gaps z s.
Proof. intros [H|(x & y & H1 & H2 & H3)]; [exact H|]. cbn [run_norm] in H2. injection H2 as <-. rewrite OutProofs.new_text in H3. destruct gaps; cbn [shows] in *; [eapply scattered_stretch; eassumption | eapply stretch_trans; eassumption]. Qed.
Example C126_case : new_bpe (bg_vocab []) [str "a b"] (QArith_base.Qmake 0 1) (str "[UNK]") [] [] false false false = Ok bg_b /\
  new_bpe (bg_vocab bg_more) ([str "a b"] ++ [str "b c"; str "a z"]) (QArith_base.Qmake 0 1) (str "[UNK]") [] [] false false false = Ok bg_b' /\
  sound_vocab (bg_vocab []) /\ sound_vocab (bg_vocab bg_more) /\ (forall line, In line ([str "a b"] ++ [str "b c"; str "a z"]) -> ~ names (str "[UNK]") line) /\
  unseen_entries test_env None (str "ab cab?b") bg_b (bg_vocab bg_more) /\
  (forall line p q, In line [str "b c"; str "a z"] -> rule_text line (p, q) -> unseen test_env None (str "ab cab?b") bg_b (joined bg_b p q)) /\
  (exists r, snd (encode test_env 10 (bg_t bg_b) (str "ab cab?b") false) = Ok r /\ en_ids r = [4; 3; 4; 0; 2]%Z) /\
  (exists r, snd (encode test_env 10 (bg_t bg_b') (str "bca") false) = Ok r /\ en_ids r = [5; 1]%Z).
Proof.
  assert (SV : forall v, forallb (fun p => forallb (fun c => (c <? 128)%N) (fst p)) v = true -> utf8_texts v).
  { intros v H k i HI. rewrite forallb_forall in H. apply H in HI. cbn [fst] in HI. exists k. clear H. induction k as [|c k IH]; [split; reflexivity|]. cbn [forallb] in HI. apply andb_prop in HI as [H1 H2]. destruct (IH H2) as [V E0].
    split; [cbn [forallb]; rewrite V; unfold valid_cp, is_surrogate; lia|]. unfold utf8_encs in *. cbn [flat_map]. rewrite <- E0, enc_low by lia. reflexivity. }
  assert (US : forall x, existsb (fun k => leqb x (firstn (length x) (skipn k (str "ab cab?b")))) (seq 0 9) = false -> unseen test_env None (str "ab cab?b") bg_b x).
  { intros x Hx z Hz Pz Dz HA. assert (E0 : z = x). { unfold decorated in Dz. change (b_prefix bg_b) with (@nil N) in Dz. change (b_suffix bg_b) with (@nil N) in Dz. cbn [app In] in Dz. rewrite app_nil_r in Dz. intuition congruence. }
    subst z. apply plain_appears in HA. change (vanish bg_b) with false in HA. cbn [shows] in HA. apply stretch_find in HA. change (S (length (str "ab cab?b"))) with 9 in HA. congruence. }
  split; [vm_compute; reflexivity|]. split; [vm_compute; reflexivity|]. split; [split; [|apply SV; reflexivity]|].
  { cbn. repeat (constructor; [cbn; intuition discriminate|]). constructor. }
  split; [split; [|apply SV; reflexivity]|]. { cbn. repeat (constructor; [cbn; intuition discriminate|]). constructor. }
  assert (RT : forall line p q p0 q0, rule_text line (p, q) -> two_fields line = Some (p0, q0) -> p = p0 /\ q = q0) by (intros line p q p0 q0 H H2; apply two_fields_iff in H; split; congruence).
  split; [intros line HI (p & q & H1 & H2); destruct HI as [<-|[<-|[<-|[]]]]; destruct (RT _ _ _ _ _ H1 eq_refl) as [-> ->]; destruct H2; discriminate|].
  split; [split; [reflexivity|]|].
  { intros x Hx. split; [|intros H0; discriminate]. apply US.
    assert (HX : x = str "bc" \/ x = str "z" \/ x = str "az").
    { unfold differ_on in Hx. change (b_vocab bg_b) with (bg_vocab []) in Hx. unfold bg_vocab, bg_more, sfind in Hx. cbn [app find fst] in Hx. destruct (leqb x (str "[UNK]")); [congruence|]. destruct (leqb x (str "a")); [congruence|]. destruct (leqb x (str "b")); [congruence|]. destruct (leqb x (str "c")); [congruence|]. destruct (leqb x (str "ab")); [congruence|].
      destruct (leqb x (str "bc")) eqn:E1; [left; apply leqb_eq; exact E1|]. destruct (leqb x (str "z")) eqn:E2; [right; left; apply leqb_eq; exact E2|]. destruct (leqb x (str "az")) eqn:E3; [right; right; apply leqb_eq; exact E3 | congruence]. }
    destruct HX as [-> | [-> | ->]]; reflexivity. }
  split; [intros line p q HI H1; destruct HI as [<-|[<-|[]]]; destruct (RT _ _ _ _ _ H1 eq_refl) as [-> ->]; apply US; reflexivity|].
  split; (eexists; split; [vm_compute; reflexivity | reflexivity]).
Qed.

(** Without an unknown token it is not enough that the joined text does not stand in the text: the unknown character between [a] and [b] vanishes, and a rule for [ab] applies. *)
Definition bg_gap : wstr := [97; 0xE9; 98]%N.
Theorem C126_gap_refuted : ~ stretch (str "ab") bg_gap /\
  (exists r, snd (encode test_env 10 (bg_t (bg_bpe (bg_vocab []) [] [])) bg_gap false) = Ok r /\ en_tokens r = [str "a"; str "b"]) /\
  (exists r, snd (encode test_env 10 (bg_t (bg_bpe (bg_vocab []) [str "a b"] [])) bg_gap false) = Ok r /\ en_tokens r = [str "ab"]).
Proof.
  split; [intros H; apply stretch_find in H; discriminate|]. split; (eexists; split; [vm_compute; reflexivity | reflexivity]).
Qed.
Print Assumptions C126_gap_refuted.
