(** Every word that reaches the model is a stretch of the text or of what the normalizer makes of one, perhaps with halves of characters (U+FFFD) at its ends. *)
From Verif Require Import Base BaseFacts Unicode Common Normalizer PreTokenizer WordPiece Bpe AddedVocab Tokenizer Spec
  TzSpec TzProofs NormSpec NormProofs PreSpec PreProofs AvSpec AvProofs ExtractProofs UnicodeProofs RuntimeProofs RefSpec PropsPre RelevSpec PropsRelevant PropsGrow AsciiSpec BpeGrowSpec.
From Coq Require Import ZifyBool.
Import ListNotations.

Definition halves (l : wstr) : Prop := Forall (fun c => c = 0xFFFD%N) l.
Definition source (E : env) (norm : option normalizer) (s q : wstr) : Prop := stretch q s \/ exists x n, stretch x s /\ run_norm E norm x = Ok n /\ stretch q (ns_text n).
Definition drawn (E : env) (norm : option normalizer) (s : wstr) (b : bytes) : Prop :=
  exists pre q post, halves pre /\ halves post /\ forallb valid_cp (pre ++ q ++ post) = true /\ b = utf8_encs (pre ++ q ++ post) /\ source E norm s q.
Lemma stretch_refl x : stretch x x.
Proof. exists [], []. rewrite app_nil_r. reflexivity. Qed.
Lemma source_stretch E norm s x y : stretch x y -> source E norm s y -> source E norm s x.
Proof. intros H [K|(a & n & K1 & K2 & K3)]; [left; eapply stretch_trans; eassumption | right; exists a, n; split; [exact K1|]; split; [exact K2|]; eapply stretch_trans; eassumption]. Qed.
Lemma stretch_halves pre r : halves pre -> forall q', stretch q' (pre ++ r) -> exists a c, q' = a ++ c /\ halves a /\ stretch c r.
Proof.
  induction 1 as [|x pre -> Hp IH]; intros q' H; [exists [], q'; repeat split; [constructor | exact H]|]. destruct H as (p & t & H). cbn [app] in H. destruct p as [|x p].
  - destruct q' as [|x q']; [exists [], []; repeat split; [constructor | exists [], r; reflexivity]|]. cbn [app] in H. injection H as <- H.
    destruct (IH q') as (a & c & -> & Ha & Hc); [exists [], t; exact H|]. exists (0xFFFD%N :: a), c. split; [reflexivity|]. split; [constructor; auto | exact Hc].
  - cbn [app] in H. injection H as <- H. apply IH. exists p, t. exact H.
Qed.
Lemma stretch_rev x y : stretch x y -> stretch (rev x) (rev y).
Proof. intros (p & q & ->). exists (rev q), (rev p). rewrite !rev_app_distr, app_assoc. reflexivity. Qed.
Lemma stretch_halves_r post r : halves post -> forall q', stretch q' (r ++ post) -> exists c d, q' = c ++ d /\ halves d /\ stretch c r.
Proof.
  intros Hp q' H. apply stretch_rev in H. rewrite rev_app_distr in H. assert (Hr : halves (rev post)) by (apply Forall_rev; exact Hp).
  destruct (stretch_halves _ _ Hr _ H) as (a & c & E & Ha & Hc). exists (rev c), (rev a). split; [rewrite <- rev_app_distr, <- E, rev_involutive; reflexivity|]. split; [apply Forall_rev; exact Ha|].
  apply stretch_rev in Hc. rewrite rev_involutive in Hc. exact Hc.
Qed.
Lemma edge_halves l : edge l -> halves l.
Proof. intros [-> | ->]; [constructor | constructor; [reflexivity | constructor]]. Qed.
Lemma slice_drawn E norm s b a n : drawn E norm s b -> drawn E norm s (to_utf8 (firstn n (skipn a (from_utf8 b)))).
Proof.
  intros (pre & q & post & H1 & H2 & V & -> & HS). rewrite (from_utf8_encs _ V). destruct (slice_text _ a n V) as (pre' & q' & post' & E1 & E2 & Hq & Vq & ->).
  destruct (stretch_halves _ _ H1 _ Hq) as (x & r & -> & Hx & Hr). destruct (stretch_halves_r _ _ H2 _ Hr) as (c & d & -> & Hd & Hc).
  exists (pre' ++ x), c, (d ++ post'). split; [apply Forall_app; split; [apply edge_halves; exact E1 | exact Hx]|]. split; [apply Forall_app; split; [exact Hd | apply edge_halves; exact E2]|].
  rewrite <- !app_assoc in *. split; [rewrite !forallb_app in *; rewrite (edge_valid _ E1), (edge_valid _ E2); apply andb_prop in Vq as [V1 V2]; apply andb_prop in V2 as [V2 V3]; rewrite V1, V2, V3; reflexivity|].
  split; [reflexivity | eapply source_stretch; eassumption].
Qed.
Lemma own_drawn E norm s b : forallb valid_cp b = true -> source E norm s b -> drawn E norm s (utf8_encs b).
Proof. intros V H. exists [], b, []. split; [constructor|]. split; [constructor|]. cbn [app]. rewrite app_nil_r. auto. Qed.
Definition all_drawn E norm s (l : list split) : Prop := Forall (fun x => drawn E norm s (sp_text x)) l.
Lemma split_all_drawn E norm s fn b l : forall l', all_drawn E norm s l -> split_all fn b l = Ok l' -> all_drawn E norm s l'.
Proof.
  induction l as [|x l IH]; intros l' HA H; cbn [split_all] in H; [injection H as <-; constructor|]. inversion HA as [|? ? H1 H2]; subst.
  apply bind_ok in H as (here & Hh & H). apply bind_ok in H as (rest & Hr & H). injection H as <-. apply Forall_app. split; [|apply IH; assumption].
  destruct (is_nil (sp_tokens x)); [|injection Hh as <-; constructor; [exact H1 | constructor]].
  unfold split_normalized in Hh. cbv zeta in Hh. apply bind_ok in Hh as (ms & _ & Hh). injection Hh as <-. apply Forall_map. apply Forall_forall. intros [[a z] f] _. cbn [fst sp_text]. apply slice_drawn. exact H1.
Qed.
Lemma pre_drawn E norm s : forall t, no_byte_level t -> forall p p', all_drawn E norm s (pt_splits p) -> pre_tokenize E t p = Ok p' -> all_drawn E norm s (pt_splits p').
Proof.
  fix IH 1. intros [|pat b inv|aps rx|l] Ht p p' HA H.
  - cbn [pre_tokenize] in H. unfold bert_pre_tokenize, pt_split in H. apply bind_ok in H as (p1 & H1 & H). apply bind_ok in H1 as (l1 & H1 & E1). injection E1 as <-.
    apply bind_ok in H as (l2 & H2 & E2). injection E2 as <-. cbn [pt_splits] in *. eapply split_all_drawn; [|exact H2]. eapply split_all_drawn; [exact HA | exact H1].
  - cbn [pre_tokenize] in H. unfold split_pre_tokenize, pt_split in H. apply bind_ok in H as (l1 & H1 & E1). injection E1 as <-. eapply split_all_drawn; [exact HA | exact H1].
  - destruct Ht.
  - cbn [pre_tokenize] in H. cbn [no_byte_level] in Ht. revert p HA H. induction l as [|q r IHr]; intros p HA H; [injection H as <-; exact HA|].
    destruct Ht as [Hq Hr]. apply bind_ok in H as (p1 & H1 & H). exact (IHr Hr p1 (IH q Hq p p1 HA H1) H).
Qed.
Lemma normalize_drawn E norm s trie l : Forall (fun x => exists w, stretch w s /\ forallb valid_cp w = true /\ sp_text x = utf8_encs w) l ->
  forall ns m ending r, normalize_splits E norm trie ns m ending l = Ok r -> all_drawn E norm s (snd r).
Proof.
  induction 1 as [|x l (w & Hw & V & Ex) Hl IH]; intros ns m ending r H; cbn [normalize_splits] in H; [injection H as <-; constructor|].
  destruct (sp_tokens x).
  - rewrite Ex, (convert_roundtrip w V) in H. cbn [bind] in H. cbv zeta in H. apply bind_ok in H as (sub & Hs & H). apply bind_ok in H as (ns' & _ & H). apply bind_ok in H as (sen & _ & H). apply bind_ok in H as ([m' ms] & _ & H).
    apply bind_ok in H as (here & Hh & H). apply bind_ok in H as ([[ns2 m2] rest] & Hr & H). injection H as <-. cbn [snd]. apply Forall_app. split; [|exact (IH _ _ _ _ Hr)].
    apply norm_stretch in Hh. eapply Forall_impl; [|exact Hh]. intros y (w' & Hw' & V' & ->). apply own_drawn; [exact V'|]. right. exists w, sub. auto.
  - cbv zeta in H. apply bind_ok in H as ([[ns2 m2] rest] & Hr & H). injection H as <-. cbn [snd]. constructor; [|exact (IH _ _ _ _ Hr)]. cbn [sp_text]. rewrite Ex. apply own_drawn; [exact V | left; exact Hw].
Qed.
Lemma extract_drawn E norm a s m p : extract_and_normalize E a norm s = Ok (m, p) -> all_drawn E norm s (pt_splits p).
Proof.
  unfold extract_and_normalize, new_pretok. rewrite fresh_numbered. set (N1 := numbered_ns (unit_sizes s) [] s). change (ns_text N1) with s. intros H. apply bind_ok in H as (p0 & H0 & H). apply bind_ok in H0 as (sen & Ec & H0). injection H0 as <-. cbn [pt_norm pt_splits] in H. change (ns_text N1) with s in H. rewrite Ec in H. cbn [bind] in H.
  apply convert_to_string_ok in Ec as [V ->]. apply bind_ok in H as ([m1 ms] & _ & H). apply bind_ok in H as (raw & Hr & H). cbv zeta in H. apply bind_ok in H as ([[ns m2] sp2] & H2 & H). injection H as <- <-. cbn [pt_splits].
  assert (HS : Forall (fun x => exists w, stretch w s /\ forallb valid_cp w = true /\ sp_text x = utf8_encs w) (match raw with [] => [mkSplit (utf8_encs s) (0, length s) []] | _ => raw end)).
  { apply raw_stretch in Hr. destruct raw; [|exact Hr]. constructor; [|constructor]. exists s. split; [apply stretch_refl | auto]. }
  pose proof (normalize_drawn _ _ _ _ _ HS _ _ _ _ H2) as HN. cbn [snd] in HN. destruct sp2 as [|c r].
  - eapply Forall_impl; [|exact HS]. intros x (w & Hw & Vw & ->). apply own_drawn; [exact Vw | left; exact Hw].
  - exact HN.
Qed.
Lemma prepare_drawn E t s av p : (forall q, tz_pre t = Some q -> no_byte_level q) -> prepare E t s = Ok (av, p) -> all_drawn E (tz_norm t) s (pt_splits p).
Proof.
  intros Hp EP. unfold prepare in EP. apply bind_ok in EP as (p0 & EP0 & EP). apply bind_ok in EP as ([av1 p1] & EX & EP). apply bind_ok in EP as (p3 & EPre & EP). injection EP as _ <-.
  assert (HX : all_drawn E (tz_norm t) s (pt_splits p1)).
  { destruct (tz_av t) as [a|]; [apply bind_ok in EX as ([m p2] & EX & E1); injection E1 as _ <-; apply extract_drawn in EX; exact EX|]. injection EX as _ <-. unfold new_pretok in EP0. rewrite fresh_numbered in EP0. change (ns_text (numbered_ns (unit_sizes s) [] s)) with s in EP0. apply bind_ok in EP0 as (b & Hb & EP0). injection EP0 as <-. apply convert_to_string_ok in Hb as [V ->].
    constructor; [|constructor]. cbn [sp_text]. apply own_drawn; [exact V | left; apply stretch_refl]. }
  destruct (tz_pre t) as [q|]; [|injection EPre as <-; exact HX]. eapply pre_drawn; [apply Hp; reflexivity | exact HX | exact EPre].
Qed.

(** ** ASCII parts of a word are parts of the text *)
Definition high (l : list N) : Prop := Forall (fun c => (128 <= c)%N) l.
Lemma stretch_high h l : high h -> forall z, plain z -> z <> [] -> stretch z (h ++ l) -> stretch z l.
Proof.
  induction 1 as [|x h Hx Hh IH]; intros z Hz Hne H; [exact H|]. destruct H as (p & t & H). cbn [app] in H. destruct p as [|c p].
  - destruct z as [|c z]; [congruence|]. cbn [app] in H. injection H as <- _. inversion Hz; subst. lia.
  - cbn [app] in H. injection H as _ H. apply IH; [exact Hz | exact Hne|]. exists p, t. exact H.
Qed.
Lemma stretch_high_r h l : high h -> forall z, plain z -> z <> [] -> stretch z (l ++ h) -> stretch z l.
Proof.
  intros Hh z Hz Hne H. apply stretch_rev in H. rewrite rev_app_distr in H. apply stretch_high in H; [apply stretch_rev in H; rewrite !rev_involutive in H; exact H | apply Forall_rev; exact Hh | apply Forall_rev; exact Hz|].
  intros E0. apply Hne. rewrite <- (rev_involutive z), E0. reflexivity.
Qed.
Lemma scattered_high h l : high h -> forall z, plain z -> scattered z (h ++ l) -> scattered z l.
Proof.
  induction 1 as [|x h Hx Hh IH]; intros z Hz H; [exact H|]. cbn [app] in H. inversion H as [? | ? z' ? H' | ? ? ? H']; subst; [constructor | inversion Hz; subst; lia | apply IH; assumption].
Qed.
Lemma scattered_high_r h : high h -> forall l z, plain z -> scattered z (l ++ h) -> scattered z l.
Proof.
  intros Hh. induction l as [|x l IH]; intros z Hz H.
  - cbn [app] in H. rewrite <- (app_nil_r h) in H. apply (scattered_high h [] Hh z Hz H).
  - cbn [app] in H. inversion H as [? | ? z' ? H' | ? ? ? H']; subst; [constructor | constructor; apply IH; [inversion Hz; assumption | exact H'] | apply sc_skip; apply IH; assumption].
Qed.
Lemma enc_high c : valid_cp c = true -> (128 <= c)%N -> high (utf8_enc c).
Proof.
  intros V H. unfold utf8_enc. replace (c <? 128)%N with false by lia. unfold valid_cp, is_surrogate in V.
  repeat (destruct (_ <? _)%N); unfold high; repeat (apply Forall_cons; [etransitivity; [|apply N.le_add_r]; lia|]); apply Forall_nil.
Qed.
Lemma enc_low c : (c < 128)%N -> utf8_enc c = [c].
Proof. intros H. unfold utf8_enc. replace (c <? 128)%N with true by lia. reflexivity. Qed.
Lemma prefix_cps y : forallb valid_cp y = true -> forall z t, plain z -> utf8_encs y = z ++ t -> exists t', y = z ++ t'.
Proof.
  induction y as [|c y IH]; intros V z t Hz H.
  - destruct z; [exists []; reflexivity | discriminate].
  - cbn [forallb] in V. apply andb_prop in V as [Vc V]. unfold utf8_encs in H. cbn [flat_map] in H. fold (utf8_encs y) in H. destruct z as [|d z]; [eexists; reflexivity|]. inversion Hz as [|? ? Hd Hz']; subst.
    destruct (N.lt_ge_cases c 128) as [Hc|Hc].
    + rewrite (enc_low c Hc) in H. cbn [app] in H. injection H as -> H. destruct (IH V z t Hz' H) as (t' & ->). exists t'. reflexivity.
    + pose proof (enc_high c Vc Hc) as Hh. destruct (utf8_enc c) as [|e r] eqn:Ee; [unfold utf8_enc in Ee; repeat (destruct (_ <? _)%N; [discriminate|]); discriminate|]. cbn [app] in H. injection H as -> _. inversion Hh; subst. lia.
Qed.
Lemma stretch_cps y : forallb valid_cp y = true -> forall z, plain z -> z <> [] -> stretch z (utf8_encs y) -> stretch z y.
Proof.
  induction y as [|c y IH]; intros V z Hz Hne H; [exact H|]. cbn [forallb] in V. assert (V' := V). apply andb_prop in V as [Vc V]. destruct (N.lt_ge_cases c 128) as [Hc|Hc].
  - destruct H as (p & t & H). destruct p as [|e p].
    + cbn [app] in H. destruct (prefix_cps (c :: y) V' z t Hz H) as (t' & E0). exists [], t'. exact E0.
    + unfold utf8_encs in H. cbn [flat_map] in H. fold (utf8_encs y) in H. rewrite (enc_low c Hc) in H. cbn [app] in H. injection H as _ H. destruct (IH V z Hz Hne) as (p' & t' & ->); [exists p, t; exact H|]. exists (c :: p'), t'. reflexivity.
  - unfold utf8_encs in H. cbn [flat_map] in H. fold (utf8_encs y) in H. apply stretch_high in H; [|apply enc_high; assumption | exact Hz | exact Hne]. destruct (IH V z Hz Hne H) as (p' & t' & ->). exists (c :: p'), t'. reflexivity.
Qed.
Lemma scattered_cps y : forallb valid_cp y = true -> forall z, plain z -> scattered z (utf8_encs y) -> scattered z y.
Proof.
  induction y as [|c y IH]; intros V z Hz H; [exact H|]. cbn [forallb] in V. apply andb_prop in V as [Vc V]. unfold utf8_encs in H. cbn [flat_map] in H. fold (utf8_encs y) in H. destruct (N.lt_ge_cases c 128) as [Hc|Hc].
  - rewrite (enc_low c Hc) in H. cbn [app] in H. inversion H as [? | ? z' ? H' | ? ? ? H']; subst; [constructor | constructor; apply IH; [exact V | inversion Hz; assumption | exact H'] | apply sc_skip; apply IH; assumption].
  - apply scattered_high in H; [|apply enc_high; assumption | exact Hz]. apply sc_skip. apply IH; assumption.
Qed.
Lemma halves_high l : halves l -> high l.
Proof. intros H. eapply Forall_impl; [|exact H]. cbn beta. intros c ->. lia. Qed.
Lemma drawn_appears E norm s w gaps z : drawn E norm s w -> plain z -> z <> [] -> shows gaps z w -> appears E norm s gaps z.
Proof.
  intros (pre & q & post & H1 & H2 & V & -> & HS) Hz Hne H. assert (HQ : shows gaps z q).
  { destruct gaps; cbn [shows] in *.
    - apply scattered_cps in H; [|exact V | exact Hz]. apply scattered_high in H; [|apply halves_high; exact H1 | exact Hz]. apply scattered_high_r in H; [exact H | apply halves_high; exact H2 | exact Hz].
    - apply stretch_cps in H; [|exact V | exact Hz | exact Hne]. apply stretch_high in H; [|apply halves_high; exact H1 | exact Hz | exact Hne]. apply stretch_high_r in H; [exact H | apply halves_high; exact H2 | exact Hz | exact Hne]. }
  assert (HT : forall y, stretch q y -> shows gaps z y).
  { intros y (p & t & ->). destruct gaps; cbn [shows] in *.
    - assert (L : forall p l, scattered z l -> scattered z (p ++ l)) by (induction p0; intros; cbn [app]; [assumption | apply sc_skip; auto]). apply L. clear - HQ. induction HQ; cbn [app]; constructor; assumption.
    - destruct HQ as (a & c & ->). exists (p ++ a), (c ++ t). rewrite <- !app_assoc. reflexivity. }
  destruct HS as [K|(x & n & K1 & K2 & K3)]; [left; apply HT; exact K | right; exists x, n; split; [exact K1|]; split; [exact K2 | apply HT; exact K3]].
Qed.
Lemma drawn_comes E norm s w : drawn E norm s w -> comes_from E norm s w.
Proof.
  intros (pre & q & post & H1 & H2 & V & -> & HS). exists (pre ++ q ++ post). split; [exact V|]. split; [reflexivity|]. intros z (x & Hx & ->) HR. pose proof (no_fffd x HR) as HN.
  destruct (stretch_halves _ _ H1 _ Hx) as (a & c & -> & Ha & Hc). destruct (stretch_halves_r _ _ H2 _ Hc) as (c' & d & -> & Hd & Hc').
  assert (a = []) by (destruct a as [|x a]; [reflexivity|]; inversion Ha; subst; destruct HN; left; reflexivity). assert (d = []) by (destruct d as [|x d]; [reflexivity|]; inversion Hd; subst; destruct HN; rewrite !in_app_iff; right; right; left; reflexivity). subst a d. cbn [app]. rewrite app_nil_r.
  destruct (source_stretch _ _ _ _ _ Hc' HS) as [K|(y & n & K1 & K2 & K3)]; [left; exists c'; auto | right; exists y, n; split; [exact K1|]; split; [exact K2|]; exists c'; auto].
Qed.
