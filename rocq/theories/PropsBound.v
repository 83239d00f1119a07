(** C140: a special token written in a text is a boundary. Specification: BoundSpec.v. *)
From Verif Require Import Base BaseFacts Unicode UnicodeProofs Common Utils PostProcessor Decoder Normalizer PreTokenizer WordPiece Bpe AddedVocab Tokenizer Config ConfigSpec
  Spec PostSpec DecSpec NormSpec NormProofs PreSpec PreProofs AvSpec AvProofs ExtractProofs TzSpec TzProofs WpSpec WpProofs OffSpec OffProofs RefSpec RefProofs MixSpec MixProofs HistSpec HistProofs LenSpec FullSpec BpeSpec BpeProofs BpeWord UnkSpec ByteSpec
  PropsReference PropsConfig PropsAdded PropsLifetime PropsText PropsMixed OutSpec PropsFinish PropsFull PropsNorm PropsPre PropsOffsets PropsEncode PropsBpe PropsByteBpe BpeRefSpec PropsBpeText CutSpec PropsCut PropsBertConfig PartsSpec PropsParts PropsTotal TextsSpec PropsTexts LaidSpec PropsLaid PropsLaidAt BoundSpec Env.
From Coq Require Import ZifyBool ZifyNat ZifyN.
Import ListNotations.

(** ** The tokens found in the text put together *)
Notation no_words := (fun (_ : nat) (_ : wstr) (none : list (nat * wstr)) => none = []).
Lemma boundary_tail c s : c <> [] -> ~ In 32%N c -> at_boundary (c ++ s) -> at_boundary s /\ s <> [].
Proof.
  intros Hc Hn [H|(a' & H)]; [apply app_eq_nil in H as [-> _]; congruence|]. destruct s as [|x0 s0] using rev_ind; [rewrite app_nil_r in H; subst c; exfalso; apply Hn, in_or_app; right; left; reflexivity|].
  rewrite app_assoc in H. apply app_inj_tail in H as [_ ->]. split; [right; eauto|]. destruct s0; discriminate.
Qed.
Lemma boundary_space s : at_boundary (32%N :: s) -> at_boundary s.
Proof.
  intros [H|(a' & H)]; [discriminate|]. destruct s as [|x0 s0] using rev_ind; [left; reflexivity|]. rewrite app_comm_cons in H. apply app_inj_tail in H as [_ ->]. right. eauto.
Qed.
Lemma fields_glue tok : forall pos a ta, fields tok no_words pos a ta -> at_boundary a -> forall r tr, fields tok no_words (pos + length a) r tr -> fields tok no_words pos (a ++ r) (ta ++ tr).
Proof.
  induction 1 as [pos|pos s l H IH|pos c s l Hc Hn Ht Hk H IH|pos c s l1 l Hc Hn Hs Hk H1 H IH]; intros Hb r tr Hr; cbn [app length] in *.
  - rewrite Nat.add_0_r in Hr. exact Hr.
  - apply fd_space. apply IH; [apply boundary_space; exact Hb|]. rewrite Nat.add_succ_l, <- Nat.add_succ_r. exact Hr.
  - rewrite <- app_assoc. apply fd_token; try assumption. apply IH; [apply (boundary_tail c s Hc Hn Hb)|]. rewrite app_length, Nat.add_assoc in Hr. exact Hr.
  - subst l1. cbn [app]. rewrite <- app_assoc. destruct (boundary_tail c s Hc Hn Hb) as [B1 B2]. apply (fd_rest _ _ pos c (s ++ r) [] (l ++ tr)); try assumption; [| reflexivity |].
    + destruct Hs as [->|(s' & ->)]; [congruence | right; exists (s' ++ r); reflexivity].
    + apply IH; [exact B1|]. rewrite app_length, Nat.add_assoc in Hr. exact Hr.
Qed.
Definition moved_seg (d : nat) (q : (nat * wstr) * bool) : (nat * wstr) * bool := ((d + fst (fst q), snd (fst q)), snd q).
Lemma divided_shift d pos x ms segs : divided pos x ms segs -> divided (d + pos) x (map (fun m : nat * nat => (d + fst m, d + snd m)) ms) (map (moved_seg d) segs).
Proof.
  induction 1 as [pos|pos x Hx|pos x rest a b ms segs Hx Ha H IH|pos x rest ms segs H IH]; cbn [map moved_seg fst snd] in *.
  - constructor.
  - apply dv_rest. exact Hx.
  - apply dv_gap; [exact Hx | lia | exact IH].
  - rewrite Nat.add_assoc in *. apply dv_match. exact IH.
Qed.
Lemma units_plus x y : units (x ++ y) = units x + units y.
Proof. unfold units. rewrite flat_map_app, app_length. reflexivity. Qed.
Lemma divided_glue pos a ms sa : divided pos a ms sa -> forall e r ms2 sr, divided (pos + units a) r ((pos + units a, e) :: ms2) sr -> divided pos (a ++ r) (ms ++ (pos + units a, e) :: ms2) (sa ++ sr).
Proof.
  induction 1 as [pos|pos x Hx|pos x rest a b ms segs Hx Ha H IH|pos x rest ms segs H IH]; intros e r ms2 sr Hr; cbn [app] in *.
  - change (units []) with 0 in *. rewrite Nat.add_0_r in *. exact Hr.
  - apply dv_gap; [exact Hx | reflexivity | exact Hr].
  - rewrite <- app_assoc. assert (Eu : pos + units (x ++ rest) = a + units rest) by (rewrite units_plus; lia). rewrite Eu in Hr. rewrite Eu. apply dv_gap; [exact Hx | exact Ha | exact (IH _ _ _ _ Hr)].
  - rewrite <- app_assoc. assert (Eu : pos + units (x ++ rest) = pos + units x + units rest) by (rewrite units_plus; lia). rewrite Eu in Hr. rewrite Eu. apply dv_match. exact (IH _ _ _ _ Hr).
Qed.
Lemma divided_shorter pos x ms segs : divided pos x ms segs -> Forall (fun q : (nat * wstr) * bool => length (snd (fst q)) <= length x) segs.
Proof.
  induction 1 as [pos|pos x Hx|pos x rest a b ms segs Hx Ha H IH|pos x rest ms segs H IH]; [constructor | repeat constructor | |]; (constructor; [cbn [fst snd]; rewrite app_length; lia|]; eapply Forall_impl; [|exact IH]; intros q Hq; cbn beta in Hq |- *; rewrite app_length; lia).
Qed.
Lemma divided_gaps pos x ms segs : divided pos x ms segs -> Forall (fun q : (nat * wstr) * bool => snd q = false -> snd (fst q) <> []) segs.
Proof. induction 1; repeat constructor; cbn [fst snd]; auto; discriminate. Qed.
Definition tok_spans (l : list (nat * wstr)) : list (nat * nat) := map (fun p => (fst p, fst p + units (snd p))) l.
Lemma glued v ops c a b ta sa tb sb : delimiter v ops c -> at_boundary a -> bmp a -> bmp c ->
  fields (takes_part v ops false) no_words 0 a ta -> divided 0 a (tok_spans ta) sa -> fields (takes_part v ops false) no_words 0 b tb -> divided 0 b (tok_spans tb) sb ->
  let t := ta ++ (length a, c) :: shift (length a + length c) tb in
  fields (takes_part v ops false) no_words 0 (a ++ c ++ b) t /\ divided 0 (a ++ c ++ b) (tok_spans t) (sa ++ ((length a, c), true) :: map (moved_seg (length a + length c)) sb).
Proof.
  intros (C1 & C2 & C3 & C4) Ha Ba Bc F1 D1 F2 D2 t. split.
  - apply fields_glue; [exact F1 | exact Ha|]. cbn [Nat.add]. apply fd_token; try assumption. pose proof (fields_shift _ no_words (length a + length c) ltac:(intros p s l ->; reflexivity) _ _ _ F2) as K. exact K.
  - unfold t, tok_spans. rewrite map_app. cbn [map fst snd]. pose proof (bmp_length a Ba) as Ua. pose proof (bmp_length c Bc) as Uc. pose proof (divided_glue 0 a _ sa D1 (length a + units c) (c ++ b)) as G. cbn [Nat.add] in G. rewrite Ua in G. apply G. apply dv_match. rewrite Uc.
    apply (divided_shift (length a + length c)) in D2. rewrite Nat.add_0_r in D2. replace (map (fun p => (fst p, fst p + units (snd p))) (shift (length a + length c) tb)) with (map (fun m : nat * nat => (length a + length c + fst m, length a + length c + snd m)) (tok_spans tb)); [exact D2|].
    unfold tok_spans, shift. rewrite !map_map. apply map_ext. intros p. cbn [fst snd]. f_equal; lia.
Qed.

(** ** The words, whatever the normalizer *)
Lemma stretch_further E v ops norm pre a s x l : (a <> [] -> ~ normalized_to E norm a []) -> x <> [] -> length x <= length a -> length a < length s -> stretch_words E v ops norm pre a x l -> stretch_words E v ops norm pre s x l.
Proof.
  intros Ha Hx Hl Hs (n & N1 & [(-> & -> & _)|[_ N2]]); [exfalso; exact (Ha Hx N1)|]. exists n. split; [exact N1|]. right. split; [intros [_ ->]; lia | exact N2].
Qed.
Lemma words_further (R1 R2 : wstr -> list (nat * wstr) -> Prop) d segs out : Forall (fun q : (nat * wstr) * bool => forall l, snd q = false -> R1 (snd (fst q)) l -> R2 (snd (fst q)) l) segs ->
  Forall2 (fun q ws => if (snd q : bool) then ws = [fst q] else R1 (snd (fst q)) ws) segs out ->
  exists out', Forall2 (fun q ws => if (snd q : bool) then ws = [fst q] else R2 (snd (fst q)) ws) (map (moved_seg d) segs) out' /\ map snd (concat out') = map snd (concat out).
Proof.
  intros HR H. induction H as [|[[o x] f] ws segs out Hq _ IH]; [exists []; split; [constructor | reflexivity]|]. destruct (IH (Forall_inv_tail HR)) as (out' & I1 & I2). pose proof (Forall_inv HR) as R. cbn [fst snd] in *. destruct f.
  - subst ws. exists ([(d + o, x)] :: out'). split; [cbn [map]; constructor; [reflexivity | exact I1]|]. cbn [concat app map snd]. rewrite I2. reflexivity.
  - exists (ws :: out'). split; [cbn [map]; constructor; [cbn [moved_seg fst snd]; exact (R ws eq_refl Hq) | exact I1]|]. cbn [concat]. rewrite !map_app, I2. reflexivity.
Qed.
(** The words of a text in which a special token stands are those of what comes before, the token, and those of what comes after. *)
Theorem C140_words : forall E v ops norm pre a c b wa wb, delimiter v ops c -> at_boundary a -> bmp a -> bmp c ->
  (a <> [] -> ~ normalized_to E norm a []) -> (b <> [] -> ~ normalized_to E norm b []) ->
  all_words E v ops norm pre a wa -> all_words E v ops norm pre b wb -> all_words E v ops norm pre (a ++ c ++ b) (wa ++ [c] ++ wb).
Proof.
  intros E v ops norm pre a c b wa wb HC Ha Ba Bc Na Nb (la & (ta & sa & oa & F1 & D1 & O1 & ->) & ->) (lb & (tb & sb & ob & F2 & D2 & O2 & ->) & ->).
  destruct (glued v ops c a b ta sa tb sb HC Ha Ba Bc F1 D1 F2 D2) as [G1 G2]. set (s := a ++ c ++ b) in *.
  assert (Lc : 0 < length c) by (destruct HC as (HC & _); destruct c; [congruence | cbn [length]; lia]).
  assert (L : length s = length a + length c + length b) by (unfold s; rewrite !app_length; lia).
  assert (R : forall x pos ms segs, divided pos x ms segs -> length x < length s -> (x <> [] -> ~ normalized_to E norm x []) -> Forall (fun q : (nat * wstr) * bool => forall l, snd q = false -> stretch_words E v ops norm pre x (snd (fst q)) l -> stretch_words E v ops norm pre s (snd (fst q)) l) segs).
  { intros x pos ms segs HD Hl Hx. pose proof (divided_shorter _ _ _ _ HD) as K1. pose proof (divided_gaps _ _ _ _ HD) as K2. rewrite Forall_forall in K1, K2. apply Forall_forall. intros q Hq l Hf. apply stretch_further; [exact Hx | exact (K2 q Hq Hf) | exact (K1 q Hq) | exact Hl]. }
  destruct (words_further (stretch_words E v ops norm pre a) (stretch_words E v ops norm pre s) 0 sa oa) as (oa' & A1 & A2); [apply (R a 0 _ _ D1); [lia | exact Na] | exact O1|].
  destruct (words_further (stretch_words E v ops norm pre b) (stretch_words E v ops norm pre s) (length a + length c) sb ob) as (ob' & B1 & B2); [apply (R b 0 _ _ D2); [lia | exact Nb] | exact O2|].
  assert (E0 : map (moved_seg 0) sa = sa) by (erewrite map_ext; [apply map_id|]; intros [[o x] f]; reflexivity). rewrite E0 in A1.
  exists (concat (oa' ++ [(length a, c)] :: ob')). split.
  - eexists _, _, (oa' ++ [(length a, c)] :: ob'). split; [exact G1|]. split; [exact G2|]. split; [|reflexivity]. apply Forall2_app; [exact A1|]. constructor; [reflexivity | exact B1].
  - rewrite concat_app, map_app, A2. cbn [concat app map snd]. rewrite B2. reflexivity.
Qed.
Print Assumptions C140_words.
