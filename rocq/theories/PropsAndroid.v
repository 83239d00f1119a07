(** C128: processes with Java Tokenizer objects. *)
From Verif Require Import Base BaseFacts Unicode Common Utils PostProcessor Decoder Normalizer PreTokenizer WordPiece Bpe AddedVocab Tokenizer Config Jni Run Android Spec
  HistSpec HistProofs PropsHistory ConfigSpec ConfigProofs PropsConfig AndroidSpec.
From Coq Require Import ZifyBool ZifyNat ZifyN.
Import ListNotations.

Lemma read_constructed load parse path cfg t : construct load parse path cfg = Ok t -> constructed t.
Proof.
  unfold construct. destruct (is_nil path && is_nil cfg); [discriminate|]. intros H. apply bind_ok in H as (t0 & H0 & HF). exists t0.
  assert (HR : exists doc, read_config doc = Ok t0).
  { unfold catch_all in H0. match type of H0 with match ?x with _ => _ end = _ => destruct x as [y| | |] eqn:Ey end; try discriminate. injection H0 as ->. apply bind_ok in Ey as (text & _ & Ey). apply bind_ok in Ey as (doc & _ & Ey). eauto. }
  destruct HR as (doc & HR). unfold read_config in HR. cbv zeta in HR. apply bind_ok in HR as (o & _ & HR). do 8 (apply bind_ok in HR as (? & ?H & HR)). injection HR as <-. cbn [tz_av tz_model]. split; [|split; [|exact HF]].
  - intros a ->. match goal with HC : component _ "added_tokens" _ = Ok _ |- _ => apply component_ok in HC as (j & Hj & [[_ HE]|HE]) end; [discriminate|].
    apply bind_ok in HE as (l & _ & HE). apply bind_ok in HE as (av & HA & HE). injection HE as <-. unfold with_added_vocabulary in HA. apply bind_ok in HA as (toks & _ & HA). injection HA as <-. eauto.
  - intros b c ->. match goal with HC : component _ "model" _ = Ok _ |- _ => apply component_ok in HC as (j & Hj & [[_ HE]|HE]) end; [discriminate|].
    unfold with_model in HE. do 5 (apply bind_ok in HE as (? & _ & HE)). destruct (leqb _ (str "WordPiece")).
    + do 3 (apply bind_ok in HE as (? & _ & HE)). discriminate.
    + destruct (leqb _ (str "BPE")); [|discriminate]. do 11 (apply bind_ok in HE as (? & _ & HE)). injection HE as _ <-. reflexivity.
Qed.

Section Process.
Context (E : env) (fuel : nat) (parse : bytes -> option json).
Definition make (g : ustr) := construct (fun _ => None) parse [] (jni_config g).
(** a native tokenizer of configuration [g] after calls that add nothing *)
Definition stands (g : ustr) (t : tokenizer) : Prop := exists t0 h, make g = Ok t0 /\ t = after E fuel t0 h /\ filter adds h = [].
Lemma stands_reply g t c : orderly parse g -> stands g t -> forall t0, make g = Ok t0 -> reply E fuel t c = reply E fuel t0 c.
Proof.
  intros HO (t1 & h & H1 & -> & HF) t0 H0. assert (t1 = t0) by congruence. subst t1.
  pose proof (C67_history_independent E fuel t0 h c (read_constructed _ _ _ _ _ H0)) as K. rewrite HF in K. cbn [after fold_left] in K. apply K. unfold tz_vocab. destruct (tz_model t0) as [m|] eqn:Em; [exact (HO t0 m H0 Em) | right; reflexivity].
Qed.
Lemma step_anew made heap c : Forall2 stands made heap -> Forall (orderly parse) (made ++ configs [c]) ->
  match java_step E fuel parse heap c with
  | Ok (heap', a) => anew E fuel parse made c = Ok a /\ Forall2 stands (made ++ configs [c]) heap'
  | Throw e => anew E fuel parse made c = Throw e
  | Undef u => anew E fuel parse made c = Undef u
  | Diverge => anew E fuel parse made c = Diverge
  end.
Proof.
  intros HF HO. apply Forall_app in HO as [HO _].
  assert (HL : length made = length heap) by (clear HO; induction HF; cbn; congruence).
  assert (HK : forall k, match nth_error heap k with Some t => exists g, nth_error made k = Some g /\ stands g t | None => nth_error made k = None end).
  { intros k. clear HO HL. revert k. induction HF as [|g t l l' H1 _ IH]; intros [|k]; cbn [nth_error]; [reflexivity | reflexivity | eauto | apply IH]. }
  destruct c as [g|k s add|k ids skip]; unfold java_step, anew.
  - fold (make g). destruct (make g) as [t| | |] eqn:Em; cbn [bind]; [|reflexivity..]. rewrite HL. split; [reflexivity|]. apply Forall2_app; [exact HF|]. cbn. constructor; [|constructor]. exists t, []. auto.
  - unfold vat. specialize (HK k). destruct (nth_error heap k) as [t|] eqn:Ek; [|rewrite HK; reflexivity]. destruct HK as (g & Hg & HS). rewrite Hg. cbn [bind]. fold (make g). pose proof HS as (t0 & h & H0 & Ht & Hh). rewrite H0. cbn [bind].
    assert (HR : snd (jni_encode E fuel t s add) = snd (jni_encode E fuel t0 s add)).
    { assert (OG : orderly parse g) by (apply (proj1 (Forall_forall _ _) HO); apply nth_error_In in Hg; exact Hg). pose proof (stands_reply g t (CallEncode s add) OG HS t0 H0) as K. unfold reply in K. cbn [do_call] in K. unfold jni_encode.
      destruct (encode E fuel t s add) as [u1 r1], (encode E fuel t0 s add) as [u2 r2]. cbn [snd] in K |- *. injection K as ->. reflexivity. }
    assert (HS' : fst (jni_encode E fuel t s add) = fst (do_call E fuel t (CallEncode s add))). { unfold jni_encode. cbn [do_call]. destruct (encode E fuel t s add); reflexivity. }
    destruct (jni_encode E fuel t s add) as [t' r]. cbn [fst snd] in HR, HS'. rewrite <- HR. destruct r as [ids| | |]; cbn [bind]; [|reflexivity..]. unfold vset. assert (HV : k < length heap) by (apply nth_error_Some; congruence). replace (k <? length heap) with true by lia. cbn [bind].
    split; [reflexivity|]. cbn [configs flat_map]. rewrite app_nil_r. apply nth_error_split in Ek as (l1 & l2 & -> & <-).
    assert (EU : firstn (length l1) (l1 ++ t :: l2) ++ t' :: skipn (S (length l1)) (l1 ++ t :: l2) = l1 ++ t' :: l2).
    { rewrite firstn_app, firstn_all, Nat.sub_diag. cbn [firstn]. rewrite app_nil_r. f_equal. f_equal. clear. induction l1 as [|x l1 IH]; [reflexivity|]. cbn [length app skipn] in *. exact IH. }
    apply Forall2_app_inv_r in HF as (m1 & m2 & F1 & F2 & ->). inversion F2 as [|g2 ? m3 ? F3 F4]; subst. 
    assert (g2 = g). { rewrite nth_error_app2 in Hg by (clear - F1; induction F1; cbn; lia). assert (EL : length m1 = length l1) by (clear - F1; induction F1; cbn; congruence). rewrite EL, Nat.sub_diag in Hg. cbn in Hg. congruence. }
    subst g2. rewrite EU. apply Forall2_app; [exact F1|]. constructor; [|exact F4]. exists t0, (h ++ [CallEncode s add]). split; [exact H0|]. split; [|rewrite filter_app, Hh; reflexivity]. unfold after. rewrite fold_left_app. cbn [fold_left]. reflexivity.
  - unfold vat. specialize (HK k). destruct (nth_error heap k) as [t|] eqn:Ek; [|rewrite HK; reflexivity]. destruct HK as (g & Hg & HS). rewrite Hg. cbn [bind]. fold (make g). pose proof HS as (t0 & h & H0 & Ht & Hh). rewrite H0. cbn [bind].
    assert (HR : decode t ids skip = decode t0 ids skip).
    { assert (OG : orderly parse g) by (apply (proj1 (Forall_forall _ _) HO); apply nth_error_In in Hg; exact Hg). pose proof (stands_reply g t (CallDecode ids skip) OG HS t0 H0) as K. unfold reply in K. cbn [do_call snd] in K. injection K as K. exact K. }
    unfold jni_decode. rewrite HR. destruct (decode t0 ids skip) as [d| | |]; cbn [bind]; [|reflexivity..]. split; [reflexivity|]. cbn [configs flat_map]. rewrite app_nil_r. exact HF.
Qed.
Definition status (r : res (list tokenizer)) : res unit := match r with Ok _ => Ok tt | Throw e => Throw e | Undef u => Undef u | Diverge => Diverge end.
Lemma run_behaves calls : forall made heap, Forall2 stands made heap -> Forall (orderly parse) (made ++ configs calls) ->
  behaves (anew E fuel parse) made calls (fst (java_run E fuel parse heap calls)) (status (snd (java_run E fuel parse heap calls))) /\
  forall heap', snd (java_run E fuel parse heap calls) = Ok heap' -> Forall2 stands (made ++ configs calls) heap'.
Proof.
  induction calls as [|c calls IH]; intros made heap HF HO; cbn [java_run fst snd status].
  - split; [constructor|]. intros heap' H. injection H as <-. cbn [configs flat_map]. rewrite app_nil_r. exact HF.
  - assert (EC : configs (c :: calls) = configs [c] ++ configs calls) by (unfold configs; cbn [flat_map]; rewrite app_nil_r; reflexivity). rewrite EC, app_assoc in *.
    pose proof (step_anew made heap c HF (proj1 (proj1 (Forall_app _ _ _) HO))) as K. destruct (java_step E fuel parse heap c) as [[heap1 a]|e|u|].
    + destruct K as [K1 K2]. destruct (IH (made ++ configs [c]) heap1 K2 HO) as [I1 I2]. destruct (java_run E fuel parse heap1 calls) as [l r]. cbn [fst snd] in *. split; [apply bh_goes; assumption | exact I2].
    + split; [apply bh_throws; exact K | discriminate].
    + split; [apply bh_undefined; exact K | discriminate].
    + split; [apply bh_hangs; exact K | discriminate].
Qed.
End Process.
Lemma behaves_once f made calls l r : behaves f made calls l r -> forall l' r', behaves f made calls l' r' -> l' = l /\ r' = r.
Proof. induction 1 as [made|made c calls a l r H _ IH|made c calls e H|made c calls u H|made c calls H]; intros l' r' H'; inversion H' as [|? ? ? a' l1 r1 K1 K2|? ? ? ? K1|? ? ? ? K1|? ? ? K1]; subst; try congruence; [auto| |split; congruence|split; congruence|auto]. destruct (IH _ _ K2) as [-> ->]. split; congruence. Qed.

(** ** C128 *)
(** Exactly what a process sees: every call is answered as if its object had just been constructed from its configuration, whatever was called before on this object or on others; the
    process ends with the first call that fails. *)
Theorem C128_process : forall E fuel parse calls l r, Forall (orderly parse) (configs calls) ->
  (fst (java_run E fuel parse [] calls) = l /\ status (snd (java_run E fuel parse [] calls)) = r <-> behaves (anew E fuel parse) [] calls l r).
Proof.
  intros E fuel parse calls l r HO. destruct (run_behaves E fuel parse calls [] [] (Forall2_nil _) HO) as [H _]. split.
  - intros [<- <-]. exact H.
  - intros H'. destruct (behaves_once _ _ _ _ _ H _ _ H') as [-> ->]. auto.
Qed.
Print Assumptions C128_process.
(** Nothing is ever released: a process that made [n] objects holds [n] native tokenizers, each of its own configuration. *)
Theorem C128_kept : forall E fuel parse calls heap, snd (java_run E fuel parse [] calls) = Ok heap -> length heap = length (configs calls).
Proof.
  intros E fuel parse calls. assert (G : forall calls h heap, snd (java_run E fuel parse h calls) = Ok heap -> length heap = length h + length (configs calls)).
  { clear calls. induction calls as [|c calls IH]; intros h heap H; cbn [java_run] in H; [injection H as <-; cbn; lia|]. destruct (java_step E fuel parse h c) as [[h1 a]| | |] eqn:Es; try discriminate.
    destruct (java_run E fuel parse h1 calls) as [l r] eqn:Er. cbn [snd] in H. specialize (IH h1 heap). rewrite Er in IH. specialize (IH H). rewrite IH. unfold configs. cbn [flat_map]. rewrite app_length. fold (configs calls). rewrite Nat.add_assoc. f_equal.
    destruct c as [g|k s add|k ids skip]; unfold java_step in Es; cbn [length].
    - apply bind_ok in Es as (t & _ & Es). injection Es as <- <-. rewrite app_length. cbn. lia.
    - apply bind_ok in Es as (t & _ & Es). destruct (jni_encode E fuel t s add) as [t' r0]. apply bind_ok in Es as (ids & _ & Es). apply bind_ok in Es as (h' & Hv & Es). injection Es as <- <-. clear H IH Er. unfold vset in Hv. destruct (k <? length h) eqn:Ek; [|discriminate]. assert (EV : h' = firstn k h ++ t' :: skipn (S k) h) by congruence. rewrite EV.
      rewrite app_length. change (length (t' :: skipn (S k) h)) with (S (length (skipn (S k) h))). rewrite firstn_length, skipn_length. lia.
    - apply bind_ok in Es as (t & _ & Es). apply bind_ok in Es as (x & _ & Es). injection Es as <- <-. lia. }
  intros heap H. apply (G calls [] heap H).
Qed.
Print Assumptions C128_kept.
(** Leaving out an encode or decode call of a process that ended well changes no other answer. *)
Theorem C128_independent : forall E fuel parse a c b l, Forall (orderly parse) (configs (a ++ c :: b)) -> configs [c] = [] ->
  fst (java_run E fuel parse [] (a ++ c :: b)) = l -> status (snd (java_run E fuel parse [] (a ++ c :: b))) = Ok tt ->
  fst (java_run E fuel parse [] (a ++ b)) = firstn (length a) l ++ skipn (S (length a)) l /\ status (snd (java_run E fuel parse [] (a ++ b))) = Ok tt.
Proof.
  intros E fuel parse a c b l HO HC HL HS. assert (EC : configs (a ++ c :: b) = configs (a ++ b)). { unfold configs in *. rewrite !flat_map_app. cbn [flat_map] in *. rewrite app_nil_r in HC. rewrite HC. reflexivity. }
  pose proof (proj1 (C128_process E fuel parse (a ++ c :: b) l (Ok tt) HO) (conj HL HS)) as HB. rewrite EC in HO. apply (C128_process E fuel parse (a ++ b) _ (Ok tt) HO). clear HO EC HL HS. revert HB. generalize (@nil ustr). revert l.
  induction a as [|x a IH]; intros l made HB; cbn [app] in HB |- *; inversion HB; subst.
  - cbn [length firstn skipn app]. rewrite HC, app_nil_r in *. assumption.
  - cbn [length firstn]. change (skipn (S (S (length a))) (a0 :: l0)) with (skipn (S (length a)) l0). cbn [app]. apply bh_goes; [assumption|]. apply IH. assumption.
Qed.
Print Assumptions C128_independent.

