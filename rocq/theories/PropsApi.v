(** C77, C78: the Android binding; C80: missing components. *)
From Verif Require Import Base BaseFacts Unicode Common Utils PostProcessor Decoder Normalizer PreTokenizer WordPiece Bpe AddedVocab Tokenizer Jni DecSpec DecProofs UnicodeProofs NormProofs ExtractProofs OffProofs PropsEncode Env.
From Coq Require Import ZifyBool ZifyN.
Local Ltac Zify.zify_post_hook ::= Z.div_mod_to_equations.

(** ** C77 *)
(** characters of the Basic Multilingual Plane other than NUL *)
Definition bmp_text (cs : list N) : Prop := Forall (fun c => (0 < c < 0xD800)%N \/ (0xE000 <= c < 0x10000)%N) cs.

Lemma c_string_nonzero b : Forall (fun x => x <> 0%N) b -> c_string b = b.
Proof. induction 1 as [|x b H _ IH]; [reflexivity|]. cbn [c_string]. replace (x =? 0)%N with false by lia. rewrite IH. reflexivity. Qed.
Lemma utf8_nonzero c : (c <> 0)%N -> Forall (fun x => x <> 0%N) (utf8_enc c).
Proof. intros H. unfold utf8_enc. repeat match goal with |- context [if ?b then _ else _] => destruct b end; repeat (apply Forall_cons; [lia|]); apply Forall_nil. Qed.
Lemma utf8s_nonzero cs : Forall (fun c => c <> 0%N) cs -> Forall (fun x => x <> 0%N) (utf8_encs cs).
Proof. induction 1 as [|c cs H _ IH]; [constructor|]. unfold utf8_encs. cbn [flat_map]. apply Forall_app. split; [apply utf8_nonzero; exact H | exact IH]. Qed.
Lemma mutf8_bmp cs : bmp_text cs -> forall fuel, length (utf8_encs cs) < fuel -> mutf8_dec fuel (utf8_encs cs) = Some cs.
Proof.
  unfold utf8_encs. induction 1 as [|c cs Hc _ IH]; intros fuel Hf; [destruct fuel; [cbn in Hf; lia | reflexivity]|]. cbn [flat_map] in *. rewrite app_length in Hf. destruct fuel as [|f]; [lia|].
  unfold utf8_enc in *. destruct (N.ltb_spec c 0x80); [|destruct (N.ltb_spec c 0x800); [|destruct (N.ltb_spec c 0x10000); [|lia]]]; cbn [app length] in *; cbn [mutf8_dec].
  - replace (c =? 0)%N with false by lia. replace (c <? 0x80)%N with true by lia. rewrite IH by lia. reflexivity.
  - replace (0xC0 + c / 64 =? 0)%N with false by lia. replace (0xC0 + c / 64 <? 0x80)%N with false by lia. replace ((0xC0 <=? 0xC0 + c / 64) && (0xC0 + c / 64 <? 0xE0))%N with true by lia. cbv zeta. unfold cont.
    replace ((0xC0 + c / 64 - 0xC0) * 64 + (0x80 + c mod 64 - 0x80))%N with c by lia. replace (((0x80 <=? 0x80 + c mod 64) && (0x80 + c mod 64 <=? 0xBF)) && ((0x80 <=? c) || (c =? 0)))%N with true by lia. rewrite IH by lia. reflexivity.
  - replace (0xE0 + c / 4096 =? 0)%N with false by lia. replace (0xE0 + c / 4096 <? 0x80)%N with false by lia. replace ((0xC0 <=? 0xE0 + c / 4096) && (0xE0 + c / 4096 <? 0xE0))%N with false by lia.
    replace ((0xE0 <=? 0xE0 + c / 4096) && (0xE0 + c / 4096 <? 0xF0))%N with true by lia. cbv zeta. unfold cont.
    replace ((0xE0 + c / 4096 - 0xE0) * 4096 + (0x80 + (c / 64) mod 64 - 0x80) * 64 + (0x80 + c mod 64 - 0x80))%N with c by lia.
    replace (((0x80 <=? 0x80 + (c / 64) mod 64) && (0x80 + (c / 64) mod 64 <=? 0xBF)) && ((0x80 <=? 0x80 + c mod 64) && (0x80 + c mod 64 <=? 0xBF)) && (0x800 <=? c))%N with true by lia. rewrite IH by lia. reflexivity.
Qed.
Lemma utf16_bmp cs : bmp_text cs -> flat_map utf16_enc cs = cs.
Proof. induction 1 as [|c cs Hc _ IH]; [reflexivity|]. cbn [flat_map]. rewrite IH. unfold utf16_enc. replace (c <? 0x10000)%N with true by lia. reflexivity. Qed.
(** the decoded text reaches Java for texts of the BMP without NUL *)
Theorem C77_bmp t ids skip cs : decode t ids skip = Ok (utf8_encs cs) -> bmp_text cs -> jni_decode t ids skip = Ok (Some (flat_map utf16_enc cs)).
Proof.
  intros H Hc. unfold jni_decode. rewrite H. cbn [bind]. rewrite c_string_nonzero; [|apply utf8s_nonzero; eapply Forall_impl; [|exact Hc]; cbn beta; intros; lia].
  unfold new_string_utf. rewrite (mutf8_bmp cs Hc) by lia. rewrite (utf16_bmp cs Hc). reflexivity.
Qed.
Print Assumptions C77_bmp.
(** a supplementary character is not valid modified UTF-8: no Java string corresponds to the bytes handed to NewStringUTF *)
Theorem C77_supplementary_refuted t ids skip a c b : decode t ids skip = Ok (utf8_encs (a ++ c :: b)) -> bmp_text a -> (0x10000 <= c <= 0x10FFFF)%N -> Forall (fun x => x <> 0%N) b ->
  jni_decode t ids skip = Ok None.
Proof.
  intros H Ha Hc Hb. unfold jni_decode. rewrite H. cbn [bind].
  rewrite c_string_nonzero.
  - unfold new_string_utf. assert (G : forall fuel, length (utf8_encs (a ++ c :: b)) < fuel -> mutf8_dec fuel (utf8_encs (a ++ c :: b)) = None); [|rewrite G by lia; reflexivity]. clear H Hb.
    unfold utf8_encs. induction Ha as [|x a Hx _ IH]; intros fuel Hf; cbn [app flat_map] in *; rewrite app_length in Hf; (destruct fuel as [|f]; [lia|]).
    + unfold utf8_enc at 1. replace (c <? 0x80)%N with false by lia. replace (c <? 0x800)%N with false by lia. replace (c <? 0x10000)%N with false by lia. cbn [app]. cbn [mutf8_dec].
      replace (0xF0 + c / 262144 =? 0)%N with false by lia. replace (0xF0 + c / 262144 <? 0x80)%N with false by lia. replace ((0xC0 <=? 0xF0 + c / 262144) && (0xF0 + c / 262144 <? 0xE0))%N with false by lia.
      replace ((0xE0 <=? 0xF0 + c / 262144) && (0xF0 + c / 262144 <? 0xF0))%N with false by lia. reflexivity.
    + unfold utf8_enc in Hf at 1. unfold utf8_enc at 1. destruct (N.ltb_spec x 0x80); [|destruct (N.ltb_spec x 0x800); [|destruct (N.ltb_spec x 0x10000); [|lia]]]; cbn [app length] in *; cbn [mutf8_dec].
      * replace (x =? 0)%N with false by lia. replace (x <? 0x80)%N with true by lia. rewrite IH by lia. reflexivity.
      * replace (0xC0 + x / 64 =? 0)%N with false by lia. replace (0xC0 + x / 64 <? 0x80)%N with false by lia. replace ((0xC0 <=? 0xC0 + x / 64) && (0xC0 + x / 64 <? 0xE0))%N with true by lia. cbv zeta. rewrite IH by lia.
        match goal with |- (if ?b then _ else _) = _ => destruct b; reflexivity end.
      * replace (0xE0 + x / 4096 =? 0)%N with false by lia. replace (0xE0 + x / 4096 <? 0x80)%N with false by lia. replace ((0xC0 <=? 0xE0 + x / 4096) && (0xE0 + x / 4096 <? 0xE0))%N with false by lia.
        replace ((0xE0 <=? 0xE0 + x / 4096) && (0xE0 + x / 4096 <? 0xF0))%N with true by lia. cbv zeta. rewrite IH by lia. match goal with |- (if ?b then _ else _) = _ => destruct b; reflexivity end.
  - apply utf8s_nonzero. apply Forall_app. split; [eapply Forall_impl; [|exact Ha]; cbn beta; intros; lia|]. apply Forall_cons; [lia | exact Hb].
Qed.
Print Assumptions C77_supplementary_refuted.
(** everything after a NUL is lost *)
Theorem C77_nul_refuted t ids skip a b : decode t ids skip = Ok (utf8_encs (a ++ 0%N :: b)) -> bmp_text a -> jni_decode t ids skip = Ok (Some (flat_map utf16_enc a)).
Proof.
  intros H Ha. unfold jni_decode. rewrite H. cbn [bind]. assert (E : c_string (utf8_encs (a ++ 0%N :: b)) = utf8_encs a).
  { assert (G : forall x y, Forall (fun v => v <> 0%N) x -> c_string (x ++ 0%N :: y) = x).
    { intros x y. induction 1 as [|v x Hv _ IH]; [reflexivity|]. cbn [app c_string]. replace (v =? 0)%N with false by lia. rewrite IH. reflexivity. }
    unfold utf8_encs. rewrite flat_map_app. cbn [flat_map]. change (utf8_enc 0) with [0%N]. cbn [app]. apply G. apply utf8s_nonzero. eapply Forall_impl; [|exact Ha]. cbn beta. intros. lia. }
  rewrite E. unfold new_string_utf. rewrite (mutf8_bmp a Ha) by lia. rewrite (utf16_bmp a Ha). reflexivity.
Qed.
Print Assumptions C77_nul_refuted.

(** Exactly what reaches Java: the text up to its first NUL, provided that has no supplementary character; otherwise bytes that are no Java string. *)
Fixpoint before_nul (cs : list N) : list N := match cs with [] => [] | c :: r => if (c =? 0)%N then [] else c :: before_nul r end.
Lemma c_string_before cs : c_string (utf8_encs cs) = utf8_encs (before_nul cs).
Proof.
  assert (G : forall x y, Forall (fun v => v <> 0%N) x -> c_string (x ++ y) = x ++ c_string y).
  { intros x y. induction 1 as [|v x Hv _ IH]; [reflexivity|]. cbn [app c_string]. replace (v =? 0)%N with false by lia. rewrite IH. reflexivity. }
  induction cs as [|c cs IH]; [reflexivity|]. unfold utf8_encs in *. cbn [flat_map before_nul]. destruct (N.eqb_spec c 0) as [->|Hc]; [reflexivity|]. rewrite G by (apply utf8_nonzero; exact Hc). rewrite IH. reflexivity.
Qed.
Lemma mutf8_supplementary a c b : bmp_text a -> (0x10000 <= c <= 0x10FFFF)%N -> forall fuel, length (utf8_encs (a ++ c :: b)) < fuel -> mutf8_dec fuel (utf8_encs (a ++ c :: b)) = None.
Proof.
  intros Ha Hc. unfold utf8_encs. induction Ha as [|x a Hx _ IH]; intros fuel Hf; cbn [app flat_map] in *; rewrite app_length in Hf; (destruct fuel as [|f]; [lia|]).
  + unfold utf8_enc at 1. replace (c <? 0x80)%N with false by lia. replace (c <? 0x800)%N with false by lia. replace (c <? 0x10000)%N with false by lia. cbn [app]. cbn [mutf8_dec].
    replace (0xF0 + c / 262144 =? 0)%N with false by lia. replace (0xF0 + c / 262144 <? 0x80)%N with false by lia. replace ((0xC0 <=? 0xF0 + c / 262144) && (0xF0 + c / 262144 <? 0xE0))%N with false by lia.
    replace ((0xE0 <=? 0xF0 + c / 262144) && (0xF0 + c / 262144 <? 0xF0))%N with false by lia. reflexivity.
  + unfold utf8_enc in Hf at 1. unfold utf8_enc at 1. destruct (N.ltb_spec x 0x80); [|destruct (N.ltb_spec x 0x800); [|destruct (N.ltb_spec x 0x10000); [|lia]]]; cbn [app length] in *; cbn [mutf8_dec].
    * replace (x =? 0)%N with false by lia. replace (x <? 0x80)%N with true by lia. rewrite IH by lia. reflexivity.
    * replace (0xC0 + x / 64 =? 0)%N with false by lia. replace (0xC0 + x / 64 <? 0x80)%N with false by lia. replace ((0xC0 <=? 0xC0 + x / 64) && (0xC0 + x / 64 <? 0xE0))%N with true by lia. cbv zeta. rewrite IH by lia.
      match goal with |- (if ?b then _ else _) = _ => destruct b; reflexivity end.
    * replace (0xE0 + x / 4096 =? 0)%N with false by lia. replace (0xE0 + x / 4096 <? 0x80)%N with false by lia. replace ((0xC0 <=? 0xE0 + x / 4096) && (0xE0 + x / 4096 <? 0xE0))%N with false by lia.
      replace ((0xE0 <=? 0xE0 + x / 4096) && (0xE0 + x / 4096 <? 0xF0))%N with true by lia. cbv zeta. rewrite IH by lia. match goal with |- (if ?b then _ else _) = _ => destruct b; reflexivity end.
Qed.
Lemma first_supplementary cs : forallb valid_cp cs = true -> Forall (fun c => c <> 0%N) cs -> bmp_text cs \/ exists a c b, cs = a ++ c :: b /\ bmp_text a /\ (0x10000 <= c <= 0x10FFFF)%N.
Proof.
  induction cs as [|c cs IH]; intros Hv Hn; [left; constructor|]. cbn [forallb] in Hv. apply andb_prop in Hv as [Hc Hv]. inversion Hn as [|? ? Hc0 Hn']; subst. apply valid_cp_spec in Hc.
  destruct (N.lt_ge_cases c 0x10000) as [L|L]; [|right; exists [], c, cs; split; [reflexivity|]; split; [constructor | lia]].
  assert (Hb : (0 < c < 0xD800)%N \/ (0xE000 <= c < 0x10000)%N) by lia.
  destruct (IH Hv Hn') as [H|(a & d & b & -> & Ha & Hd)]; [left; constructor; assumption | right; exists (c :: a), d, b; split; [reflexivity|]; split; [constructor; assumption | exact Hd]].
Qed.
Lemma before_nul_ok cs : Forall (fun c => c <> 0%N) (before_nul cs) /\ (forallb valid_cp cs = true -> forallb valid_cp (before_nul cs) = true) /\ (Forall (fun c => c <> 0%N) cs -> before_nul cs = cs).
Proof.
  induction cs as [|c cs (I1 & I2 & I3)]; [split; [constructor|]; split; intros; reflexivity|]. cbn [before_nul forallb]. destruct (N.eqb_spec c 0) as [->|Hc].
  - split; [constructor|]. split; [reflexivity|]. intros H. inversion H. congruence.
  - split; [constructor; assumption|]. split; [intros H; apply andb_prop in H as [H1 H2]; cbn [forallb]; rewrite H1, (I2 H2); reflexivity|]. intros H. inversion H; subst. rewrite I3 by assumption. reflexivity.
Qed.
Theorem C77_exactly t ids skip cs : decode t ids skip = Ok (utf8_encs cs) -> forallb valid_cp cs = true ->
  jni_decode t ids skip = Ok (if forallb (fun c => (c <? 0x10000)%N) (before_nul cs) then Some (flat_map utf16_enc (before_nul cs)) else None).
Proof.
  intros H Hv. unfold jni_decode. rewrite H. cbn [bind]. rewrite c_string_before. destruct (before_nul_ok cs) as (B1 & B2 & _). unfold new_string_utf.
  destruct (first_supplementary (before_nul cs) (B2 Hv) B1) as [Hb|(a & c & b & E & Ha & Hc)].
  - rewrite (mutf8_bmp _ Hb) by lia. rewrite (utf16_bmp _ Hb). replace (forallb _ _) with true; [reflexivity|]. symmetry. apply forallb_forall. intros c Hin. pose proof (proj1 (Forall_forall _ _) Hb c Hin) as Hx. cbn beta in Hx. lia.
  - rewrite E. rewrite (mutf8_supplementary a c b Ha Hc) by lia. replace (forallb _ _) with false; [reflexivity|]. symmetry. rewrite forallb_app. cbn [forallb]. replace (c <? 0x10000)%N with false by lia. apply andb_false_r.
Qed.
(** So the whole text arrives exactly when it has neither NUL nor supplementary characters. *)
Theorem C77_arrives_iff t ids skip cs : decode t ids skip = Ok (utf8_encs cs) -> forallb valid_cp cs = true ->
  (jni_decode t ids skip = Ok (Some (flat_map utf16_enc cs)) <-> bmp_text cs).
Proof.
  intros H Hv. split; [|intros Hb; apply C77_bmp; assumption]. rewrite (C77_exactly t ids skip cs H Hv). intros E. destruct (before_nul_ok cs) as (B1 & B2 & _).
  destruct (first_supplementary (before_nul cs) (B2 Hv) B1) as [Hb|(a & c & b & Eb & Ha & Hc)].
  - replace (forallb _ _) with true in E; [|symmetry; apply forallb_forall; intros c Hin; pose proof (proj1 (Forall_forall _ _) Hb c Hin) as Hx; cbn beta in Hx; lia]. injection E as E.
    assert (G : before_nul cs = cs); [|rewrite G in Hb; exact Hb]. apply (f_equal (@length N)) in E. clear -E. revert E. induction cs as [|c cs IH]; [reflexivity|]. cbn [before_nul flat_map]. rewrite app_length.
    assert (0 < length (utf16_enc c)) by (unfold utf16_enc; destruct (c <? 0x10000)%N; cbn; lia).
    destruct (c =? 0)%N; cbn [flat_map length]; [lia|]. rewrite app_length. intros E. f_equal. apply IH. lia.
  - replace (forallb _ _) with false in E; [discriminate|]. symmetry. rewrite Eb, forallb_app. cbn [forallb]. replace (c <? 0x10000)%N with false by lia. apply andb_false_r.
Qed.
Print Assumptions C77_exactly.
Print Assumptions C77_arrives_iff.

(** ** C78 *)
Lemma mutf8_enc cs : bmp_text cs -> get_string_utf_chars cs = utf8_encs cs.
Proof.
  unfold get_string_utf_chars, utf8_encs. induction 1 as [|c cs Hc _ IH]; [reflexivity|]. cbn [flat_map]. rewrite IH. f_equal. unfold mutf8_unit, utf8_enc. replace (c =? 0)%N with false by lia. replace (c <? 0x10000)%N with true by lia. reflexivity.
Qed.
Theorem C78_bmp cs : bmp_text cs -> jni_config (flat_map utf16_enc cs) = utf8_encs cs.
Proof.
  intros H. unfold jni_config. rewrite (utf16_bmp cs H), (mutf8_enc cs H). apply c_string_nonzero. apply utf8s_nonzero. eapply Forall_impl; [|exact H]. cbn beta. intros. lia.
Qed.
Print Assumptions C78_bmp.
(** any supplementary character arrives as two three-byte sequences, which is not UTF-8 *)
Theorem C78_supplementary_refuted a c b : bmp_text a -> bmp_text b -> (0x10000 <= c <= 0x10FFFF)%N ->
  jni_config (flat_map utf16_enc (a ++ c :: b)) <> utf8_encs (a ++ c :: b) /\ length (jni_config (flat_map utf16_enc (a ++ c :: b))) = length (utf8_encs (a ++ c :: b)) + 2.
Proof.
  intros Ha Hb Hc. assert (E : jni_config (flat_map utf16_enc (a ++ c :: b)) = utf8_encs a ++ flat_map mutf8_unit (utf16_enc c) ++ utf8_encs b).
  { unfold jni_config. rewrite flat_map_app. cbn [flat_map]. unfold get_string_utf_chars. rewrite !flat_map_app. rewrite (utf16_bmp a Ha), (utf16_bmp b Hb).
    change (flat_map mutf8_unit a) with (get_string_utf_chars a). change (flat_map mutf8_unit b) with (get_string_utf_chars b). rewrite (mutf8_enc a Ha), (mutf8_enc b Hb). apply c_string_nonzero. apply Forall_app. split; [|apply Forall_app; split].
    - apply utf8s_nonzero. eapply Forall_impl; [|exact Ha]. cbn beta. intros. lia.
    - unfold utf16_enc. replace (c <? 0x10000)%N with false by lia. cbn [flat_map]. unfold mutf8_unit.
      repeat match goal with |- context [if ?x then _ else _] => destruct x end; cbn [app]; repeat (apply Forall_cons; [lia|]); apply Forall_nil.
    - apply utf8s_nonzero. eapply Forall_impl; [|exact Hb]. cbn beta. intros. lia. }
  assert (L : length (jni_config (flat_map utf16_enc (a ++ c :: b))) = length (utf8_encs (a ++ c :: b)) + 2).
  { rewrite E. unfold utf8_encs. rewrite flat_map_app. cbn [flat_map]. rewrite !app_length. unfold utf8_enc at 4. replace (c <? 0x80)%N with false by lia. replace (c <? 0x800)%N with false by lia. replace (c <? 0x10000)%N with false by lia.
    unfold utf16_enc. replace (c <? 0x10000)%N with false by lia. cbn [flat_map]. unfold mutf8_unit.
    replace (0xD800 + (c - 0x10000) / 1024 =? 0)%N with false by lia. replace (0xD800 + (c - 0x10000) / 1024 <? 0x80)%N with false by lia. replace (0xD800 + (c - 0x10000) / 1024 <? 0x800)%N with false by lia.
    replace (0xDC00 + (c - 0x10000) mod 1024 =? 0)%N with false by lia. replace (0xDC00 + (c - 0x10000) mod 1024 <? 0x80)%N with false by lia. replace (0xDC00 + (c - 0x10000) mod 1024 <? 0x800)%N with false by lia. cbn [app length]. lia. }
  split; [|exact L]. intros F. rewrite F in L. lia.
Qed.
Print Assumptions C78_supplementary_refuted.
(** a NUL becomes the two bytes C0 80 *)
Theorem C78_nul_refuted a b : bmp_text a -> bmp_text b -> jni_config (flat_map utf16_enc (a ++ 0%N :: b)) = utf8_encs a ++ [0xC0; 0x80]%N ++ utf8_encs b.
Proof.
  intros Ha Hb. unfold jni_config. rewrite flat_map_app. cbn [flat_map]. change (utf16_enc 0) with [0%N]. cbn [app]. rewrite (utf16_bmp a Ha), (utf16_bmp b Hb). unfold get_string_utf_chars. rewrite flat_map_app. cbn [flat_map].
  change (flat_map mutf8_unit a) with (get_string_utf_chars a). change (flat_map mutf8_unit b) with (get_string_utf_chars b). change (mutf8_unit 0) with [0xC0; 0x80]%N. rewrite (mutf8_enc a Ha), (mutf8_enc b Hb). apply c_string_nonzero.
  apply Forall_app. split; [apply utf8s_nonzero; eapply Forall_impl; [|exact Ha]; cbn beta; intros; lia|]. repeat (apply Forall_cons; [lia|]). apply utf8s_nonzero; eapply Forall_impl; [|exact Hb]; cbn beta; intros; lia.
Qed.
Print Assumptions C78_nul_refuted.

(** Exactly what the constructor sees, and when it is the configuration text. *)
Definition seen_by_constructor (c : N) : bytes :=
  if (c =? 0)%N then [0xC0; 0x80]%N else if (c <? 0x10000)%N then utf8_enc c else utf8_enc (0xD800 + (c - 0x10000) / 1024) ++ utf8_enc (0xDC00 + (c - 0x10000) mod 1024).
Lemma seen_ok c : valid_cp c = true -> flat_map mutf8_unit (utf16_enc c) = seen_by_constructor c /\ Forall (fun x => x <> 0%N) (seen_by_constructor c) /\
  length (seen_by_constructor c) = length (utf8_enc c) + (if (c =? 0)%N then 1 else if (c <? 0x10000)%N then 0 else 2).
Proof.
  intros Hc. apply valid_cp_spec in Hc. unfold seen_by_constructor, utf16_enc. destruct (N.eqb_spec c 0) as [->|H0].
  { split; [reflexivity|]. split; [repeat (apply Forall_cons; [lia|]); apply Forall_nil | reflexivity]. }
  destruct (N.ltb_spec c 0x10000) as [L|L].
  - split; [|split; [apply utf8_nonzero; exact H0 | lia]]. cbn [flat_map]. rewrite app_nil_r. unfold mutf8_unit, utf8_enc. replace (c =? 0)%N with false by lia. replace (c <? 0x10000)%N with true by lia. reflexivity.
  - assert (B1 : (0xD800 <= 0xD800 + (c - 0x10000) / 1024 < 0xDC00)%N) by lia. assert (B2 : (0xDC00 <= 0xDC00 + (c - 0x10000) mod 1024 < 0xE000)%N) by lia.
    assert (G : forall u, (0xD800 <= u < 0xE000)%N -> mutf8_unit u = utf8_enc u /\ length (utf8_enc u) = 3 /\ Forall (fun x => x <> 0%N) (utf8_enc u)).
    { intros u Hu. split; [|split; [|apply utf8_nonzero; lia]]; unfold mutf8_unit, utf8_enc; replace (u <? 0x80)%N with false by lia; replace (u <? 0x800)%N with false by lia; replace (u <? 0x10000)%N with true by lia; [|reflexivity].
      replace (u =? 0)%N with false by lia. reflexivity. }
    destruct (G (0xD800 + (c - 0x10000) / 1024)%N ltac:(lia)) as (G1 & G2 & G3). destruct (G (0xDC00 + (c - 0x10000) mod 1024)%N ltac:(lia)) as (G4 & G5 & G6). split; [cbn [flat_map]; rewrite G1, G4, app_nil_r; reflexivity|]. split; [apply Forall_app; split; assumption|]. rewrite app_length, G2, G5.
    unfold utf8_enc. replace (c <? 0x80)%N with false by lia. replace (c <? 0x800)%N with false by lia. replace (c <? 0x10000)%N with false by lia. reflexivity.
Qed.
Theorem C78_exactly cs : forallb valid_cp cs = true -> jni_config (flat_map utf16_enc cs) = flat_map seen_by_constructor cs.
Proof.
  intros Hv. unfold jni_config, get_string_utf_chars. assert (E : flat_map mutf8_unit (flat_map utf16_enc cs) = flat_map seen_by_constructor cs /\ Forall (fun x => x <> 0%N) (flat_map seen_by_constructor cs)).
  { induction cs as [|c cs IH]; [split; [reflexivity | constructor]|]. cbn [forallb] in Hv. apply andb_prop in Hv as [Hc Hv]. destruct (seen_ok c Hc) as (S1 & S2 & _). destruct (IH Hv) as [I1 I2]. cbn [flat_map]. rewrite flat_map_app, S1, I1. split; [reflexivity|]. apply Forall_app. split; assumption. }
  destruct E as [E1 E2]. rewrite E1. apply c_string_nonzero. exact E2.
Qed.
Theorem C78_passes_iff cs : forallb valid_cp cs = true -> (jni_config (flat_map utf16_enc cs) = utf8_encs cs <-> bmp_text cs).
Proof.
  intros Hv. split; [|apply C78_bmp]. rewrite (C78_exactly cs Hv). intros E. apply (f_equal (@length N)) in E. unfold utf8_encs in E.
  assert (G : forall l, forallb valid_cp l = true -> length (flat_map utf8_enc l) <= length (flat_map seen_by_constructor l)).
  { induction l as [|c l IH]; intros H; [cbn; lia|]. cbn [forallb] in H. apply andb_prop in H as [Hc H]. destruct (seen_ok c Hc) as (_ & _ & S3). specialize (IH H). cbn [flat_map]. rewrite !app_length. lia. }
  unfold bmp_text. induction cs as [|c cs IH]; [constructor|]. cbn [forallb] in Hv. apply andb_prop in Hv as [Hc Hv]. destruct (seen_ok c Hc) as (_ & _ & S3). cbn [flat_map] in E. rewrite !app_length in E. pose proof (G cs Hv). apply valid_cp_spec in Hc.
  destruct (N.eqb_spec c 0); [lia|]. destruct (N.ltb_spec c 0x10000); [|lia]. constructor; [lia|]. apply IH; [exact Hv | lia].
Qed.
Print Assumptions C78_exactly.
Print Assumptions C78_passes_iff.
Example C78_case : bmp_text [0xE9; 0x4E2D; 0xFFFD]%N /\ jni_config (flat_map utf16_enc [0xE9; 0x4E2D; 0xFFFD]%N) = [0xC3; 0xA9; 0xE4; 0xB8; 0xAD; 0xEF; 0xBF; 0xBD]%N /\
  jni_config (flat_map utf16_enc [0x61; 0x1F600; 0x62]%N) = [0x61; 0xED; 0xA0; 0xBD; 0xED; 0xB8; 0x80; 0x62]%N /\ jni_config (flat_map utf16_enc [0x61; 0; 0x62]%N) = [0x61; 0xC0; 0x80; 0x62]%N.
Proof. split; [repeat (apply Forall_cons; [lia|]); apply Forall_nil|]. repeat split; vm_compute; reflexivity. Qed.
Print Assumptions C78_case.

(** ** C80 *)
(** *** encode: a missing component acts as an empty sequence of that kind *)
Definition with_pre (t : tokenizer) p := mkTz (tz_trunc t) (tz_pad t) (tz_av t) (tz_norm t) p (tz_model t) (tz_dec t) (tz_post t).
Definition with_post (t : tokenizer) p := mkTz (tz_trunc t) (tz_pad t) (tz_av t) (tz_norm t) (tz_pre t) (tz_model t) (tz_dec t) p.
Definition with_norm (t : tokenizer) p := mkTz (tz_trunc t) (tz_pad t) (tz_av t) p (tz_pre t) (tz_model t) (tz_dec t) (tz_post t).
Definition with_dec (t : tokenizer) p := mkTz (tz_trunc t) (tz_pad t) (tz_av t) (tz_norm t) (tz_pre t) (tz_model t) p (tz_post t).
Lemma norm_none E trie ns m e l : normalize_splits E None trie ns m e l = normalize_splits E (Some (NSequence [])) trie ns m e l.
Proof.
  revert ns m e. induction l as [|s l IH]; intros ns m e; [reflexivity|]. cbn [normalize_splits]. destruct (sp_tokens s).
  - destruct (convert_from_string (sp_text s)) as [w| | |]; cbn [bind]; try reflexivity. change (normalize E (NSequence []) (new_nstring w)) with (Ok (new_nstring w)). cbn [bind]. destruct (transform_range _ _ _) as [ns'| | |]; cbn [bind]; try reflexivity.
    destruct (convert_to_string _) as [st| | |]; cbn [bind]; try reflexivity. destruct (av_find_matches _ _ _) as [[m' ms]| | |]; cbn [bind]; try reflexivity. destruct (norm_splits _ _ _); cbn [bind]; try reflexivity. rewrite IH. reflexivity.
  - rewrite IH. reflexivity.
Qed.
Theorem C80_missing_skipped E fuel t s add :
  snd (encode E fuel (with_norm t None) s add) = snd (encode E fuel (with_norm t (Some (NSequence []))) s add) /\
  snd (encode E fuel (with_pre t None) s add) = snd (encode E fuel (with_pre t (Some (TSequence []))) s add) /\
  snd (encode E fuel (with_post t None) s add) = snd (encode E fuel (with_post t (Some (PSequence []))) s add) /\
  snd (encode E fuel (with_dec t None) s add) = snd (encode E fuel t s add).
Proof.
  assert (P : forall A (c : res (option added_vocab * pretok)) (f g : option added_vocab -> pretok -> tokenizer * res A) u v,
    (forall a p, snd (f a p) = snd (g a p)) ->
    snd (match c with Ok (a, p) => f a p | Throw e => (u, Throw e) | Undef x => (u, Undef x) | Diverge => (u, Diverge) end) =
    snd (match c with Ok (a, p) => g a p | Throw e => (v, Throw e) | Undef x => (v, Undef x) | Diverge => (v, Diverge) end)).
  { intros A c f g u v H. destruct c as [[a p]| | |]; [apply H | reflexivity ..]. }
  split; [|split; [|split]]; unfold encode.
  - assert (Q : prepare E (with_norm t None) s = prepare E (with_norm t (Some (NSequence []))) s).
    { unfold prepare, with_norm. cbn [tz_av tz_norm tz_pre]. destruct (new_pretok (new_nstring s)) as [p0| | |]; cbn [bind]; try reflexivity. destruct (tz_av t) as [a|]; [|reflexivity].
      unfold extract_and_normalize. destruct (new_pretok (new_nstring s)) as [p| | |]; cbn [bind]; try reflexivity. destruct (convert_to_string _) as [st| | |]; cbn [bind]; try reflexivity.
      destruct (av_find_matches _ _ _) as [[m ms]| | |]; cbn [bind]; try reflexivity. destruct (raw_splits _ _) as [raw| | |]; cbn [bind]; try reflexivity. cbv zeta. rewrite norm_none. reflexivity. }
    rewrite Q. apply P. intros a p. unfold with_norm, set_av. cbn [tz_trunc tz_pad tz_av tz_norm tz_pre tz_model tz_dec tz_post]. destruct (tz_model t) as [m|]; [destruct (model_tokenize E m p)|]; reflexivity.
  - assert (Q : prepare E (with_pre t None) s = prepare E (with_pre t (Some (TSequence []))) s) by reflexivity.
    rewrite Q. apply P. intros a p. unfold with_pre, set_av. cbn [tz_trunc tz_pad tz_av tz_norm tz_pre tz_model tz_dec tz_post]. destruct (tz_model t) as [m|]; [destruct (model_tokenize E m p)|]; reflexivity.
  - assert (Q : prepare E (with_post t None) s = prepare E (with_post t (Some (PSequence []))) s) by reflexivity.
    rewrite Q. apply P. intros a p. unfold with_post, set_av. cbn [tz_trunc tz_pad tz_av tz_norm tz_pre tz_model tz_dec tz_post]. destruct (tz_model t) as [m|]; [destruct (model_tokenize E m p)|]; reflexivity.
  - assert (Q : prepare E (with_dec t None) s = prepare E t s) by reflexivity.
    rewrite Q. apply P. intros a p. unfold with_dec, set_av. cbn [tz_trunc tz_pad tz_av tz_norm tz_pre tz_model tz_dec tz_post]. destruct (tz_model t) as [m|]; [destruct (model_tokenize E m p)|]; reflexivity.
Qed.
Print Assumptions C80_missing_skipped.

(** with no component at all, a non-empty valid text has no tokens *)
Theorem C80_nothing E fuel s add : s <> [] -> forallb valid_cp s = true -> snd (encode E fuel (mkTz None None None None None None None None) s add) = Ok empty_enc.
Proof.
  intros Hs Hv. assert (Hp : new_pretok (new_nstring s) = Ok (mkPt (new_nstring s) [mkSplit (utf8_encs s) (0, length s) []])).
  { unfold new_pretok. rewrite fresh_numbered. cbn [ns_text numbered_ns]. unfold convert_to_string. rewrite Hv. reflexivity. }
  unfold encode, prepare. rewrite Hp. cbn [bind tz_av tz_pre tz_model set_av]. unfold into_encoding. cbn [pt_norm pt_splits into_rows].
  rewrite base_fresh; [reflexivity|]. cbn [sp_off fst]. destruct s as [|c s]; [congruence|]. unfold from_utf32. cbn [flat_map]. rewrite app_length. unfold utf16_enc.
  repeat match goal with |- context [if ?b then _ else _] => destruct b end; cbn [length]; lia.
Qed.
Print Assumptions C80_nothing.

(** *** decode *)
Lemma decode_total d : forall tokens, exists r, decode_chain d tokens = Ok r.
Proof.
  revert d. fix IH 1. intros d tokens. destruct d as [p c|p c| | |c a b|l|].
  - destruct c; [destruct (wp_cleanup_total p tokens) as (r & H & _); exists r; exact H|]. destruct tokens as [|t r]; [exists []; reflexivity|]. destruct (wp_decode_spec p t r) as (r' & H & _). eexists. exact H.
  - exists []. reflexivity.
  - exists []. reflexivity.
  - exists []. reflexivity.
  - exists []. reflexivity.
  - revert tokens. induction l as [|q l IHl]; intros tokens; [exists tokens; reflexivity|]. destruct (IH q tokens) as (t' & Ht). destruct (IHl t') as (r & Hr). exists r. rewrite decode_seq_cons, Ht. exact Hr.
  - eexists. reflexivity.
Qed.
Print Assumptions decode_total.
(** with all three parts decode only succeeds or reports an unknown id *)
Theorem C80_decode_complete t ids skip : tz_av t <> None -> tz_model t <> None -> tz_dec t <> None ->
  (exists text, decode t ids skip = Ok text) \/ decode t ids skip = Throw BadOptionalAccess.
Proof.
  intros Ha Hm Hd. unfold decode. assert (H : (exists toks, decode_ids t skip ids = Ok toks) \/ decode_ids t skip ids = Throw BadOptionalAccess).
  { induction ids as [|i ids IH]; [left; eexists; reflexivity|]. cbn [decode_ids]. destruct (tz_av t) as [av|] eqn:Ea; [|congruence]. destruct (tz_model t) as [m|] eqn:Em; [|congruence].
    destruct (av_id_to_token av i) as [s|]; [|destruct (model_id_to_token (model_vocab m) i) as [s|]; [|right; reflexivity]];
      (cbn [bind]; destruct IH as [(toks & ->)| ->]; [left; eexists; reflexivity | right; reflexivity]). }
  destruct H as [(toks & ->)| ->]; [|right; reflexivity]. cbn [bind]. destruct (tz_dec t) as [d|]; [|congruence]. destruct (decode_total d toks) as (r & ->). left. eexists. reflexivity.
Qed.
Print Assumptions C80_decode_complete.
(** without added tokens, decoding any ids is undefined; without a decoder, decoding ids that are known; without a model, any id that is not an added token's *)
Theorem C80_decode_refuted t ids skip :
  (tz_av t = None -> ids <> [] -> decode t ids skip = Undef NullDeref) /\
  (tz_dec t = None -> (exists toks, decode_ids t skip ids = Ok toks) -> decode t ids skip = Undef NullDeref) /\
  (forall av i r, tz_av t = Some av -> tz_model t = None -> ids = i :: r -> av_id_to_token av i = None -> decode t ids skip = Undef NullDeref).
Proof.
  split; [|split].
  - intros Ha Hi. destruct ids as [|i r]; [congruence|]. unfold decode. cbn [decode_ids]. rewrite Ha. reflexivity.
  - intros Hd (toks & H). unfold decode. rewrite H. cbn [bind]. rewrite Hd. reflexivity.
  - intros av i r Ha Hm -> Hi. unfold decode. cbn [decode_ids]. rewrite Ha, Hi, Hm. reflexivity.
Qed.
Print Assumptions C80_decode_refuted.
(** add_tokens needs the added vocabulary *)
Theorem C80_add_tokens_refuted alias t l : tz_av t = None -> add_tokens alias t l = Undef NullDeref.
Proof. intros H. unfold add_tokens. rewrite H. reflexivity. Qed.
Print Assumptions C80_add_tokens_refuted.

(** ** Cases *)
Example C77_case : bmp_text [72; 233; 0x20AC; 0xFFFD]%N.
Proof. unfold bmp_text. repeat (apply Forall_cons; [lia|]). apply Forall_nil. Qed.
Example C77_emoji_case : exists t ids, decode t ids false = Ok (utf8_encs [0x1F600]%N) /\ jni_decode t ids false = Ok None.
Proof.
  exists (mkTz None None (Some (new_added_vocab [])) None None (Some (MWordPiece (mkWp [(utf8_encs [0x1F600]%N, 3%Z)] (str "[UNK]") 100 (str "##")))) (Some (DWordPiece (str "##") false)) None), [3%Z].
  split; vm_compute; reflexivity.
Qed.
Example C80_case : exists t, tz_dec t = None /\ (exists toks, decode_ids t false [3%Z] = Ok toks) /\ decode t [3%Z] false = Undef NullDeref.
Proof.
  exists (mkTz None None (Some (new_added_vocab [])) None None (Some (MWordPiece (mkWp [(str "a", 3%Z)] (str "[UNK]") 100 (str "##")))) None None). split; [reflexivity|]. split; [eexists; vm_compute; reflexivity | vm_compute; reflexivity].
Qed.
