(** The reader of JSON strings against EscSpec.v. *)
From Verif Require Import Base BaseFacts Unicode Common Config EscSpec.
From Coq Require Import ZifyBool ZifyN ZifyNat.

Lemma hex_digit_value b n : hex_digit b = Some n <-> hex_value b (N.to_nat n).
Proof.
  split.
  - unfold hex_digit. intros H.
    destruct ((48 <=? b) && (b <=? 57))%N eqn:E1; [|destruct ((97 <=? b) && (b <=? 102))%N eqn:E2; [|destruct ((65 <=? b) && (b <=? 70))%N eqn:E3; [|discriminate]]]; injection H as <-.
    + left. assert (b = 48 \/ b = 49 \/ b = 50 \/ b = 51 \/ b = 52 \/ b = 53 \/ b = 54 \/ b = 55 \/ b = 56 \/ b = 57)%N as Hb by lia. decompose [or] Hb; subst; reflexivity.
    + left. assert (b = 97 \/ b = 98 \/ b = 99 \/ b = 100 \/ b = 101 \/ b = 102)%N as Hb by lia. decompose [or] Hb; subst; reflexivity.
    + right. assert (b = 65 \/ b = 66 \/ b = 67 \/ b = 68 \/ b = 69 \/ b = 70)%N as Hb by lia. decompose [or] Hb; subst; reflexivity.
  - intros H. assert (Hn : N.to_nat n < 16). { destruct H as [H|H]; match type of H with nth_error ?l ?i = _ => change (i < length l); apply nth_error_Some; rewrite H; discriminate end. }
    remember (N.to_nat n) as m eqn:Em. assert (n = N.of_nat m) by lia. subst n. clear Em.
    do 16 (destruct m as [|m]; [destruct H as [H|H]; cbn in H; injection H as <-; reflexivity|]). lia.
Qed.
Lemma hex_value_bound x n : hex_value x n -> (N.of_nat n < 16)%N.
Proof. intros [H|H]; match type of H with nth_error ?l ?i = _ => assert (i < length l) as Q by (apply nth_error_Some; rewrite H; discriminate) end; cbn in Q; lia. Qed.
Lemma hex_digit_of_value x n : hex_value x n -> hex_digit x = Some (N.of_nat n).
Proof. intros H. apply hex_digit_value. rewrite Nnat.Nat2N.id. exact H. Qed.
Lemma hex4_unit raw c r : hex4 raw = Some (c, r) <-> exists h, raw = h ++ r /\ code_unit h c.
Proof.
  split.
  - unfold hex4. intros H. destruct raw as [|x3 [|x2 [|x1 [|x0 q]]]]; try discriminate.
    destruct (hex_digit x3) as [n3|] eqn:E3; [|discriminate]. destruct (hex_digit x2) as [n2|] eqn:E2; [|discriminate]. destruct (hex_digit x1) as [n1|] eqn:E1; [|discriminate]. destruct (hex_digit x0) as [n0|] eqn:E0; [|discriminate].
    injection H as <- <-. apply hex_digit_value in E3, E2, E1, E0. exists [x3; x2; x1; x0]. split; [reflexivity|].
    replace (((n3 * 16 + n2) * 16 + n1) * 16 + n0)%N with (N.of_nat (N.to_nat n3) * 4096 + N.of_nat (N.to_nat n2) * 256 + N.of_nat (N.to_nat n1) * 16 + N.of_nat (N.to_nat n0))%N by lia.
    constructor; assumption.
  - intros (h & -> & H). destruct H as [x3 x2 x1 x0 n3 n2 n1 n0 H3 H2 H1 H0]. cbn [app hex4]. rewrite (hex_digit_of_value _ _ H3), (hex_digit_of_value _ _ H2), (hex_digit_of_value _ _ H1), (hex_digit_of_value _ _ H0). do 2 f_equal. lia.
Qed.
Lemma hex4_shorter raw c r : hex4 raw = Some (c, r) -> length raw = 4 + length r.
Proof. intros H. apply hex4_unit in H as (h & -> & H). destruct H. reflexivity. Qed.
Lemma simple_in e y : simple_escape e = Some y <-> In (e, y) short_escapes.
Proof.
  unfold simple_escape, short_escapes. split.
  - intros H. repeat match type of H with (if (?a =? ?b)%N then _ else _) = _ => destruct (N.eqb_spec a b) as [->|] end; [injection H as <-; cbn; tauto .. | discriminate].
  - intros H. cbn [In] in H. decompose [or] H; try contradiction; match goal with Q : (_, _) = (_, _) |- _ => injection Q as <- <- end; reflexivity.
Qed.
Lemma utf8_not_surrogate c : (c < 0xD800 \/ 0xDFFF < c)%N -> utf8_of_cp c = utf8_enc c.
Proof. intros H. unfold utf8_of_cp, is_surrogate. replace ((0xD800 <=? c) && (c <=? 0xDFFF))%N with false by lia. reflexivity. Qed.
Lemma some_inj {A} (a b : A) : Some a = Some b -> a = b.
Proof. congruence. Qed.
Lemma unescape_sound : forall fuel raw s, unescape_fuel fuel raw = Some s -> json_string raw s.
Proof.
  induction fuel as [|f IH]; intros raw s H; [discriminate|]. cbn [unescape_fuel] in H. destruct raw as [|x r]; [injection H as <-; constructor|].
  destruct (N.eqb_spec x 92) as [->|Hx]; cbn [negb] in H.
  2:{ destruct (unescape_fuel f r) as [q|] eqn:E; [|discriminate]. injection H as <-. constructor; [exact Hx | apply IH; exact E]. }
  destruct r as [|e r]; [discriminate|]. destruct (N.eqb_spec e 117) as [->|He].
  2:{ destruct (simple_escape e) as [y|] eqn:Ey; [|discriminate]. destruct (unescape_fuel f r) as [q|] eqn:E; [|discriminate]. injection H as <-. apply js_short; [apply simple_in; exact Ey | apply IH; exact E]. }
  destruct (hex4 r) as [[c r2]|] eqn:Eh; [|discriminate]. apply hex4_unit in Eh as (h & -> & Hc).
  destruct ((0xD800 <=? c) && (c <? 0xDC00))%N eqn:Ec.
  - destruct r2 as [|b1 [|b2 r3]]; try discriminate. destruct ((b1 =? 92) && (b2 =? 117))%N eqn:Eb; [|discriminate]. assert (b1 = 92 /\ b2 = 117)%N as [-> ->] by lia.
    destruct (hex4 r3) as [[d r4]|] eqn:Ed; [|discriminate]. apply hex4_unit in Ed as (h2 & -> & Hd). destruct ((0xDC00 <=? d) && (d <? 0xE000))%N eqn:Edd; [|discriminate].
    destruct (unescape_fuel f r4) as [q|] eqn:E; [|discriminate]. cbn [option_map] in H. apply some_inj in H. subst s. rewrite utf8_not_surrogate by lia. eapply js_pair; [exact Hc | exact Hd | lia | lia | apply IH; exact E].
  - destruct ((0xDC00 <=? c) && (c <? 0xE000))%N eqn:Ecc; [discriminate|]. destruct (unescape_fuel f r2) as [q|] eqn:E; [|discriminate]. injection H as <-.
    rewrite utf8_not_surrogate by lia. apply js_unicode; [exact Hc | lia | apply IH; exact E].
Qed.
Lemma unescape_complete raw s : json_string raw s -> forall fuel, length raw < fuel -> unescape_fuel fuel raw = Some s.
Proof.
  induction 1 as [|b r s Hb H IH|e b r s He H IH|h c r s Hh Hc H IH|h1 h2 c1 c2 r s H1 H2 Hc1 Hc2 H IH]; intros fuel Hf; (destruct fuel as [|f]; [cbn in Hf; lia|]); cbn [unescape_fuel].
  - reflexivity.
  - replace (b =? 92)%N with false by lia. cbn [negb]. cbn [length] in Hf. rewrite IH by lia. reflexivity.
  - change (negb (92 =? 92)%N) with false. cbv iota. apply simple_in in He. assert (He' : (e =? 117)%N = false). { destruct (N.eqb_spec e 117) as [->|]; [discriminate He | reflexivity]. }
    rewrite He', He. cbn [length] in Hf. rewrite IH by lia. reflexivity.
  - change (negb (92 =? 92)%N) with false. cbv iota. change (117 =? 117)%N with true. cbv iota. rewrite (proj2 (hex4_unit (h ++ r) c r)) by (exists h; split; [reflexivity | exact Hh]).
    replace ((0xD800 <=? c) && (c <? 0xDC00))%N with false by lia. replace ((0xDC00 <=? c) && (c <? 0xE000))%N with false by lia. cbn [length] in Hf. rewrite app_length in Hf. rewrite IH by lia. rewrite utf8_not_surrogate by lia. reflexivity.
  - change (negb (92 =? 92)%N) with false. cbv iota. change (117 =? 117)%N with true. cbv iota. rewrite (proj2 (hex4_unit _ c1 (92 :: 117 :: h2 ++ r)%N)) by (exists h1; split; [reflexivity | exact H1]).
    replace ((0xD800 <=? c1) && (c1 <? 0xDC00))%N with true by lia. change ((92 =? 92) && (117 =? 117))%N with true. cbv iota. rewrite (proj2 (hex4_unit _ c2 r)) by (exists h2; split; [reflexivity | exact H2]).
    replace ((0xDC00 <=? c2) && (c2 <? 0xE000))%N with true by lia. cbn [length] in Hf. rewrite app_length in Hf. cbn [length] in Hf. rewrite app_length in Hf. rewrite IH by lia. rewrite utf8_not_surrogate by lia. reflexivity.
Qed.
Lemma unescape_iff raw s : unescape raw = Some s <-> json_string raw s.
Proof. split; [apply unescape_sound | intros H; apply unescape_complete; [exact H | lia]]. Qed.
Lemma unescape_none raw : unescape raw = None <-> forall s, ~ json_string raw s.
Proof.
  split; [intros H s Q; apply unescape_iff in Q; congruence|]. intros H. destruct (unescape raw) as [s|] eqn:E; [apply unescape_iff in E; destruct (H s E) | reflexivity].
Qed.
