(** C118, ill-formed text: ICU's conversions as the Unicode Standard recommends them. *)
From Verif Require Import Base BaseFacts Unicode UnicodeProofs UtfSpec PropsUtf RepairSpec.
From Coq Require Import ZifyBool.

(** *** UTF-8 *)
(** beginnings of characters of one, two, three bytes *)
Definition beg1 (b : N) : bool := ((b <? 0x80) || (0xC2 <=? b) && (b <? 0xF5))%N.
Definition beg2 (b b1 : N) : bool :=
  (cont b1 && ((0xC2 <=? b) && (b <? 0xE0) || (0xE0 <=? b) && (b <? 0xF0) && (if b =? 0xE0 then 0xA0 <=? b1 else true) && (if b =? 0xED then b1 <=? 0x9F else true) ||
               (0xF0 <=? b) && (b <? 0xF5) && (if b =? 0xF0 then 0x90 <=? b1 else true) && (if b =? 0xF4 then b1 <=? 0x8F else true)))%N.
Definition beg3 (b b1 b2 : N) : bool := (beg2 b b1 && (0xE0 <=? b) && cont b2)%N.
Definition beg4 (b b1 b2 b3 : N) : bool := (beg3 b b1 b2 && (0xF0 <=? b) && cont b3)%N.
Definition begs (p : list N) : bool :=
  match p with [] => true | [b] => beg1 b | [b; b1] => beg2 b b1 | [b; b1; b2] => beg3 b b1 b2 | [b; b1; b2; b3] => beg4 b b1 b2 b3 | _ => false end.
Lemma begins_enc p : begins p <-> exists c q, valid_cp c = true /\ utf8_enc c = p ++ q.
Proof.
  split.
  - intros (c & b & q & H & ->). apply utf8_row_sound in H as [V E]. exists c, q. auto.
  - intros (c & q & V & E). exists c, (utf8_enc c), q. split; [apply utf8_row_complete; exact V | exact E].
Qed.
Lemma begins_prefix p q : begins (p ++ q) -> begins p.
Proof. intros (c & b & x & H & ->). exists c, ((p ++ q) ++ x), (q ++ x). split; [exact H | apply app_assoc_reverse]. Qed.
Lemma cons_inv (a b : N) l m : a :: l = b :: m -> a = b /\ l = m.
Proof. intros E. injection E. auto. Qed.
Lemma begs_needed p : begins p -> begs p = true.
Proof.
  intros H. apply begins_enc in H as (c & q & V & E). apply valid_cp_spec in V. unfold utf8_enc in E.
  destruct (N.ltb_spec c 0x80); [|destruct (N.ltb_spec c 0x800); [|destruct (N.ltb_spec c 0x10000)]].
  all: destruct p as [|b [|b1 [|b2 [|b3 [|b4 p]]]]]; try discriminate E; cbn [app] in E; try reflexivity; repeat (apply cons_inv in E as [? E]; try discriminate E); subst; cbn [begs]; unfold beg4, beg3, beg2, beg1, cont.
  all: try lia.
  all: repeat match goal with |- context [if ?x then _ else _] => let K := fresh in destruct x eqn:K end; lia.
Qed.
Lemma step_begins b r c : utf8_step b r = (Some c, []) -> forall p q, b :: r = p ++ q -> begins p.
Proof. intros H p q E. apply utf8_step_some in H as [V H]. apply begins_enc. exists c, q. split; [exact V|]. rewrite app_nil_r in H. rewrite <- H. exact E. Qed.
Ltac bust := exfalso; repeat match goal with K : context [if ?x then _ else _] |- _ => let L := fresh in destruct x eqn:L end; lia.
Ltac run_step := unfold utf8_step, cont; repeat match goal with |- exists c, (if ?x then _ else _) = _ => let H := fresh in destruct x eqn:H; try bust end; eexists; reflexivity.
Lemma begs_enough p : begs p = true -> begins p.
Proof.
  intros H. destruct p as [|b [|b1 [|b2 [|b3 [|b4 p]]]]]; cbn [begs] in H; try discriminate.
  - apply begins_enc. exists 0%N, [0%N]. split; reflexivity.
  - unfold beg1 in H.
    destruct (N.ltb_spec b 0x80); [assert (K : exists c, utf8_step b [] = (Some c, [])) by run_step; destruct K as [c K]; exact (step_begins _ _ _ K [b] [] eq_refl)|].
    destruct (N.ltb_spec b 0xE0); [assert (K : exists c, utf8_step b [0x80%N] = (Some c, [])) by run_step; destruct K as [c K]; exact (step_begins _ _ _ K [b] _ eq_refl)|].
    destruct (N.eqb_spec b 0xE0); [assert (K : exists c, utf8_step b [0xA0; 0x80]%N = (Some c, [])) by run_step; destruct K as [c K]; exact (step_begins _ _ _ K [b] _ eq_refl)|].
    destruct (N.ltb_spec b 0xF0); [assert (K : exists c, utf8_step b [0x80; 0x80]%N = (Some c, [])) by run_step; destruct K as [c K]; exact (step_begins _ _ _ K [b] _ eq_refl)|].
    destruct (N.eqb_spec b 0xF0); [assert (K : exists c, utf8_step b [0x90; 0x80; 0x80]%N = (Some c, [])) by run_step; destruct K as [c K]; exact (step_begins _ _ _ K [b] _ eq_refl)|].
    assert (K : exists c, utf8_step b [0x80; 0x80; 0x80]%N = (Some c, [])) by run_step. destruct K as [c K]. exact (step_begins _ _ _ K [b] _ eq_refl).
  - unfold beg2, cont in H.
    destruct (N.ltb_spec b 0xE0); [assert (K : exists c, utf8_step b [b1] = (Some c, [])) by run_step; destruct K as [c K]; exact (step_begins _ _ _ K [b; b1] [] eq_refl)|].
    destruct (N.ltb_spec b 0xF0); [assert (K : exists c, utf8_step b [b1; 0x80]%N = (Some c, [])) by run_step; destruct K as [c K]; exact (step_begins _ _ _ K [b; b1] _ eq_refl)|].
    assert (K : exists c, utf8_step b [b1; 0x80; 0x80]%N = (Some c, [])) by run_step. destruct K as [c K]. exact (step_begins _ _ _ K [b; b1] _ eq_refl).
  - unfold beg3, beg2, cont in H.
    destruct (N.ltb_spec b 0xF0); [assert (K : exists c, utf8_step b [b1; b2]%N = (Some c, [])) by run_step; destruct K as [c K]; exact (step_begins _ _ _ K [b; b1; b2] [] eq_refl)|].
    assert (K : exists c, utf8_step b [b1; b2; 0x80]%N = (Some c, [])) by run_step. destruct K as [c K]. exact (step_begins _ _ _ K [b; b1; b2] _ eq_refl).
  - unfold beg4, beg3, beg2, cont in H. assert (K : exists c, utf8_step b [b1; b2; b3]%N = (Some c, [])) by run_step. destruct K as [c K]. exact (step_begins _ _ _ K [b; b1; b2; b3] [] eq_refl).
Qed.
Lemma begins_begs p : begins p <-> begs p = true.
Proof. split; [apply begs_needed | apply begs_enough]. Qed.
(** nothing longer than [p] begins a character when its next byte does not continue it *)
Lemma maximal p r : begs p = true \/ length p = 1 -> p <> [] -> (r = [] \/ exists x r', r = x :: r' /\ begs (p ++ [x]) = false) -> forall p' r', p' ++ r' = p ++ r -> length p < length p' -> ~ begins p'.
Proof.
  intros _ _ HR p' r' E Hl HB. destruct HR as [-> | (x & r0 & -> & Hx)].
  - apply (f_equal (@length N)) in E. rewrite !app_length in E. cbn in E. lia.
  - assert (EP : exists q, p' = (p ++ [x]) ++ q).
    { exists (skipn (length (p ++ [x])) p'). rewrite <- (firstn_skipn (length (p ++ [x])) p') at 1. f_equal.
      assert (K : firstn (length (p ++ [x])) (p' ++ r') = firstn (length (p ++ [x])) ((p ++ [x]) ++ r0)) by (rewrite E, <- app_assoc; reflexivity).
      rewrite !firstn_app in K. rewrite app_length in *. cbn [length] in *. replace (length p + 1 - length p') with 0 in K by lia. replace (length p + 1 - (length p + 1)) with 0 in K by lia.
      cbn [firstn] in K. rewrite !app_nil_r in K. rewrite K. rewrite firstn_all2 by lia. replace (length p + 1 - length p) with 1 by lia. reflexivity. }
    destruct EP as (q & ->). apply begins_prefix, begins_begs in HB. congruence.
Qed.
Lemma step_bad b r r' : utf8_step b r = (None, r') -> exists p, b :: r = p ++ r' /\ maximal_subpart p r'.
Proof.
  intros H.
  assert (HN : forall c x q, utf8_row c x -> x ++ q <> b :: r).
  { intros c x q Hrow E. apply utf8_row_sound in Hrow as [V ->]. pose proof (utf8_dec_enc c q V) as K. rewrite E, (utf8_dec_cons _ _ _ _ H) in K. discriminate. }
  assert (G : exists p, b :: r = p ++ r' /\ p <> [] /\ (begs p = true \/ length p = 1) /\ (r' = [] \/ exists x r1, r' = x :: r1 /\ begs (p ++ [x]) = false)).
  { unfold utf8_step in H. revert H.
    destruct (N.ltb_spec b 0x80); [discriminate|].
    destruct (N.ltb_spec b 0xC2).
    { intros [= <-]. exists [b]. split; [reflexivity|]. split; [discriminate|]. split; [right; reflexivity|]. destruct r as [|x r]; [left; reflexivity|]. right. exists x, r. split; [reflexivity|]. cbn [app begs]. unfold beg2, cont. lia. }
    destruct (N.ltb_spec b 0xE0).
    { destruct r as [|b1 r]; [intros [= <-]; exists [b]; repeat split; [discriminate | right; reflexivity | left; reflexivity]|]. destruct (cont b1) eqn:C1; [discriminate|]. intros [= <-].
      exists [b]. split; [reflexivity|]. split; [discriminate|]. split; [right; reflexivity|]. right. exists b1, r. split; [reflexivity|]. cbn [app begs]. unfold beg2. rewrite C1. reflexivity. }
    destruct (N.ltb_spec b 0xF0).
    { destruct r as [|b1 r]; [intros [= <-]; exists [b]; repeat split; [discriminate | right; reflexivity | left; reflexivity]|].
      destruct (cont b1 && (if (b =? 224)%N then (160 <=? b1)%N else true) && (if (b =? 237)%N then (b1 <=? 159)%N else true)) eqn:C1.
      - assert (B2 : beg2 b b1 = true) by (unfold beg2; lia). destruct r as [|b2 r]; [intros [= <-]; exists [b; b1]; repeat split; [discriminate | left; exact B2 | left; reflexivity]|].
        destruct (cont b2) eqn:C2; [discriminate|]. intros [= <-]. exists [b; b1]. split; [reflexivity|]. split; [discriminate|]. split; [left; exact B2|]. right. exists b2, r. split; [reflexivity|]. cbn [app begs]. unfold beg3. rewrite C2. apply andb_false_r.
      - intros [= <-]. exists [b]. split; [reflexivity|]. split; [discriminate|]. split; [right; reflexivity|]. right. exists b1, r. split; [reflexivity|]. cbn [app begs]. unfold beg2. lia. }
    destruct (N.ltb_spec b 0xF5).
    { destruct r as [|b1 r]; [intros [= <-]; exists [b]; repeat split; [discriminate | right; reflexivity | left; reflexivity]|].
      destruct (cont b1 && (if (b =? 240)%N then (144 <=? b1)%N else true) && (if (b =? 244)%N then (b1 <=? 143)%N else true)) eqn:C1.
      - assert (B2 : beg2 b b1 = true) by (unfold beg2; lia). destruct r as [|b2 r]; [intros [= <-]; exists [b; b1]; repeat split; [discriminate | left; exact B2 | left; reflexivity]|].
        destruct (cont b2) eqn:C2.
        + assert (B3 : beg3 b b1 b2 = true) by (unfold beg3; rewrite B2, C2; lia). destruct r as [|b3 r]; [intros [= <-]; exists [b; b1; b2]; repeat split; [discriminate | left; exact B3 | left; reflexivity]|].
          destruct (cont b3) eqn:C3; [discriminate|]. intros [= <-]. exists [b; b1; b2]. split; [reflexivity|]. split; [discriminate|]. split; [left; exact B3|]. right. exists b3, r. split; [reflexivity|]. cbn [app begs]. unfold beg4. rewrite C3. apply andb_false_r.
        + intros [= <-]. exists [b; b1]. split; [reflexivity|]. split; [discriminate|]. split; [left; exact B2|]. right. exists b2, r. split; [reflexivity|]. cbn [app begs]. unfold beg3. rewrite C2. apply andb_false_r.
      - intros [= <-]. exists [b]. split; [reflexivity|]. split; [discriminate|]. split; [right; reflexivity|]. right. exists b1, r. split; [reflexivity|]. cbn [app begs]. unfold beg2. lia. }
    intros [= <-]. exists [b]. split; [reflexivity|]. split; [discriminate|]. split; [right; reflexivity|]. destruct r as [|x r]; [left; reflexivity|]. right. exists x, r. split; [reflexivity|]. cbn [app begs]. unfold beg2, cont. lia. }
  destruct G as (p & E & P1 & P2 & P3). exists p. split; [exact E|]. split; [exact P1|]. split; [destruct P2 as [P2|P2]; [left; apply begins_begs; exact P2 | right; exact P2]|].
  split; [apply maximal; assumption|]. rewrite <- E. exact HN.
Qed.
Lemma dec_repaired : forall n b, length b <= n -> repaired8 b (map fffd (utf8_dec b)).
Proof.
  induction n as [|n IH]; intros b Hl; destruct b as [|x r]; try (cbn in Hl; lia); try exact r8_end.
  destruct (utf8_step x r) as [[c|] r'] eqn:E; rewrite (utf8_dec_cons _ _ _ _ E); cbn [map fffd]; pose proof (utf8_step_shorter _ _ _ _ E); cbn [length] in Hl.
  - apply utf8_step_some in E as [V E]. rewrite E. apply r8_char; [apply utf8_row_complete; exact V | apply IH; lia].
  - destruct (step_bad _ _ _ E) as (p & Ep & M). rewrite Ep. apply r8_bad; [exact M | apply IH; lia].
Qed.
Lemma app_same_length {A} (x y x' y' : list A) : x ++ y = x' ++ y' -> length x = length x' -> x = x' /\ y = y'.
Proof. intros E H. revert x' E H. induction x as [|a x IH]; intros [|a' x'] E H; try discriminate; [auto|]. injection E as -> E. injection H as H. destruct (IH x' E H) as [-> ->]. auto. Qed.
Lemma subpart_once p r p' r' : maximal_subpart p r -> maximal_subpart p' r' -> p ++ r = p' ++ r' -> p = p' /\ r = r'.
Proof.
  intros (N1 & S1 & M1 & _) (N2 & S2 & M2 & _) E. apply app_same_length; [exact E|]. destruct (Nat.lt_trichotomy (length p) (length p')) as [L|[L|L]]; [|exact L|].
  - exfalso. destruct S2 as [S2|S2]; [exact (M1 p' r' (eq_sym E) L S2) | destruct p; [congruence | cbn in *; lia]].
  - exfalso. destruct S1 as [S1|S1]; [exact (M2 p r E L S1) | destruct p'; [congruence | cbn in *; lia]].
Qed.
Lemma row_once c b r c' b' r' : utf8_row c b -> utf8_row c' b' -> b ++ r = b' ++ r' -> c = c' /\ b = b' /\ r = r'.
Proof.
  intros H H' E. apply utf8_row_sound in H as [V ->]. apply utf8_row_sound in H' as [V' ->]. pose proof (utf8_dec_enc c r V) as K. rewrite E, (utf8_dec_enc c' r' V') in K. injection K as K _. subst c'.
  split; [reflexivity|]. split; [reflexivity|]. exact (app_inv_head _ _ _ E).
Qed.
Lemma row_nonempty c b : utf8_row c b -> b <> [].
Proof. intros H. apply utf8_row_sound in H as [_ ->]. apply utf8_enc_nonempty. Qed.
Lemma repaired8_once b s : repaired8 b s -> forall s', repaired8 b s' -> s' = s.
Proof.
  induction 1 as [|c x r s Hrow _ IH|p r s HM _ IH]; intros s' H'.
  - remember (@nil N) as u eqn:Eu. destruct H' as [|c' x' r' s' Hrow' H'|p' r' s' HM' H']; [reflexivity|exfalso..].
    + apply app_eq_nil in Eu as [Eu _]. exact (row_nonempty _ _ Hrow' Eu).
    + apply app_eq_nil in Eu as [Eu _]. exact (proj1 HM' Eu).
  - remember (x ++ r) as u eqn:Eu. destruct H' as [|c' x' r' s' Hrow' H'|p' r' s' HM' H'].
    + exfalso. symmetry in Eu. apply app_eq_nil in Eu as [Eu _]. exact (row_nonempty _ _ Hrow Eu).
    + destruct (row_once _ _ _ _ _ _ Hrow' Hrow Eu) as (-> & -> & ->). f_equal. apply IH. exact H'.
    + exfalso. destruct HM' as (_ & _ & _ & K). exact (K c x r Hrow (eq_sym Eu)).
  - remember (p ++ r) as u eqn:Eu. destruct H' as [|c' x' r' s' Hrow' H'|p' r' s' HM' H'].
    + exfalso. symmetry in Eu. apply app_eq_nil in Eu as [Eu _]. exact (proj1 HM Eu).
    + exfalso. destruct HM as (_ & _ & _ & K). exact (K c' x' r' Hrow' Eu).
    + destruct (subpart_once _ _ _ _ HM' HM Eu) as [-> ->]. f_equal. apply IH. exact H'.
Qed.
(** Every byte string, well-formed or not, is read by ICU as exactly one text, the standard's. *)
Theorem C118_repair_utf8 : forall b, exists s, repaired8 b s /\ (forall s', repaired8 b s' -> s' = s) /\ spelled utf16_row s (from_utf8 b).
Proof.
  intros b. pose proof (dec_repaired (length b) b (le_n _)) as H. exists (map fffd (utf8_dec b)). split; [exact H|]. split; [apply repaired8_once; exact H|]. destruct (from_utf8_valid b) as [F V]. apply spelled16. split; [exact V | exact F].
Qed.
Print Assumptions C118_repair_utf8.

(** *** UTF-16 *)
Lemma row16_shape c b : utf16_row c b -> (exists x, b = [x] /\ c = x /\ is_lead x = false /\ is_trail x = false /\ (x < 0x10000)%N) \/ (exists x y, b = [x; y] /\ is_lead x = true /\ is_trail y = true /\ c = pair_cp x y).
Proof.
  intros H. apply utf16_row_sound in H as [V ->]. apply valid_cp_spec in V. unfold utf16_enc. destruct (N.ltb_spec c 0x10000).
  - left. exists c. unfold is_lead, is_trail. split; [reflexivity|]. split; [reflexivity|]. repeat split; lia.
  - right. eexists. eexists. split; [reflexivity|]. unfold is_lead, is_trail, pair_cp. split; [lia|]. split; [lia|]. remember (c - 65536)%N as d. lia.
Qed.
Lemma pair_row x y : is_lead x = true -> is_trail y = true -> utf16_row (pair_cp x y) [x; y].
Proof.
  intros Hx Hy. unfold is_lead, is_trail in *. assert (V : valid_cp (pair_cp x y) = true) by (apply valid_cp_spec; unfold pair_cp; lia). pose proof (utf16_row_complete _ V) as R. unfold utf16_enc in R.
  destruct (N.ltb_spec (pair_cp x y) 0x10000) as [L|L]; [unfold pair_cp in L; lia|].
  replace (0xD800 + (pair_cp x y - 0x10000) / 1024)%N with x in R by (unfold pair_cp; lia). replace (0xDC00 + (pair_cp x y - 0x10000) mod 1024)%N with y in R by (unfold pair_cp; lia). exact R.
Qed.
Lemma row16_once c b r c' b' r' : utf16_row c b -> utf16_row c' b' -> b ++ r = b' ++ r' -> c = c' /\ b = b' /\ r = r'.
Proof.
  intros H H' E. destruct (row16_shape _ _ H) as [(x & -> & -> & X1 & X2 & _)|(x & y & -> & X1 & X2 & ->)], (row16_shape _ _ H') as [(x' & -> & -> & X1' & X2' & _)|(x' & y' & -> & X1' & X2' & ->)]; cbn [app] in E.
  - apply cons_inv in E as [-> ->]. auto.
  - apply cons_inv in E as [-> _]. congruence.
  - apply cons_inv in E as [-> _]. congruence.
  - apply cons_inv in E as [-> E]. apply cons_inv in E as [-> ->]. auto.
Qed.
Lemma row16_some c b r : utf16_row c b -> b ++ r <> [].
Proof. intros H E; destruct (row16_shape _ _ H) as [(x & -> & _)|(x & y & -> & _)]; discriminate. Qed.
Lemma repaired16_once u s : repaired16 u s -> forall s', repaired16 u s' -> s' = s.
Proof.
  induction 1 as [|c b r s Hrow _ IH|x r s HS HN _ IH]; intros s' H'.
  - remember (@nil N) as u eqn:Eu. destruct H' as [|c' x' r' s' Hrow' H'|x' r' s' HS' HN' H']; [reflexivity | destruct (row16_some _ _ _ Hrow' Eu) | discriminate].
  - remember (b ++ r) as u eqn:Eu. destruct H' as [|c' x' r' s' Hrow' H'|x' r' s' HS' HN' H']; [destruct (row16_some _ _ _ Hrow (eq_sym Eu)) | | destruct (HN' _ _ _ Hrow (eq_sym Eu))].
    destruct (row16_once _ _ _ _ _ _ Hrow' Hrow Eu) as (-> & -> & ->). f_equal. apply IH. exact H'.
  - remember (x :: r) as u eqn:Eu. destruct H' as [|c' x' r' s' Hrow' H'|x' r' s' HS' HN' H']; [discriminate | destruct (HN _ _ _ Hrow' eq_refl)|]. apply cons_inv in Eu as [-> ->]. f_equal. apply IH. exact H'.
Qed.
Lemma cps_repaired : forall n u, length u <= n -> Forall (fun x => (x < 0x10000)%N) u -> repaired16 u (to_utf32 u).
Proof.
  induction n as [|n IH]; intros u Hl HF; destruct u as [|x r]; try (cbn in Hl; lia); try exact r16_end. inversion HF as [|? ? F1 F2]; subst. cbn [length] in Hl.
  assert (ONE : is_lead x = false -> repaired16 (x :: r) ((if is_surrogate x then 0xFFFD%N else x) :: to_utf32 r)).
  { intros HL. destruct (is_surrogate x) eqn:ES; unfold is_surrogate, is_lead in *.
    - apply r16_bad; [lia| |apply IH; [lia | exact F2]]. intros c b q Hrow E. destruct (row16_shape _ _ Hrow) as [(a & -> & _ & X1 & X2 & _)|(a & a' & -> & X1 & _)]; apply cons_inv in E as [-> _]; unfold is_lead, is_trail in *; lia.
    - change (x :: r) with ([x] ++ r). apply r16_char; [apply unit1; lia | apply IH; [lia | exact F2]]. }
  unfold to_utf32. cbn [utf16_cps]. destruct (is_lead x) eqn:EL; [|exact (ONE eq_refl)].
  assert (SX : is_surrogate x = true) by (unfold is_lead, is_surrogate in *; lia).
  destruct r as [|y r].
  - cbn [map fst]. rewrite SX. apply r16_bad; [unfold is_lead in EL; lia| |exact r16_end]. intros c b q Hrow E. destruct (row16_shape _ _ Hrow) as [(a & -> & _ & X1 & X2 & _)|(a & a' & -> & X1 & _)]; cbn [app] in E; apply cons_inv in E as [-> E]; [congruence | discriminate].
  - destruct (is_trail y) eqn:ET.
    + cbn [map fst]. replace (is_surrogate (pair_cp x y)) with false by (unfold is_surrogate, pair_cp, is_lead, is_trail in *; lia).
      change (x :: y :: r) with ([x; y] ++ r). apply r16_char; [apply pair_row; assumption|]. cbn [length] in Hl. inversion F2; subst. apply IH; [lia | assumption].
    + cbn [map fst]. rewrite SX. apply r16_bad; [unfold is_lead in EL; lia| |apply IH; [lia | exact F2]]. intros c b q Hrow E.
      destruct (row16_shape _ _ Hrow) as [(a & -> & _ & X1 & X2 & _)|(a & a' & -> & X1 & X2 & _)]; cbn [app] in E; apply cons_inv in E as [-> E]; [congruence|]. apply cons_inv in E as [-> _]. congruence.
Qed.
(** Every string of 16-bit units, also one that was cut inside a pair, is read as exactly one text, the standard's, and written out as the UTF-8 spelling of that text. *)
Theorem C118_repair_utf16 : forall u, Forall (fun x => (x < 0x10000)%N) u -> exists s, repaired16 u s /\ (forall s', repaired16 u s' -> s' = s) /\ to_utf32 u = s /\ spelled utf8_row s (to_utf8 u).
Proof.
  intros u HF. pose proof (cps_repaired (length u) u (le_n _) HF) as H. exists (to_utf32 u). split; [exact H|]. split; [apply repaired16_once; exact H|]. split; [reflexivity|]. apply spelled8. split.
  - clear HF. induction H as [|c b r s Hrow _ IH|x r s _ _ _ IH]; cbn [forallb]; [reflexivity | apply utf16_row_sound in Hrow as [-> _]; exact IH | exact IH].
  - unfold to_utf8, to_utf32, utf8_encs. rewrite !flat_map_concat_map, map_map. f_equal. apply map_ext. intros [c w]. cbn [fst]. unfold utf8_of_cp. destruct (is_surrogate c); reflexivity.
Qed.
Print Assumptions C118_repair_utf16.
(** E2 82 is a beginning and one U+FFFD, E0 80 is two; a pair cut in the middle is one. *)
Example C118_repair_case : repaired8 [0x61; 0xE2; 0x82; 0x62]%N [0x61; 0xFFFD; 0x62]%N /\ repaired8 [0xE0; 0x80]%N [0xFFFD; 0xFFFD]%N /\ from_utf8 [0x61; 0xE2; 0x82; 0x62]%N = [0x61; 0xFFFD; 0x62]%N /\
  repaired16 [0xD83D; 0x61]%N [0xFFFD; 0x61]%N /\ to_utf8 [0xD83D; 0x61]%N = [0xEF; 0xBF; 0xBD; 0x61]%N.
Proof.
  split; [apply (dec_repaired 4); apply le_n|]. split; [apply (dec_repaired 2); apply le_n|]. split; [reflexivity|]. split; [|reflexivity]. apply (cps_repaired 2 [0xD83D; 0x61]%N); [apply le_n|]. repeat (apply Forall_cons; [reflexivity|]); apply Forall_nil.
Qed.
