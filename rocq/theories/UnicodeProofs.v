From Verif Require Import Base BaseFacts Unicode.
From Coq Require Import ZifyBool ZifyNat ZifyN.
Ltac Zify.zify_post_hook ::= Z.div_mod_to_equations.
Local Arguments N.add : simpl never. Local Arguments N.sub : simpl never. Local Arguments N.mul : simpl never.
Local Arguments N.div : simpl never. Local Arguments N.modulo : simpl never. Local Arguments N.leb : simpl never.
Local Arguments N.ltb : simpl never. Local Arguments N.eqb : simpl never.

Lemma valid_cp_spec c : valid_cp c = true <-> (c < 0xD800 \/ 0xE000 <= c <= 0x10FFFF)%N.
Proof. unfold valid_cp, is_surrogate. lia. Qed.

Lemma utf8_enc_nonempty c : utf8_enc c <> [].
Proof. unfold utf8_enc. destruct (c <? 0x80)%N; [|destruct (c <? 0x800)%N; [|destruct (c <? 0x10000)%N]]; discriminate. Qed.

Lemma cont_of x : (x < 64)%N -> cont (0x80 + x) = true.
Proof. unfold cont. lia. Qed.

Ltac ifs := repeat match goal with
  | |- context [if (?a <? ?b)%N then _ else _] =>
      first [replace (a <? b)%N with true by (symmetry; apply N.ltb_lt; lia)
            | replace (a <? b)%N with false by (symmetry; apply N.ltb_ge; lia)]; cbv iota
  end.

Lemma utf8_step_enc c r : valid_cp c = true ->
  exists b t, utf8_enc c = b :: t /\ utf8_step b (t ++ r) = (Some c, r).
Proof.
  intros Hv. apply valid_cp_spec in Hv. unfold utf8_enc.
  destruct (N.ltb_spec c 0x80) as [H1|H1]; [|destruct (N.ltb_spec c 0x800) as [H2|H2]; [|destruct (N.ltb_spec c 0x10000) as [H3|H3]]].
  - eexists; eexists; split; [reflexivity|]. cbn [app]. unfold utf8_step. ifs. reflexivity.
  - eexists; eexists; split; [reflexivity|]. cbn [app]. unfold utf8_step. ifs.
    rewrite cont_of by lia. do 2 f_equal. lia.
  - eexists; eexists; split; [reflexivity|]. cbn [app]. unfold utf8_step. ifs.
    rewrite !cont_of by lia. cbn [andb].
    assert (E1 : (if (0xE0 + c / 4096 =? 0xE0)%N then (0xA0 <=? 0x80 + (c / 64) mod 64)%N else true) = true).
    { destruct (N.eqb_spec (0xE0 + c / 4096) 0xE0); [lia | reflexivity]. }
    assert (E2 : (if (0xE0 + c / 4096 =? 0xED)%N then (0x80 + (c / 64) mod 64 <=? 0x9F)%N else true) = true).
    { destruct (N.eqb_spec (0xE0 + c / 4096) 0xED); [lia | reflexivity]. }
    rewrite E1, E2. cbn [andb]. do 2 f_equal. lia.
  - eexists; eexists; split; [reflexivity|]. cbn [app]. unfold utf8_step. ifs.
    rewrite !cont_of by lia. cbn [andb].
    assert (E1 : (if (0xF0 + c / 262144 =? 0xF0)%N then (0x90 <=? 0x80 + (c / 4096) mod 64)%N else true) = true).
    { destruct (N.eqb_spec (0xF0 + c / 262144) 0xF0); [lia | reflexivity]. }
    assert (E2 : (if (0xF0 + c / 262144 =? 0xF4)%N then (0x80 + (c / 4096) mod 64 <=? 0x8F)%N else true) = true).
    { destruct (N.eqb_spec (0xF0 + c / 262144) 0xF4); [lia | reflexivity]. }
    rewrite E1, E2. cbn [andb]. do 2 f_equal. lia.
Qed.

Ltac step_cases :=
  repeat match goal with
  | H : context [if ?b then _ else _] |- _ => let E := fresh "E" in destruct b eqn:E
  | H : context [match ?r with [] => _ | _ :: _ => _ end] |- _ => destruct r
  end.

(** a successful step consumed exactly the encoding of a valid code point *)
Lemma utf8_step_some b r c r' : utf8_step b r = (Some c, r') -> valid_cp c = true /\ b :: r = utf8_enc c ++ r'.
Proof.
  unfold utf8_step. intros H.
  destruct (N.ltb_spec b 0x80) as [H1|H1]; [|destruct (N.ltb_spec b 0xC2) as [H2|H2]; [discriminate|
    destruct (N.ltb_spec b 0xE0) as [H3|H3]; [|destruct (N.ltb_spec b 0xF0) as [H4|H4]; [|
    destruct (N.ltb_spec b 0xF5) as [H5|H5]; [|discriminate]]]]].
  - inversion H; subst. split; [apply valid_cp_spec; lia|]. unfold utf8_enc. ifs. reflexivity.
  - destruct r as [|b1 r1]; [discriminate|]. destruct (cont b1) eqn:C1; [|discriminate]. unfold cont in C1.
    inversion H; subst; clear H. split; [apply valid_cp_spec; lia|]. unfold utf8_enc. ifs. cbn [app].
    f_equal; [lia|]. f_equal. lia.
  - destruct r as [|b1 r1]; [discriminate|].
    destruct (cont b1 && (if (b =? 0xE0)%N then (0xA0 <=? b1)%N else true) && (if (b =? 0xED)%N then (b1 <=? 0x9F)%N else true)) eqn:C1; [|discriminate].
    destruct r1 as [|b2 r2]; [discriminate|]. destruct (cont b2) eqn:C2; [|discriminate].
    apply andb_prop in C1 as [C1 C3]. apply andb_prop in C1 as [C1 C4]. unfold cont in *.
    inversion H; subst; clear H.
    assert (A : (b = 0xE0 -> 0xA0 <= b1)%N) by (intros Eb; rewrite (proj2 (N.eqb_eq _ _) Eb) in C4; lia).
    assert (B : (b = 0xED -> b1 <= 0x9F)%N) by (intros Eb; rewrite (proj2 (N.eqb_eq _ _) Eb) in C3; lia).
    clear C3 C4.
    split; [apply valid_cp_spec; lia|]. unfold utf8_enc. ifs. cbn [app].
    do 2 (f_equal; [lia|]). f_equal. lia.
  - destruct r as [|b1 r1]; [discriminate|].
    destruct (cont b1 && (if (b =? 0xF0)%N then (0x90 <=? b1)%N else true) && (if (b =? 0xF4)%N then (b1 <=? 0x8F)%N else true)) eqn:C1; [|discriminate].
    destruct r1 as [|b2 r2]; [discriminate|]. destruct (cont b2) eqn:C2; [|discriminate].
    destruct r2 as [|b3 r3]; [discriminate|]. destruct (cont b3) eqn:C5; [|discriminate].
    apply andb_prop in C1 as [C1 C3]. apply andb_prop in C1 as [C1 C4]. unfold cont in *.
    inversion H; subst; clear H.
    assert (A : (b = 0xF0 -> 0x90 <= b1)%N) by (intros Eb; rewrite (proj2 (N.eqb_eq _ _) Eb) in C4; lia).
    assert (B : (b = 0xF4 -> b1 <= 0x8F)%N) by (intros Eb; rewrite (proj2 (N.eqb_eq _ _) Eb) in C3; lia).
    clear C3 C4.
    split; [apply valid_cp_spec; lia|]. unfold utf8_enc. ifs. cbn [app].
    do 3 (f_equal; [lia|]). f_equal. lia.
Qed.

Lemma utf8_step_shorter b r c r' : utf8_step b r = (c, r') -> length r' <= length r.
Proof.
  unfold utf8_step. intros H.
  repeat match goal with
  | H : (if ?b then _ else _) = _ |- _ => destruct b
  | H : match ?r with [] => _ | _ :: _ => _ end = _ |- _ => destruct r
  end; inversion H; subst; cbn [length]; lia.
Qed.

Lemma utf8_dec_fuel_more f l : length l <= f -> utf8_dec_fuel f l = utf8_dec l.
Proof.
  unfold utf8_dec. assert (G : forall n f l, length l <= n -> n <= f -> utf8_dec_fuel f l = utf8_dec_fuel n l).
  { induction n as [|n IH]; intros g m H1 H2.
    - destruct m; [|cbn in H1; lia]. destruct g; reflexivity.
    - destruct g as [|g]; [lia|]. destruct m as [|b r]; [reflexivity|]. cbn [utf8_dec_fuel].
      destruct (utf8_step b r) as [c r'] eqn:E. f_equal. cbn [length] in H1.
      pose proof (utf8_step_shorter _ _ _ _ E). apply IH; lia. }
  intros H. apply G; lia.
Qed.

Lemma utf8_dec_cons b r c r' : utf8_step b r = (c, r') -> utf8_dec (b :: r) = c :: utf8_dec r'.
Proof.
  intros E. unfold utf8_dec at 1. cbn [length utf8_dec_fuel]. rewrite E. f_equal.
  apply utf8_dec_fuel_more. eapply utf8_step_shorter; exact E.
Qed.

Lemma utf8_dec_enc c r : valid_cp c = true -> utf8_dec (utf8_enc c ++ r) = Some c :: utf8_dec r.
Proof.
  intros H. destruct (utf8_step_enc c r H) as (b & t & E & Hs). rewrite E. cbn [app]. apply utf8_dec_cons; exact Hs.
Qed.

Lemma utf8_dec_app l r : forallb valid_cp l = true -> utf8_dec (utf8_encs l ++ r) = map Some l ++ utf8_dec r.
Proof.
  induction l as [|c l IH]; cbn [forallb utf8_encs flat_map map app]; intros H; [reflexivity|].
  apply andb_prop in H as [Hc Hl]. rewrite <- app_assoc, utf8_dec_enc by exact Hc. cbn [app]. f_equal. apply IH; exact Hl.
Qed.

Lemma utf8_dec_encs l : forallb valid_cp l = true -> utf8_dec (utf8_encs l) = map Some l.
Proof. intros H. rewrite <- (app_nil_r (utf8_encs l)), utf8_dec_app by exact H. cbn. apply app_nil_r. Qed.

Lemma all_some_map {A} (l : list A) : all_some (map Some l) = Some l.
Proof. induction l; cbn; [reflexivity | rewrite IHl; reflexivity]. Qed.

Lemma all_some_inv {A} (l : list (option A)) r : all_some l = Some r -> l = map Some r.
Proof.
  revert r; induction l as [|[x|] l IH]; intros r H; cbn in H; [inversion H; reflexivity| |discriminate].
  destruct (all_some l) as [xs|]; [|discriminate]. inversion H; subst. cbn. f_equal. apply IH; reflexivity.
Qed.

Lemma utf8_dec_inv s w : utf8_dec s = map Some w -> s = utf8_encs w /\ forallb valid_cp w = true.
Proof.
  revert w. remember (length s) as n eqn:Hn. assert (length s <= n) as H by lia. clear Hn. revert s H.
  induction n as [|n IH]; intros s Hl w H.
  - destruct s; [|cbn in Hl; lia]. destruct w; [split; reflexivity | discriminate].
  - destruct s as [|b r]; [destruct w; [split; reflexivity | discriminate]|].
    destruct (utf8_step b r) as [c r'] eqn:E. rewrite (utf8_dec_cons _ _ _ _ E) in H.
    destruct w as [|x w]; [discriminate|]. cbn [map] in H. inversion H; subst.
    pose proof (utf8_step_shorter _ _ _ _ E). cbn [length] in Hl.
    destruct (IH r' ltac:(lia) w H2) as [-> Hv]. apply utf8_step_some in E as [Hc E].
    split; [exact E | cbn [forallb]; rewrite Hc; exact Hv].
Qed.

Theorem convert_round_trip s : forallb valid_cp s = true ->
  exists b, convert_to_string s = Ok b /\ convert_from_string b = Ok s.
Proof.
  intros H. unfold convert_to_string, convert_from_string. rewrite H. eexists; split; [reflexivity|].
  rewrite utf8_dec_encs by exact H. rewrite all_some_map. reflexivity.
Qed.

Theorem convert_from_string_iff b s :
  convert_from_string b = Ok s <-> (b = utf8_encs s /\ forallb valid_cp s = true).
Proof.
  unfold convert_from_string. split.
  - destruct (all_some (utf8_dec b)) as [l|] eqn:E; [|discriminate]. intros H; inversion H; subst.
    apply all_some_inv in E. apply utf8_dec_inv; exact E.
  - intros [-> H]. rewrite utf8_dec_encs by exact H. rewrite all_some_map. reflexivity.
Qed.

Lemma convert_from_string_total b : (exists s, convert_from_string b = Ok s) \/ convert_from_string b = Throw RangeError.
Proof. unfold convert_from_string. destruct (all_some _); [left; eexists; reflexivity | right; reflexivity]. Qed.

(** ** UTF-16 *)
Lemma from_utf8_encs l : forallb valid_cp l = true -> from_utf8 (utf8_encs l) = flat_map utf16_enc l.
Proof.
  intros H. unfold from_utf8. rewrite utf8_dec_encs by exact H. induction l as [|c l IH]; cbn; [reflexivity|].
  cbn in H. apply andb_prop in H as [_ H]. rewrite IH by exact H. reflexivity.
Qed.

Lemma from_utf32_valid l : forallb valid_cp l = true -> from_utf32 l = flat_map utf16_enc l.
Proof.
  unfold from_utf32. induction l as [|c l IH]; cbn [flat_map forallb]; [reflexivity|].
  intros H. apply andb_prop in H as [Hc H]. rewrite Hc, IH by exact H. reflexivity.
Qed.

Definition cp_width (c : N) : nat := if (c <? 0x10000)%N then 1 else 2.

Lemma utf16_cps_enc c r : valid_cp c = true -> utf16_cps (utf16_enc c ++ r) = (c, cp_width c) :: utf16_cps r.
Proof.
  intros H. apply valid_cp_spec in H. unfold utf16_enc, cp_width. destruct (N.ltb_spec c 0x10000).
  - cbn [app utf16_cps]. replace (is_lead c) with false by (unfold is_lead; lia). reflexivity.
  - cbn [app utf16_cps].
    replace (is_lead (0xD800 + (c - 0x10000) / 1024)) with true by (unfold is_lead; lia).
    replace (is_trail (0xDC00 + (c - 0x10000) mod 1024)) with true by (unfold is_trail; lia).
    do 2 f_equal. unfold pair_cp. lia.
Qed.

Lemma utf16_cps_encs l : forallb valid_cp l = true -> utf16_cps (flat_map utf16_enc l) = map (fun c => (c, cp_width c)) l.
Proof.
  induction l as [|c l IH]; cbn [forallb flat_map map]; [reflexivity|]. intros H. apply andb_prop in H as [Hc H].
  rewrite utf16_cps_enc by exact Hc. rewrite IH by exact H. reflexivity.
Qed.

Lemma utf8_of_valid c : valid_cp c = true -> utf8_of_cp c = utf8_enc c.
Proof. unfold valid_cp, utf8_of_cp. destruct (is_surrogate c); [discriminate | reflexivity]. Qed.

Lemma to_utf8_encs l : forallb valid_cp l = true -> to_utf8 (flat_map utf16_enc l) = utf8_encs l.
Proof.
  intros H. unfold to_utf8, utf8_encs. rewrite utf16_cps_encs by exact H.
  induction l as [|c l IH]; cbn [flat_map map forallb] in *; [reflexivity|]. apply andb_prop in H as [Hc H].
  cbn [fst]. rewrite utf8_of_valid, IH by assumption. reflexivity.
Qed.

Lemma to_utf32_encs l : forallb valid_cp l = true -> to_utf32 (flat_map utf16_enc l) = l.
Proof.
  intros H. unfold to_utf32. rewrite utf16_cps_encs by exact H.
  induction l as [|c l IH]; cbn [map forallb] in *; [reflexivity|]. apply andb_prop in H as [Hc H].
  cbn [fst]. rewrite IH by exact H. unfold valid_cp in Hc. destruct (is_surrogate c); [discriminate | reflexivity].
Qed.

(** decoding always gives valid code points *)
Lemma utf8_dec_valid s c : In (Some c) (utf8_dec s) -> valid_cp c = true.
Proof.
  remember (length s) as n eqn:Hn. assert (length s <= n) as H by lia. clear Hn. revert s H.
  induction n as [|n IH]; intros s Hl Hi.
  - destruct s; [destruct Hi | cbn in Hl; lia].
  - destruct s as [|b r]; [destruct Hi|].
    destruct (utf8_step b r) as [x r'] eqn:E. rewrite (utf8_dec_cons _ _ _ _ E) in Hi.
    pose proof (utf8_step_shorter _ _ _ _ E). cbn [length] in Hl. destruct Hi as [->|Hi].
    + apply utf8_step_some in E as [Hc _]. exact Hc.
    + eapply IH; [|exact Hi]. lia.
Qed.

(** every string read by ICU is a sequence of valid code points *)
Definition fffd (o : option N) : N := match o with Some c => c | None => 0xFFFD%N end.
Lemma from_utf8_valid s : from_utf8 s = flat_map utf16_enc (map fffd (utf8_dec s)) /\ forallb valid_cp (map fffd (utf8_dec s)) = true.
Proof.
  split.
  - unfold from_utf8. rewrite !flat_map_concat_map, map_map. f_equal. apply map_ext. intros [c|]; reflexivity.
  - apply forallb_forall. intros x Hx. apply in_map_iff in Hx as ([c|] & <- & Hi); [eapply utf8_dec_valid; exact Hi | reflexivity].
Qed.

(** ** ASCII *)
Definition ascii (l : list N) : Prop := Forall (fun c => (c < 0x80)%N) l.

Lemma ascii_valid l : ascii l -> forallb valid_cp l = true.
Proof. intros H. apply forallb_forall. intros x Hx. unfold ascii in H. rewrite Forall_forall in H. specialize (H x Hx). apply valid_cp_spec. lia. Qed.

Lemma ascii_utf8 l : ascii l -> utf8_encs l = l.
Proof.
  induction 1 as [|c l Hc Hl IH]; [reflexivity|]. cbn [utf8_encs flat_map]. fold (utf8_encs l). rewrite IH.
  unfold utf8_enc. replace (c <? 0x80)%N with true by lia. reflexivity.
Qed.

Lemma ascii_utf16 l : ascii l -> flat_map utf16_enc l = l.
Proof.
  induction 1 as [|c l Hc Hl IH]; [reflexivity|]. cbn [flat_map]. rewrite IH.
  unfold utf16_enc. replace (c <? 0x10000)%N with true by lia. reflexivity.
Qed.

Lemma ascii_from_utf8 l : ascii l -> from_utf8 l = l.
Proof. intros H. rewrite <- (ascii_utf8 l H) at 1. rewrite from_utf8_encs by (apply ascii_valid; exact H). apply ascii_utf16; exact H. Qed.
Lemma ascii_from_utf32 l : ascii l -> from_utf32 l = l.
Proof. intros H. rewrite from_utf32_valid by (apply ascii_valid; exact H). apply ascii_utf16; exact H. Qed.
Lemma ascii_to_utf8 l : ascii l -> to_utf8 l = l.
Proof. intros H. rewrite <- (ascii_utf16 l H) at 1. rewrite to_utf8_encs by (apply ascii_valid; exact H). apply ascii_utf8; exact H. Qed.
Lemma ascii_to_utf32 l : ascii l -> to_utf32 l = l.
Proof. intros H. rewrite <- (ascii_utf16 l H) at 1. apply to_utf32_encs. apply ascii_valid; exact H. Qed.
Lemma ascii_convert l : ascii l -> convert_to_string l = Ok l.
Proof. intros H. unfold convert_to_string. rewrite ascii_valid, ascii_utf8 by exact H. reflexivity. Qed.
Lemma ascii_convert_from l : ascii l -> convert_from_string l = Ok l.
Proof. intros H. apply convert_from_string_iff. rewrite ascii_utf8 by exact H. split; [reflexivity | apply ascii_valid; exact H]. Qed.
Lemma ascii_app a b : ascii (a ++ b) <-> ascii a /\ ascii b.
Proof. apply Forall_app. Qed.
Lemma utf8_encs_app a b : utf8_encs (a ++ b) = utf8_encs a ++ utf8_encs b.
Proof. unfold utf8_encs. apply flat_map_app. Qed.
