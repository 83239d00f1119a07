(** C118: the conversions are UTF-8 and UTF-16 as the standards define them. *)
From Verif Require Import Base BaseFacts Unicode UnicodeProofs UtfSpec PropsDecoder.

Lemma number_acc l : forall a, fold_left (fun a (b : bool) => (2 * a + (if b then 1 else 0))%N) l a = (a * 2 ^ N.of_nat (length l) + number l)%N.
Proof.
  unfold number. induction l as [|b l IH]; intros a; [cbn; lia|].
  cbn [fold_left length]. rewrite IH, (IH (2 * 0 + _)%N), Nat2N.inj_succ, N.pow_succ_r'. destruct b; nia.
Qed.
Lemma number_app a b : number (a ++ b) = (number a * 2 ^ N.of_nat (length b) + number b)%N.
Proof. unfold number at 1. rewrite fold_left_app, number_acc. reflexivity. Qed.
Lemma number_lt l : (number l < 2 ^ N.of_nat (length l))%N.
Proof.
  induction l as [|b l IH]; [cbn; lia|]. change (b :: l) with ([b] ++ l). rewrite number_app. cbn [app length]. rewrite Nat2N.inj_succ, N.pow_succ_r'.
  destruct b; [change (number [true]) with 1%N | change (number [false]) with 0%N]; lia.
Qed.
Lemma number_of l k : length l = k -> (number l < 2 ^ N.of_nat k)%N.
Proof. intros <-. apply number_lt. Qed.
Lemma bits k : forall n, (n < 2 ^ N.of_nat k)%N -> exists l, length l = k /\ number l = n.
Proof.
  induction k as [|k IH]; intros n H; [exists []; cbn in *; split; [reflexivity | lia]|].
  rewrite Nat2N.inj_succ, N.pow_succ_r' in H. destruct (IH (n / 2)%N) as (l & L1 & L2); [apply N.div_lt_upper_bound; lia|].
  exists (l ++ [N.odd n]). rewrite app_length, L1. split; [cbn; lia|]. rewrite number_app, L2. cbn [length]. change (2 ^ N.of_nat 1)%N with 2%N.
  assert (Hn : n = (2 * (n / 2) + n mod 2)%N) by (apply N.div_mod; lia). rewrite <- N.bit0_mod, N.bit0_odd in Hn.
  destruct (N.odd n); [change (number [true]) with 1%N | change (number [false]) with 0%N]; cbn [N.b2n] in Hn; lia.
Qed.
Ltac small := change (2 ^ N.of_nat 3)%N with 8%N in *; change (2 ^ N.of_nat 4)%N with 16%N in *; change (2 ^ N.of_nat 5)%N with 32%N in *; change (2 ^ N.of_nat 6)%N with 64%N in *; change (2 ^ N.of_nat 7)%N with 128%N in *; change (2 ^ N.of_nat 10)%N with 1024%N in *; change (2 ^ N.of_nat (6 + 6))%N with 4096%N in *; change (2 ^ N.of_nat (6 + (6 + 6)))%N with 262144%N in *.
Ltac heads := change (number [true; false]) with 2%N in *; change (number [true; true; false]) with 6%N in *; change (number [true; true; true; false]) with 14%N in *; change (number [true; true; true; true; false]) with 30%N in *;
  change (number [true; true; false; true; true; false]) with 54%N in *; change (number [true; true; false; true; true; true]) with 55%N in *; change (number [false]) with 0%N in *.
Lemma utf8_row_sound c b : utf8_row c b -> valid_cp c = true /\ b = utf8_enc c.
Proof.
  intros H. destruct H as [x Hx | x y Hx Hy Hc | x y z Hx Hy Hz Hc Hs | x y z w Hx Hy Hz Hw Hc].
  - pose proof (number_of _ _ Hx) as Bx. change (false :: x) with ([false] ++ x). rewrite valid_cp_spec, number_app, Hx. heads. small. remember (number x) as a.
    unfold utf8_enc. destruct (N.ltb_spec a 0x80); [|lia]. split; [lia | f_equal; lia].
  - pose proof (number_of _ _ Hx) as Bx. pose proof (number_of _ _ Hy) as By. rewrite valid_cp_spec, !number_app in *. rewrite ?app_length in *. rewrite Hx, Hy in *. heads. small.
    remember (number x) as a. remember (number y) as a'. unfold utf8_enc. destruct (N.ltb_spec (a * 64 + a') 0x80); [lia|]. destruct (N.ltb_spec (a * 64 + a') 0x800); [|lia].
    split; [lia|]. f_equal; [|f_equal]; lia.
  - pose proof (number_of _ _ Hx) as Bx. pose proof (number_of _ _ Hy) as By. pose proof (number_of _ _ Hz) as Bz. rewrite valid_cp_spec, !number_app in *. rewrite ?app_length in *. rewrite Hx, Hy, Hz in *. heads. small.
    remember (number x) as a. remember (number y) as a'. remember (number z) as a''. unfold utf8_enc. destruct (N.ltb_spec (a * 4096 + (a' * 64 + a'')) 0x80); [lia|]. destruct (N.ltb_spec (a * 4096 + (a' * 64 + a'')) 0x800); [lia|].
    destruct (N.ltb_spec (a * 4096 + (a' * 64 + a'')) 0x10000); [|lia].
    split; [lia|]. f_equal; [|f_equal; [|f_equal]]; lia.
  - pose proof (number_of _ _ Hx) as Bx. pose proof (number_of _ _ Hy) as By. pose proof (number_of _ _ Hz) as Bz. pose proof (number_of _ _ Hw) as Bw. rewrite valid_cp_spec, !number_app in *. rewrite ?app_length in *. rewrite Hx, Hy, Hz, Hw in *. heads. small.
    remember (number x) as a. remember (number y) as a'. remember (number z) as a''. remember (number w) as d. unfold utf8_enc.
    destruct (N.ltb_spec (a * 262144 + (a' * 4096 + (a'' * 64 + d))) 0x80); [lia|]. destruct (N.ltb_spec (a * 262144 + (a' * 4096 + (a'' * 64 + d))) 0x800); [lia|].
    destruct (N.ltb_spec (a * 262144 + (a' * 4096 + (a'' * 64 + d))) 0x10000); [lia|].
    split; [lia|]. f_equal; [|f_equal; [|f_equal; [|f_equal]]]; lia.
Qed.
Lemma utf8_row_complete c : valid_cp c = true -> utf8_row c (utf8_enc c).
Proof.
  intros V. apply valid_cp_spec in V.
  assert (R : exists b, utf8_row c b).
  { destruct (N.ltb_spec c 0x80) as [L1|L1]; [|destruct (N.ltb_spec c 0x800) as [L2|L2]; [|destruct (N.ltb_spec c 0x10000) as [L3|L3]]].
    - destruct (bits 7 c) as (x & Hx & Hn); [small; lia|]. eexists. rewrite <- Hn. apply row1. exact Hx.
    - destruct (bits 5 (c / 64)%N) as (x & Hx & Nx); [small; lia|]. destruct (bits 6 (c mod 64)%N) as (y & Hy & Ny); [small; lia|].
      assert (E : number (x ++ y) = c) by (rewrite number_app, Hy, Nx, Ny; small; lia). eexists. rewrite <- E. apply row2; [exact Hx | exact Hy | rewrite E; lia].
    - destruct (bits 4 (c / 4096)%N) as (x & Hx & Nx); [small; lia|]. destruct (bits 6 ((c / 64) mod 64)%N) as (y & Hy & Ny); [small; lia|]. destruct (bits 6 (c mod 64)%N) as (z & Hz & Nz); [small; lia|].
      assert (E : number (x ++ y ++ z) = c) by (rewrite !number_app, app_length, Hy, Hz, Nx, Ny, Nz; small; lia). eexists. rewrite <- E. apply row3; [exact Hx | exact Hy | exact Hz | rewrite E; lia..].
    - destruct (bits 3 (c / 262144)%N) as (x & Hx & Nx); [small; lia|]. destruct (bits 6 ((c / 4096) mod 64)%N) as (y & Hy & Ny); [small; lia|]. destruct (bits 6 ((c / 64) mod 64)%N) as (z & Hz & Nz); [small; lia|]. destruct (bits 6 (c mod 64)%N) as (w & Hw & Nw); [small; lia|].
      assert (E : number (x ++ y ++ z ++ w) = c) by (rewrite !number_app, !app_length, Hy, Hz, Hw, Nx, Ny, Nz, Nw; small; lia). eexists. rewrite <- E. apply row4; [exact Hx | exact Hy | exact Hz | exact Hw | rewrite E; lia]. }
  destruct R as [b R]. destruct (utf8_row_sound _ _ R) as [_ ->]. exact R.
Qed.
Lemma utf16_row_sound c b : utf16_row c b -> valid_cp c = true /\ b = utf16_enc c.
Proof.
  intros H. destruct H as [c Hc | y x Hy Hx].
  - rewrite valid_cp_spec. unfold utf16_enc. destruct (N.ltb_spec c 0x10000); [|lia]. split; [lia | reflexivity].
  - pose proof (number_of _ _ Hx) as Bx. pose proof (number_of _ _ Hy) as By. rewrite valid_cp_spec, !number_app, Hx, Hy. heads. small. remember (number x) as a. remember (number y) as a'.
    unfold utf16_enc. destruct (N.ltb_spec (0x10000 + (a' * 1024 + a)) 0x10000); [lia|]. split; [lia|]. f_equal; [|f_equal]; lia.
Qed.
Lemma utf16_row_complete c : valid_cp c = true -> utf16_row c (utf16_enc c).
Proof.
  intros V. apply valid_cp_spec in V.
  assert (R : exists b, utf16_row c b).
  { destruct (N.ltb_spec c 0x10000) as [L|L]; [eexists; apply unit1; lia|].
    destruct (bits 10 ((c - 0x10000) / 1024)%N) as (y & Hy & Ny); [small; lia|]. destruct (bits 10 ((c - 0x10000) mod 1024)%N) as (x & Hx & Nx); [small; lia|].
    assert (E : (0x10000 + number (y ++ x))%N = c) by (rewrite number_app, Hx, Nx, Ny; small; lia). eexists. rewrite <- E. apply unit2; assumption. }
  destruct R as [b R]. destruct (utf16_row_sound _ _ R) as [_ ->]. exact R.
Qed.
Lemma spelled_iff (row : N -> list N -> Prop) enc : (forall c b, row c b -> valid_cp c = true /\ b = enc c) -> (forall c, valid_cp c = true -> row c (enc c)) ->
  forall s b, spelled row s b <-> forallb valid_cp s = true /\ b = flat_map enc s.
Proof.
  intros S C s b. split.
  - intros (rows & F & ->). induction F as [|c r s rows H F IH]; [split; reflexivity|]. destruct (S _ _ H) as [V ->], IH as [IH1 IH2]. cbn. rewrite V, IH1, IH2. split; reflexivity.
  - intros [V ->]. exists (map enc s). split; [|rewrite flat_map_concat_map; reflexivity]. induction s as [|c s IH]; cbn in *; [constructor|]. apply andb_true_iff in V as [V1 V2]. constructor; auto.
Qed.
Lemma spelled8 s b : spelled utf8_row s b <-> forallb valid_cp s = true /\ b = utf8_encs s.
Proof. apply (spelled_iff utf8_row utf8_enc utf8_row_sound utf8_row_complete). Qed.
Lemma spelled16 s b : spelled utf16_row s b <-> forallb valid_cp s = true /\ b = flat_map utf16_enc s.
Proof. apply (spelled_iff utf16_row utf16_enc utf16_row_sound utf16_row_complete). Qed.

(** Both conversions of common.cpp follow the table, in both directions, and everything else throws. *)
Theorem C118_utf8 : forall s b, (convert_to_string s = Ok b <-> spelled utf8_row s b) /\ (convert_from_string b = Ok s <-> spelled utf8_row s b) /\
  ((~ exists b', spelled utf8_row s b') -> convert_to_string s = Throw RangeError) /\ ((~ exists s', spelled utf8_row s' b) -> convert_from_string b = Throw RangeError).
Proof.
  assert (T : forall s b, convert_to_string s = Ok b <-> spelled utf8_row s b).
  { intros s b. rewrite spelled8. unfold convert_to_string. destruct (forallb valid_cp s); split; [intros [= <-]; auto | intros [_ ->]; reflexivity | discriminate | intros [H _]; discriminate]. }
  intros s b. split; [apply T|]. split; [rewrite <- T; apply C76_utf8_rejects_everything_else|]. split.
  - intros N. unfold convert_to_string. destruct (forallb valid_cp s) eqn:E; [|reflexivity]. exfalso. apply N. exists (utf8_encs s). apply spelled8. auto.
  - intros N. apply (proj2 (C76_utf8_rejects_everything_else b)). intros s' H. apply N. exists s'. apply T. exact H.
Qed.
Print Assumptions C118_utf8.

(** The table is a code: a byte string spells at most one text, and a text has at most one spelling. *)
Theorem C118_unique : forall s s' b b', (spelled utf8_row s b -> spelled utf8_row s' b -> s = s') /\ (spelled utf8_row s b -> spelled utf8_row s b' -> b = b').
Proof.
  intros s s' b b'. split; intros H H'.
  - apply (proj2 (C118_utf8 s b)) in H. apply (proj2 (C118_utf8 s' b)) in H'. congruence.
  - apply spelled8 in H as [_ ->]. apply spelled8 in H' as [_ ->]. reflexivity.
Qed.
Print Assumptions C118_unique.

(** icu::UnicodeString: from a wide string, from UTF-8 and back, on every text. *)
Theorem C118_utf16 : forall s b u, spelled utf8_row s b -> spelled utf16_row s u -> from_utf32 s = u /\ from_utf8 b = u /\ to_utf8 u = b /\ to_utf32 u = s /\
  length u = list_sum (map (fun c => if (0x10000 <=? c)%N then 2 else 1) s).
Proof.
  intros s b u H H'. apply spelled8 in H as [V ->]. apply spelled16 in H' as [_ ->].
  split; [apply from_utf32_valid, V|]. split; [apply from_utf8_encs, V|]. split; [apply to_utf8_encs, V|]. split; [apply to_utf32_encs, V|].
  clear V. induction s as [|c s IH]; [reflexivity|]. cbn [flat_map map list_sum fold_right]. rewrite app_length, IH. change (list_sum (map _ s)) with (fold_right Nat.add 0 (map (fun c => if (0x10000 <=? c)%N then 2 else 1) s)).
  f_equal. unfold utf16_enc. destruct (N.ltb_spec c 0x10000), (N.leb_spec 0x10000 c); try lia; reflexivity.
Qed.
Print Assumptions C118_utf16.

(** Every text has both spellings exactly when no element is a surrogate or above 10FFFF. *)
Theorem C118_exists : forall s, Forall (fun c => c < 0xD800 \/ 0xE000 <= c <= 0x10FFFF)%N s <-> (exists b, spelled utf8_row s b) /\ (exists u, spelled utf16_row s u).
Proof.
  intros s. transitivity (forallb valid_cp s = true).
  - rewrite forallb_forall, Forall_forall. split; intros H c Hc; apply valid_cp_spec; auto.
  - split; [intros V; split; eexists; [apply spelled8 | apply spelled16]; auto | intros [[b H] _]; apply spelled8 in H; tauto].
Qed.
Print Assumptions C118_exists.

(** The euro sign is 0010 000010 101100: E2 82 AC; U+1F600 is the pair D83D DE00; C0 80 and ED A0 80 spell nothing. *)
Example C118_case : spelled utf8_row [0x20AC; 0x1F600]%N [0xE2; 0x82; 0xAC; 0xF0; 0x9F; 0x98; 0x80]%N /\ spelled utf16_row [0x20AC; 0x1F600]%N [0x20AC; 0xD83D; 0xDE00]%N /\
  convert_from_string [0xC0; 0x80]%N = Throw RangeError /\ convert_from_string [0xED; 0xA0; 0x80]%N = Throw RangeError /\ (~ exists s, spelled utf8_row s [0xC0; 0x80]%N).
Proof.
  split; [apply spelled8; split; reflexivity|]. split; [apply spelled16; split; reflexivity|]. split; [reflexivity|]. split; [reflexivity|].
  intros [s H]. apply (proj2 (C118_utf8 s _)) in H. discriminate.
Qed.
