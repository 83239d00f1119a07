(** Words of texts with added tokens. *)
From Verif Require Import Base BaseFacts Unicode UnicodeProofs Common Normalizer PreTokenizer WordPiece AddedVocab NormSpec PreSpec PreProofs AvSpec AvProofs ExtractProofs WpSpec WpProofs TzSpec RefSpec RefProofs MixSpec PropsAdded PropsOffsets.

(** ** Cutting at spaces *)
Definition splits_at_space (Q : nat -> wstr -> list (nat * wstr) -> Prop) : Prop :=
  (forall pos W, Q pos [] W -> W = []) /\ (forall pos, Q pos [] []) /\ (forall pos W, Q pos [32%N] W -> W = []) /\
  forall pos a b W, Forall printable (a ++ b) -> Q pos (a ++ b) W -> a <> [] -> b <> [] -> ((exists b', b = 32%N :: b') \/ a = [32%N]) -> exists W1 W2, W = W1 ++ W2 /\ Q pos a W1 /\ Q (pos + length a) b W2.

Lemma solid_prefix (P : N -> Prop) : forall (c s a b' : wstr) d, Forall P c -> ~ P d -> c ++ s = a ++ d :: b' -> exists a2, a = c ++ a2 /\ s = a2 ++ d :: b'.
Proof.
  induction c as [|x c IH]; intros s a b' d Hc Hd E; [exists a; auto|]. inversion Hc as [|? ? Hx Hc']; subst. destruct a as [|y a]; cbn [app] in E.
  - injection E as -> _. contradiction.
  - injection E as -> E. destruct (IH s a b' d Hc' Hd E) as (a2 & -> & ->). exists a2. auto.
Qed.
Lemma not_in_forall (c : wstr) : ~ In 32%N c -> Forall (fun x => x <> 32%N) c.
Proof. intros H. apply Forall_forall. intros x Hx ->. auto. Qed.

Lemma printable_units x : Forall printable x -> units x = length x.
Proof. intros H. unfold units. rewrite bmp_utf16 by (apply printable_bmp; exact H). reflexivity. Qed.

Lemma bert_splits sp pu : sp 32%N = true -> splits_at_space (bert_split sp pu).
Proof.
  intros Hsp. split; [|split; [|split]].
  - intros pos W H. apply (bert_split_fun sp pu pos [] W H). constructor.
  - constructor.
  - intros pos W H. apply (bert_split_fun sp pu pos _ W H). apply bs_space; [exact Hsp | constructor].
  - intros pos a b W Hp H. remember (a ++ b) as x eqn:Ex. revert a b Ex Hp. induction H as [pos|pos c s l Hc H IH|pos c s l Hc Hpu H IH|pos x s l Hx Hw Hm H IH]; intros a b Ex Hp Ha Hb Hcut.
    + symmetry in Ex. apply app_eq_nil in Ex as [-> _]. congruence.
    + destruct a as [|c' a]; [congruence|]. cbn [app] in Ex. injection Ex as <- ->. inversion Hp as [|? ? Hpc Hps]; subst. assert (Eu : units [c] = 1) by (apply (printable_units [c]); auto).
      destruct a as [|d a].
      * exists [], l. split; [reflexivity|]. split; [apply bs_space; [exact Hc | constructor]|]. rewrite Eu in H. exact H.
      * destruct (IH (d :: a) b eq_refl Hps) as (W1 & W2 & -> & I1 & I2); [discriminate | exact Hb | destruct Hcut as [K|K]; [left; exact K | discriminate]|].
        exists W1, W2. split; [reflexivity|]. split; [apply bs_space; assumption|]. rewrite Eu in I2. cbn [length] in *. replace (pos + S (S (length a))) with (pos + 1 + S (length a)) by lia. exact I2.
    + destruct a as [|c' a]; [congruence|]. cbn [app] in Ex. injection Ex as <- ->. inversion Hp as [|? ? Hpc Hps]; subst. assert (Eu : units [c] = 1) by (apply (printable_units [c]); auto).
      destruct a as [|d a].
      * exists [(pos, [c])], l. split; [reflexivity|]. split; [apply bs_punct; [exact Hc | exact Hpu | constructor]|]. rewrite Eu in H. exact H.
      * destruct (IH (d :: a) b eq_refl Hps) as (W1 & W2 & -> & I1 & I2); [discriminate | exact Hb | destruct Hcut as [K|K]; [left; exact K | injection K as -> _; congruence]|].
        exists ((pos, [c]) :: W1), W2. split; [reflexivity|]. split; [apply bs_punct; assumption|]. rewrite Eu in I2. cbn [length] in *. replace (pos + S (S (length a))) with (pos + 1 + S (length a)) by lia. exact I2.
    + destruct Hcut as [(b' & ->)| ->].
      2:{ exfalso. destruct x as [|c x]; [congruence|]. cbn [app] in Ex. injection Ex as -> _. inversion Hw as [|? ? [K _] _]. congruence. }
      destruct (solid_prefix (fun c => sp c = false /\ pu c = false) x s a b' 32%N Hw) as (a2 & -> & ->); [intros [K _]; congruence | exact Ex|].
      assert (Hpx : Forall printable x) by (apply Forall_app in Hp as [K _]; exact K). rewrite (printable_units x Hpx) in *.
      destruct a2 as [|d a2].
      * exists [(pos, x)], l. rewrite app_nil_r. split; [reflexivity|]. split; [|exact H].
        rewrite <- (app_nil_r x) at 1. apply bs_word; [exact Hx | exact Hw | exact I | constructor].
      * destruct (IH (d :: a2) (32%N :: b') eq_refl) as (W1 & W2 & -> & I1 & I2); [apply Forall_app in Hp as [_ K]; exact K | discriminate | discriminate | left; eauto|].
        exists ((pos, x) :: W1), W2. split; [reflexivity|]. split; [apply bs_word; [exact Hx | exact Hw | exact Hm | rewrite (printable_units x Hpx); exact I1]|].
        rewrite app_length, Nat.add_assoc. exact I2.
Qed.

Lemma fields_splits tok Q : splits_at_space (fields tok Q).
Proof.
  split; [|split; [|split]].
  - intros pos W H. remember (@nil N) as x eqn:Ex. destruct H as [pos|pos s l H|pos c s l Hc _ _ _ H|pos c s l1 l Hc _ _ _ _ H]; [reflexivity | discriminate | |]; apply app_eq_nil in Ex as [-> _]; congruence.
  - constructor.
  - intros pos W H. remember [32%N] as x eqn:Ex. destruct H as [pos|pos s l H|pos c s l Hc Hn _ _ H|pos c s l1 l Hc Hn _ _ _ H]; [discriminate | | |].
    + injection Ex as ->. remember (@nil N) as x eqn:Ex. destruct H as [p|p s l H|p c s l Hc _ _ _ H|p c s l1 l Hc _ _ _ _ H]; [reflexivity | discriminate | |]; apply app_eq_nil in Ex as [-> _]; congruence.
    + destruct c as [|x c]; [congruence|]. injection Ex as -> _. exfalso. apply Hn. left. reflexivity.
    + destruct c as [|x c]; [congruence|]. injection Ex as -> _. exfalso. apply Hn. left. reflexivity.
  - intros pos a b W _ H. remember (a ++ b) as x eqn:Ex. revert a b Ex. induction H as [pos|pos s l H IH|pos c s l Hc Hn Ht Hk H IH|pos c s l1 l Hc Hn Hs Hk HQ H IH]; intros a b Ex Ha Hb Hcut.
    + symmetry in Ex. apply app_eq_nil in Ex as [-> _]. congruence.
    + destruct a as [|c' a]; [congruence|]. cbn [app] in Ex. injection Ex as <- ->. destruct a as [|d a].
      * exists [], l. split; [reflexivity|]. split; [apply fd_space; constructor|]. cbn [length app] in *. rewrite Nat.add_1_r. exact H.
      * destruct (IH (d :: a) b eq_refl) as (W1 & W2 & -> & I1 & I2); [discriminate | exact Hb | destruct Hcut as [K|K]; [left; exact K | discriminate]|].
        exists W1, W2. split; [reflexivity|]. split; [apply fd_space; exact I1|]. cbn [length] in *. replace (pos + S (S (length a))) with (S pos + S (length a)) by lia. exact I2.
    + destruct Hcut as [(b' & ->)| ->].
      2:{ exfalso. destruct c as [|x c]; [congruence|]. cbn [app] in Ex. injection Ex as -> _. apply Hn. left. reflexivity. }
      destruct (solid_prefix (fun c => c <> 32%N) c s a b' 32%N (not_in_forall c Hn)) as (a2 & -> & ->); [congruence | exact Ex|].
      destruct a2 as [|d a2].
      * exists [(pos, c)], l. split; [reflexivity|]. rewrite app_nil_r. split; [|exact H]. rewrite <- (app_nil_r c) at 1. apply fd_token; [exact Hc | exact Hn | exact Ht | exact Hk | constructor].
      * destruct (IH (d :: a2) (32%N :: b') eq_refl) as (W1 & W2 & -> & I1 & I2); [discriminate | discriminate | left; eauto|].
        exists ((pos, c) :: W1), W2. split; [reflexivity|]. split; [apply fd_token; assumption|]. rewrite app_length, Nat.add_assoc. exact I2.
    + destruct Hcut as [(b' & ->)| ->].
      2:{ exfalso. destruct c as [|x c]; [congruence|]. cbn [app] in Ex. injection Ex as -> _. apply Hn. left. reflexivity. }
      destruct (solid_prefix (fun c => c <> 32%N) c s a b' 32%N (not_in_forall c Hn)) as (a2 & -> & ->); [congruence | exact Ex|].
      destruct a2 as [|d a2].
      * exists l1, l. split; [reflexivity|]. rewrite app_nil_r. split; [|exact H]. rewrite <- (app_nil_r c) at 1. rewrite <- (app_nil_r l1). apply fd_rest; [exact Hc | exact Hn | left; reflexivity | exact Hk | exact HQ | constructor].
      * destruct (IH (d :: a2) (32%N :: b') eq_refl) as (W1 & W2 & -> & I1 & I2); [discriminate | discriminate | left; eauto|].
        exists (l1 ++ W1), W2. split; [apply app_assoc|]. split; [apply fd_rest; try assumption; destruct Hs as [Hs|(s' & Hs)]; [discriminate | injection Hs as -> _; right; eauto]|]. rewrite app_length, Nat.add_assoc. exact I2.
Qed.

Lemma mapped_splits Q g : (forall c, printable c -> printable (g c)) -> g 32%N = 32%N -> splits_at_space Q -> splits_at_space (fun pos x W => Q pos (map g x) W).
Proof.
  intros Hg H32 (Q1 & Q2 & Q3 & Q4). split; [exact Q1|]. split; [exact Q2|]. split; [intros pos W H; cbn [map] in H; rewrite H32 in H; exact (Q3 pos W H)|].
  intros pos a b W Hp H Ha Hb Hcut. rewrite map_app in H. rewrite <- (map_length g a). apply Q4; [| exact H | | |].
  - rewrite <- map_app, Forall_map. eapply Forall_impl; [|exact Hp]. exact Hg.
  - destruct a; [congruence | discriminate].
  - destruct b; [congruence | discriminate].
  - destruct Hcut as [(b' & ->)| ->]; [left; exists (map g b'); cbn [map]; rewrite H32; reflexivity | right; cbn [map]; rewrite H32; reflexivity].
Qed.

(** ** From the recognised spans to the words *)
Inductive seg_words (Q : nat -> wstr -> list (nat * wstr) -> Prop) (u : wstr) : segmentation -> list (nat * wstr) -> Prop :=
| sw_nil : seg_words Q u [] []
| sw_token i a b segs W : seg_words Q u segs W -> seg_words Q u ((Some i, (a, b)) :: segs) ((a, slice u a b) :: W)
| sw_gap a b segs W1 W : Q a (slice u a b) W1 -> seg_words Q u segs W -> seg_words Q u ((None, (a, b)) :: segs) (W1 ++ W).

Lemma slice_app (u : ustr) a b c : a <= b -> b <= c -> slice u a c = slice u a b ++ slice u b c.
Proof.
  intros H1 H2. unfold slice. replace (c - a) with ((b - a) + (c - b)) by lia. assert (E : skipn b u = skipn (b - a) (skipn a u)) by (rewrite skipn_skipn'; f_equal; lia). rewrite E. generalize (skipn a u) (b - a) (c - b). clear. intros l n m.
  revert l. induction n as [|n IH]; intros l; [reflexivity|]. destruct l as [|x l]; cbn [Nat.add firstn skipn app]; [rewrite firstn_nil; reflexivity|]. rewrite IH. reflexivity.
Qed.
Lemma found_from known pos u l : found known pos u l -> match l with [] => True | (a, b, k) :: _ => pos <= a /\ a < b /\ b <= pos + length u end.
Proof.
  induction 1 as [pos|pos r l H IH|pos c r k l Hn Hs Hk Hm H IH|pos c r l Hn Hs Hr Hm H IH]; [exact I | | |].
  - destruct l as [|[[a b] k] l]; [exact I|]. cbn [length]. lia.
  - rewrite app_length. destruct c; [congruence|]. cbn [length]. lia.
  - destruct l as [|[[a b] k] l]; [exact I|]. rewrite app_length. lia.
Qed.

Section FoundFields.
Variables (tok : wstr -> Prop) (Q : nat -> wstr -> list (nat * wstr) -> Prop) (known : list (bytes * Z)) (u : wstr).
Hypothesis HQ : splits_at_space Q.
Hypothesis Hu : Forall printable u.
Hypothesis Htok : forall c, Forall printable c -> c <> [] -> (tok c <-> id_of known c <> None).

Lemma pull pos n l W : 0 < n -> pos + n <= length u -> match l with [] => True | (a, b, k) :: _ => pos + n <= a /\ a < b /\ b <= length u end ->
  (pos + n = length u \/ (exists r, skipn (pos + n) u = 32%N :: r) \/ slice u pos (pos + n) = [32%N]) ->
  seg_words Q u (plain_segs pos (length u) l) W -> exists W1 W2, W = W1 ++ W2 /\ Q pos (slice u pos (pos + n)) W1 /\ seg_words Q u (plain_segs (pos + n) (length u) l) W2.
Proof.
  intros Hn Hle Hl Hcut H. destruct HQ as (Q1 & Q2 & Q3 & Q4).
  assert (G : forall z W0, pos + n <= z -> z <= length u -> Q pos (slice u pos z) W0 -> exists W1 W2, W0 = W1 ++ W2 /\ Q pos (slice u pos (pos + n)) W1 /\ ((z = pos + n /\ W2 = []) \/ (pos + n < z /\ Q (pos + n) (slice u (pos + n) z) W2))).
  { intros z W0 Hz Hz' HQ0. destruct (Nat.eq_dec z (pos + n)) as [->|Nz]; [exists W0, []; rewrite app_nil_r; auto|].
    rewrite (slice_app u pos (pos + n) z) in HQ0 by lia. destruct (Q4 pos (slice u pos (pos + n)) (slice u (pos + n) z) W0) as (W1 & W2 & E & I1 & I2).
    - rewrite <- slice_app by lia. apply printable_slice. exact Hu.
    - exact HQ0.
    - intros E0. apply (f_equal (@length N)) in E0. rewrite slice_length in E0 by lia. cbn in E0. lia.
    - intros E0. apply (f_equal (@length N)) in E0. rewrite slice_length in E0 by lia. cbn in E0. lia.
    - destruct Hcut as [K|[(r & K)|K]]; [lia | left | right; exact K]. unfold slice. rewrite K. destruct (z - (pos + n)) as [|m] eqn:Em; [lia|]. cbn [firstn]. eauto.
    - exists W1, W2. split; [exact E|]. split; [exact I1|]. right. split; [lia|]. rewrite slice_length in I2 by lia. replace (pos + (pos + n - pos)) with (pos + n) in I2 by lia. exact I2. }
  destruct l as [|[[a b] k] l]; cbn [plain_segs] in *.
  - replace (pos =? length u) with false in H by lia. inversion H as [| |? ? ? W1 W' HQ0 H0]; subst. inversion H0; subst. destruct (G (length u) W1) as (X1 & X2 & -> & I1 & I2); [lia | lia | exact HQ0|].
    exists X1, (X2 ++ []). split; [rewrite app_assoc; reflexivity|]. split; [exact I1|]. destruct I2 as [[E ->]|[E I2]].
    + replace (pos + n =? length u) with true by lia. constructor.
    + replace (pos + n =? length u) with false by lia. apply sw_gap; [exact I2 | constructor].
  - destruct Hl as (L1 & L2 & L3). replace (pos <? a) with true in H by lia. cbn [app] in H. inversion H as [| |? ? ? W1 W' HQ0 H0]; subst. destruct (G a W1) as (X1 & X2 & -> & I1 & I2); [lia | lia | exact HQ0|].
    exists X1, (X2 ++ W'). split; [rewrite app_assoc; reflexivity|]. split; [exact I1|]. destruct I2 as [[-> ->]|[E I2]].
    + replace (pos + n <? pos + n) with false by lia. exact H0.
    + replace (pos + n <? a) with true by lia. apply sw_gap; [exact I2 | exact H0].
Qed.

Lemma id_none c : Forall printable c -> c <> [] -> id_of known c = None -> ~ tok c.
Proof. intros Hp Hn H K. apply Htok in K; congruence. Qed.
Lemma firstn_printable k c : Forall printable c -> Forall printable (firstn k c).
Proof. intros H. rewrite <- (firstn_skipn k c) in H. apply Forall_app in H. apply H. Qed.
Lemma firstn_some k (c : wstr) : c <> [] -> 0 < k -> firstn k c <> [].
Proof. destruct c, k; cbn; intros; try congruence; lia. Qed.

Lemma found_fields pos r l : found known pos r l -> r = skipn pos u -> pos + length r = length u -> forall W, seg_words Q u (plain_segs pos (length u) l) W -> fields tok Q pos r W.
Proof.
  induction 1 as [pos|pos r l H IH|pos c r k l Hn Hs Hk Hm H IH|pos c r l Hn Hs Hr Hm H IH]; intros Er El W HW.
  - cbn [length] in El. rewrite Nat.add_0_r in El. subst pos. cbn [plain_segs] in HW. rewrite Nat.eqb_refl in HW. inversion HW; subst. constructor.
  - cbn [length] in El. assert (Er' : r = skipn (S pos) u) by (rewrite <- Nat.add_1_r, <- skipn_skipn', <- Er; reflexivity).
    assert (Es : slice u pos (pos + 1) = [32%N]) by (unfold slice; replace (pos + 1 - pos) with 1 by lia; rewrite <- Er; reflexivity).
    pose proof (found_from _ _ _ _ H) as HF. destruct (pull pos 1 l W) as (W1 & W2 & -> & I1 & I2); [lia | lia | destruct l as [|[[a b] k] l]; [exact I | lia] | right; right; exact Es | exact HW|].
    rewrite Es in I1. destruct HQ as (_ & _ & Q3 & _). apply Q3 in I1. subst W1. cbn [app]. apply fd_space. apply IH; [exact Er' | lia|]. rewrite Nat.add_1_r in I2. exact I2.
  - rewrite app_length in El. assert (Er' : r = skipn (pos + length c) u) by (rewrite <- skipn_skipn', <- Er, skipn_app, skipn_all, Nat.sub_diag; reflexivity).
    assert (Hpc : Forall printable c). { assert (K : Forall printable (skipn pos u)) by (rewrite <- (firstn_skipn pos u) in Hu; apply Forall_app in Hu; apply Hu). rewrite <- Er in K. apply Forall_app in K. apply K. }
    cbn [plain_segs] in HW. replace (pos <? pos) with false in HW by lia. cbn [app] in HW. inversion HW as [|? ? ? ? W' HW'|]; subst.
    assert (Es : slice u pos (pos + length c) = c) by (unfold slice; rewrite <- Er; replace (pos + length c - pos) with (length c) by lia; rewrite firstn_app, Nat.sub_diag, firstn_all; cbn [firstn]; apply app_nil_r).
    rewrite Es. apply fd_token; [exact Hn | exact Hs | apply Htok; [exact Hpc | exact Hn | congruence] | | apply IH; [reflexivity | lia | exact HW']].
    intros j Hj. apply id_none; [apply firstn_printable; exact Hpc | apply firstn_some; [exact Hn | lia] | apply Hm; exact Hj].
  - rewrite app_length in El. assert (Er' : r = skipn (pos + length c) u) by (rewrite <- skipn_skipn', <- Er, skipn_app, skipn_all, Nat.sub_diag; reflexivity).
    assert (Hpc : Forall printable c). { assert (K : Forall printable (skipn pos u)) by (rewrite <- (firstn_skipn pos u) in Hu; apply Forall_app in Hu; apply Hu). rewrite <- Er in K. apply Forall_app in K. apply K. }
    assert (Es : slice u pos (pos + length c) = c) by (unfold slice; rewrite <- Er; replace (pos + length c - pos) with (length c) by lia; rewrite firstn_app, Nat.sub_diag, firstn_all; cbn [firstn]; apply app_nil_r).
    pose proof (found_from _ _ _ _ H) as HF. destruct (pull pos (length c) l W) as (W1 & W2 & -> & I1 & I2).
    + destruct c; [congruence | cbn; lia].
    + lia.
    + destruct l as [|[[a b] k] l]; [exact I | lia].
    + destruct Hr as [-> | (r' & ->)]; [left; cbn [length] in El; lia | right; left; eauto].
    + exact HW.
    + rewrite Es in I1. apply fd_rest; [exact Hn | exact Hs | exact Hr | | exact I1 | apply IH; [exact Er' | lia | exact I2]].
      intros j Hj. apply id_none; [apply firstn_printable; exact Hpc | apply firstn_some; [exact Hn | lia] | apply Hm; exact Hj].
Qed.
End FoundFields.
