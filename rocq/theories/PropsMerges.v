(** C116: the texts of merge rules. *)
From Verif Require Import Base Common PreTokenizer WordPiece Bpe BpeSpec BpeProofs BpeWord MergeSpec.
From Coq Require Import Lia ZArith.
From Verif Require Import BaseFacts.

Lemma skip_spec l : exists s, l = s ++ skip_spaces l /\ Forall white s.
Proof.
  induction l as [|x l (s & Hl & Hs)]; [exists []; split; [reflexivity | constructor]|]. cbn [skip_spaces].
  destruct (is_space_ascii x) eqn:E; [|exists []; split; [reflexivity | constructor]].
  exists (x :: s). split; [cbn [app]; f_equal; exact Hl | constructor; [apply space_white; exact E | exact Hs]].
Qed.
Lemma take_spec l : l = fst (take_word l) ++ snd (take_word l) /\ Forall (fun x => ~ white x) (fst (take_word l)) /\
  (snd (take_word l) = [] \/ exists x r, snd (take_word l) = x :: r /\ white x).
Proof.
  induction l as [|x l (H1 & H2 & H3)]; [split; [reflexivity|]; split; [constructor | left; reflexivity]|]. cbn [take_word].
  destruct (is_space_ascii x) eqn:E.
  - cbn [fst snd]. split; [reflexivity|]. split; [constructor|]. right. exists x, l. split; [reflexivity | apply space_white; exact E].
  - destruct (take_word l) as [a b]. cbn [fst snd] in *. split; [cbn [app]; f_equal; exact H1|]. split; [constructor; [apply space_black; exact E | exact H2] | exact H3].
Qed.
Lemma skip_white s l : Forall white s -> skip_spaces (s ++ l) = skip_spaces l.
Proof. induction 1 as [|x s Hx H IH]; [reflexivity|]. cbn [app skip_spaces]. apply space_white in Hx. rewrite Hx. exact IH. Qed.

Lemma two_fields_iff line pq : two_fields line = Some pq <-> rule_text line pq.
Proof.
  split.
  - unfold two_fields. intros H. destruct (skip_spec line) as (s1 & E1 & W1). pose proof (take_spec (skip_spaces line)) as (E2 & W2 & R2).
    destruct (take_word (skip_spaces line)) as [p r]. cbn [fst snd] in *.
    destruct (skip_spec r) as (s2 & E3 & W3). pose proof (take_spec (skip_spaces r)) as (E4 & W4 & R4).
    destruct (take_word (skip_spaces r)) as [q rest]. cbn [fst snd] in *.
    destruct p as [|x p]; [discriminate|]. destruct q as [|y q]; [discriminate|]. cbn [is_nil orb] in H. inversion H; subst pq; clear H.
    exists s1, s2, rest. cbn [fst snd]. split; [rewrite E1 at 1; rewrite E2, E3 at 1; rewrite E4; reflexivity|].
    split; [exact W1|]. split; [exact W3|]. split; [|split; [split; [discriminate | exact W2]|split; [split; [discriminate | exact W4] | exact R4]]].
    intros ->. cbn [app] in E3. rewrite E4 in E3. destruct R2 as [R|(z & r' & R & Wz)]; rewrite R in E3; [discriminate|].
    rewrite <- app_comm_cons in E3. assert (z = y) by congruence. subst z. apply Forall_inv in W4. exact (W4 Wz).
  - destruct pq as [p q]. intros (s1 & s2 & rest & E & W1 & W2 & N2 & F1 & F2 & R). cbn [fst snd] in *. subst line. unfold two_fields.
    rewrite skip_white by exact W1. rewrite skip_spaces_field by exact F1. rewrite take_word_field.
    2:{ apply F1. } 2:{ right. destruct W2 as [|x s2 Wx W2]; [congruence|]. exists x, (s2 ++ q ++ rest). split; [reflexivity | exact Wx]. }
    rewrite skip_white by exact W2. rewrite skip_spaces_field by exact F2. rewrite take_word_field; [|apply F2 | exact R].
    destruct F1 as [F1 _], F2 as [F2 _]. destruct p; [congruence|]. destruct q; [congruence|]. reflexivity.
Qed.

Lemma gives_iff vocab pre line a b n : gives vocab (length pre) line a b n <-> defines vocab pre line a b n.
Proof.
  unfold gives, defines, rule_gives. split.
  - intros ([p q] & H & H1 & H2 & H3). exists p, q. rewrite <- two_fields_iff. auto.
  - intros (p & q & H & H1 & H2 & H3). exists (p, q). rewrite two_fields_iff. auto.
Qed.

(** The pair of ids (x, y) merges with rank r into n exactly when line number r is the first line that defines it; the lines are arbitrary texts, and those that define nothing still count. *)
Theorem C116_table : forall vocab lines d unk pre suf fu bf ig b,
  new_bpe vocab lines d unk pre suf fu bf ig = Ok b ->
  forall x y r n, mfind x y (b_merges b) = Some (r, n) <-> exists k, r = Z.of_nat k /\ first_line vocab pre lines x y k n.
Proof.
  intros vocab lines d unk pre suf fu bf ig b Hb x y r n. apply new_bpe_vocab in Hb as (Hm & _). rewrite (build_merges_spec _ _ _ _ _ _ Hm x y r n). split.
  - intros [H|(_ & k & line & Hr & Hk & Hg & Hmin)]; [discriminate|]. exists k. split; [lia|]. split.
    + exists line. split; [exact Hk | apply gives_iff; exact Hg].
    + intros k' line' n' Hlt Hl' Hd. apply (Hmin k' line' n' Hlt Hl'). apply gives_iff. exact Hd.
  - intros (k & Hr & (line & Hk & Hd) & Hmin). right. split; [reflexivity|]. exists k, line. split; [lia|]. split; [exact Hk|]. split; [apply gives_iff; exact Hd|].
    intros k' line' n' Hlt Hl' Hg. apply (Hmin k' line' n' Hlt Hl'). apply gives_iff. exact Hg.
Qed.
Print Assumptions C116_table.

(** The two parts of a line are determined by the line. *)
Theorem C116_parts : forall line p q p' q', rule_text line (p, q) -> rule_text line (p', q') -> p = p' /\ q = q'.
Proof. intros line p q p' q' H H'. apply two_fields_iff in H, H'. split; congruence. Qed.
Print Assumptions C116_parts.

Lemma build_outcome vocab pre l : forall i m,
  (exists m', build_merges vocab (length pre) i l m = Ok m' /\ forall line, In line l -> ~ too_short vocab pre line) \/
  (build_merges vocab (length pre) i l m = Throw OutOfRange /\ exists line, In line l /\ too_short vocab pre line).
Proof.
  induction l as [|line l IH]; intros i m; cbn [build_merges].
  - left. exists m. split; [reflexivity | intros ? []].
  - assert (Hc : forall m1, ~ too_short vocab pre line ->
      (exists m', build_merges vocab (length pre) (i + 1) l m1 = Ok m' /\ forall x, In x (line :: l) -> ~ too_short vocab pre x) \/
      (build_merges vocab (length pre) (i + 1) l m1 = Throw OutOfRange /\ exists x, In x (line :: l) /\ too_short vocab pre x)).
    { intros m1 Hn. destruct (IH (i + 1)%Z m1) as [(m' & H & Hl)|(H & x & Hx & Ht)].
      - left. exists m'. split; [exact H|]. intros x [<-|Hx]; [exact Hn | exact (Hl x Hx)].
      - right. split; [exact H|]. exists x. split; [right; exact Hx | exact Ht]. }
    destruct (two_fields line) as [[p q]|] eqn:E; cbn [bind].
    2:{ apply Hc. intros (p & q & a & b & H & _). apply two_fields_iff in H. congruence. }
    assert (Hu : forall p' q', rule_text line (p', q') -> p' = p /\ q' = q).
    { intros p' q' H. apply two_fields_iff in H. split; congruence. }
    destruct (sfind p vocab) as [a|] eqn:Ep.
    2:{ apply Hc. intros (p' & q' & a & b & H & H1 & _). destruct (Hu _ _ H) as [-> ->]. congruence. }
    destruct (sfind q vocab) as [b|] eqn:Eq.
    2:{ apply Hc. intros (p' & q' & a' & b & H & _ & H1 & _). destruct (Hu _ _ H) as [-> ->]. congruence. }
    destruct (length q <? length pre) eqn:El.
    + right. split; [reflexivity|]. exists line. split; [left; reflexivity|]. exists p, q, a, b. apply Nat.ltb_lt in El. split; [apply two_fields_iff; exact E|]. auto.
    + assert (Hn : ~ too_short vocab pre line).
      { intros (p' & q' & a' & b' & H & _ & _ & H1). destruct (Hu _ _ H) as [-> ->]. apply Nat.ltb_ge in El. lia. }
      destruct (sfind (p ++ skipn (length pre) q) vocab); cbn [bind]; apply Hc; exact Hn.
Qed.

(** Building the model fails, with an out-of-range exception, exactly when some line is too short; the merge rules are never refused for another reason. *)
Theorem C116_outcome : forall vocab lines d unk pre suf fu bf ig,
  ((exists b, new_bpe vocab lines d unk pre suf fu bf ig = Ok b) <-> forall line, In line lines -> ~ too_short vocab pre line) /\
  (new_bpe vocab lines d unk pre suf fu bf ig = Throw OutOfRange <-> exists line, In line lines /\ too_short vocab pre line).
Proof.
  intros. unfold new_bpe. destruct (build_outcome vocab pre lines 0%Z []) as [(m & H & Hl)|(H & x & Hx & Ht)]; rewrite H; cbn [bind].
  - split; split; intros A; [exact Hl | eexists; reflexivity | discriminate|]. destruct A as (x & Hx & Ht). destruct (Hl x Hx Ht).
  - split; split; intros A; [destruct A; discriminate | destruct (A x Hx Ht) | exists x; auto | reflexivity].
Qed.
Print Assumptions C116_outcome.

(** Two rule lists that agree line by line up to white space and to what follows the second field give the same model; so does adding lines that define nothing at the end. *)
Theorem C116_same : forall vocab lines lines' d unk pre suf fu bf ig,
  Forall2 (fun l l' => forall pq, rule_text l pq <-> rule_text l' pq) lines lines' ->
  new_bpe vocab lines d unk pre suf fu bf ig = new_bpe vocab lines' d unk pre suf fu bf ig.
Proof.
  intros vocab lines lines' d unk pre suf fu bf ig H. unfold new_bpe.
  assert (G : forall i m, build_merges vocab (length pre) i lines m = build_merges vocab (length pre) i lines' m).
  { induction H as [|l l' ls ls' Hl H IH]; intros i m; [reflexivity|]. cbn [build_merges].
    assert (Et : two_fields l = two_fields l').
    { destruct (two_fields l) as [pq|] eqn:E; destruct (two_fields l') as [pq'|] eqn:E'; [|..|reflexivity].
      - apply two_fields_iff, Hl, two_fields_iff in E. congruence.
      - apply two_fields_iff, Hl, two_fields_iff in E. congruence.
      - apply two_fields_iff, Hl, two_fields_iff in E'. congruence. }
    rewrite Et. destruct (two_fields l') as [[p q]|]; cbn [bind]; [|apply IH].
    destruct (sfind p vocab), (sfind q vocab); cbn [bind]; try apply IH. destruct (length q <? length pre); cbn [bind]; [reflexivity|].
    destruct (sfind (p ++ skipn (length pre) q) vocab); cbn [bind]; apply IH. }
  rewrite G. reflexivity.
Qed.
Print Assumptions C116_same.

(** Cases: a version comment, a line with tabs and trailing text, a line with one field; only the second defines a merge, with rank 1. *)
Definition merge_case_vocab : smap Z := [(str "a", 0%Z); (str "b", 1%Z); (str "ab", 2%Z)].
Definition merge_case_lines : list bytes := [str "#version: 0.2"; ([9; 97; 32; 9; 98; 13] ++ str "x y")%N; str "ab"].
Lemma C116_case : exists b, new_bpe merge_case_vocab merge_case_lines (QArith_base.Qmake 0 1) [] [] [] false false false = Ok b /\
  b_merges b = [((0, 1), (1, 2))]%Z /\ rule_text (nth 1 merge_case_lines []) (str "a", str "b") /\ (forall pq, ~ rule_text (nth 2 merge_case_lines []) pq).
Proof.
  eexists. split; [vm_compute; reflexivity|]. split; [reflexivity|]. split; [apply two_fields_iff; vm_compute; reflexivity|].
  intros pq H. apply two_fields_iff in H. vm_compute in H. discriminate.
Qed.
Lemma C116_short_case : new_bpe [(str "a", 0%Z); (str "b", 1%Z)] [str "a b"] (QArith_base.Qmake 0 1) [] (str "##") [] false false false = Throw OutOfRange /\
  too_short [(str "a", 0%Z); (str "b", 1%Z)] (str "##") (str "a b").
Proof. split; [vm_compute; reflexivity|]. exists (str "a"), (str "b"), 0%Z, 1%Z. split; [apply two_fields_iff; vm_compute; reflexivity|]. split; [reflexivity|]. split; [reflexivity|]. cbn. lia. Qed.
Lemma C116_same_case : Forall2 (fun l l' => forall pq, rule_text l pq <-> rule_text l' pq) [str "a b"] [str "  a  b c"].
Proof.
  constructor; [|constructor]. intros pq. rewrite <- !two_fields_iff.
  replace (two_fields (str "  a  b c")) with (two_fields (str "a b")) by reflexivity. tauto.
Qed.
