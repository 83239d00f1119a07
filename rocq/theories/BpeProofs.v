From Verif Require Import Base BaseFacts Common Bpe BpeSpec.
From Coq Require Import Permutation Relations Sorted ZifyBool ZifyNat.
From Coq Require QArith_base.

(** ** The linked array invariant *)
Definition live (w : list symbol) (i : nat) : Prop := exists s, nth_error w i = Some s /\ 0 < s_len s.

Definition pred_of (idx : list nat) (k : nat) : option nat := match k with O => None | S j => nth_error idx j end.

Record Inv (w : list symbol) (idx : list nat) : Prop := {
  inv_sorted : StronglySorted lt idx;
  inv_live : forall i, In i idx <-> live w i;
  inv_link : forall k i, nth_error idx k = Some i ->
      exists s, nth_error w i = Some s /\ 0 < s_len s /\ s_prev s = pred_of idx k /\ s_next s = nth_error idx (S k)
}.

Definition look (w : list symbol) (i : nat) : Z * nat :=
  match nth_error w i with Some s => (s_c s, s_len s) | None => (0%Z, 0) end.
Definition abs (w : list symbol) (idx : list nat) : seqn := map (look w) idx.

Lemma sorted_nodup idx : StronglySorted lt idx -> NoDup idx.
Proof.
  induction 1 as [|a l Hs IH Hf]; constructor; [|exact IH]. intros Hi. rewrite Forall_forall in Hf. specialize (Hf a Hi). lia.
Qed.

Lemma sorted_unique l1 l2 : StronglySorted lt l1 -> StronglySorted lt l2 -> (forall i, In i l1 <-> In i l2) -> l1 = l2.
Proof.
  intros H1; revert l2; induction H1 as [|a l1 Hs IH Hf]; intros l2 H2 Hi.
  - destruct l2 as [|b l2]; [reflexivity|]. exfalso. apply (Hi b). left; reflexivity.
  - destruct H2 as [|b l2 Hs2 Hf2]; [exfalso; apply (Hi a); left; reflexivity|].
    rewrite Forall_forall in Hf, Hf2.
    assert (a = b).
    { destruct (proj1 (Hi a) (or_introl eq_refl)) as [E|H]; [congruence|].
      destruct (proj2 (Hi b) (or_introl eq_refl)) as [E|H']; [congruence|].
      specialize (Hf b H'). specialize (Hf2 a H). lia. }
    subst b. f_equal. apply IH; [exact Hs2|]. intros i. split; intros H.
    + destruct (proj1 (Hi i) (or_intror H)) as [E|H']; [|exact H']. subst. specialize (Hf i H). lia.
    + destruct (proj2 (Hi i) (or_intror H)) as [E|H']; [|exact H']. subst. specialize (Hf2 i H). lia.
Qed.

Definition liveb (w : list symbol) (i : nat) : bool := match nth_error w i with Some s => negb (s_len s =? 0) | None => false end.

Lemma liveb_spec w i : liveb w i = true <-> live w i.
Proof.
  unfold liveb, live. destruct (nth_error w i) as [s|]; split; intros H.
  - exists s; split; [reflexivity | lia].
  - destruct H as (s' & E & H). inversion E; subst. lia.
  - discriminate.
  - destruct H as (s' & E & H). discriminate.
Qed.

Lemma seq_sorted a n : StronglySorted lt (seq a n).
Proof.
  revert a; induction n as [|n IH]; intros a; cbn; constructor; [apply IH|].
  apply Forall_forall. intros x Hx. apply in_seq in Hx. lia.
Qed.

Lemma filter_sorted (f : nat -> bool) l : StronglySorted lt l -> StronglySorted lt (filter f l).
Proof.
  induction 1 as [|a l Hs IH Hf]; cbn; [constructor|]. destruct (f a); [|exact IH]. constructor; [exact IH|].
  rewrite Forall_forall in *. intros x Hx. apply filter_In in Hx as [Hx _]. auto.
Qed.

Lemma inv_idx w idx : Inv w idx -> idx = filter (liveb w) (seq 0 (length w)).
Proof.
  intros [Hs Hl _]. apply sorted_unique; [exact Hs | apply filter_sorted, seq_sorted|].
  intros i. rewrite filter_In, Hl, liveb_spec. split; [|tauto]. intros H. split; [|exact H].
  destruct H as (s & E & _). apply in_seq. assert (i < length w) by (apply nth_error_Some; congruence). lia.
Qed.

Lemma filter_live_contents w : contents (filter (fun s => negb (s_len s =? 0)) w) = map (look w) (filter (liveb w) (seq 0 (length w))).
Proof.
  enough (G : forall pre, contents (filter (fun s => negb (s_len s =? 0)) w)
              = map (look (pre ++ w)) (filter (liveb (pre ++ w)) (seq (length pre) (length w)))) by exact (G []).
  induction w as [|s w IH]; intros pre; [reflexivity|]. cbn [length seq filter].
  assert (E : nth_error (pre ++ s :: w) (length pre) = Some s) by (rewrite nth_error_app2, Nat.sub_diag by lia; reflexivity).
  specialize (IH (pre ++ [s])). rewrite app_length, <- app_assoc in IH. cbn [length app] in IH. rewrite Nat.add_1_r in IH.
  unfold liveb at 1. rewrite E. destruct (negb (s_len s =? 0)); cbn [contents map]; [|exact IH].
  unfold look at 1. rewrite E. f_equal. exact IH.
Qed.

Lemma inv_contents w idx : Inv w idx -> contents (filter (fun s => negb (s_len s =? 0)) w) = abs w idx.
Proof. intros H. rewrite filter_live_contents. unfold abs. rewrite <- (inv_idx w idx H). reflexivity. Qed.

(** ** The initial word *)
Lemma word_add_length w c n : length (word_add w c n) = S (length w).
Proof.
  unfold word_add. destruct (rev w) as [|l r] eqn:E.
  - apply (f_equal (@length symbol)) in E. rewrite rev_length in E. cbn in *. lia.
  - rewrite app_length, rev_length. cbn. apply (f_equal (@length symbol)) in E. rewrite rev_length in E. cbn in E. lia.
Qed.

Lemma word_add_nth w c n i :
  nth_error (word_add w c n) i =
  if i =? length w then Some (mkSym c (if length w =? 0 then None else Some (length w - 1)) None n)
  else if S i =? length w
       then option_map (fun l => mkSym (s_c l) (s_prev l) (Some (length w)) (s_len l)) (nth_error w i)
       else nth_error w i.
Proof.
  unfold word_add. destruct (rev w) as [|l r] eqn:E.
  - assert (w = []) by (apply (f_equal (@rev symbol)) in E; rewrite rev_involutive in E; exact E). subst.
    destruct i as [|[|i]]; reflexivity.
  - assert (Hw : w = rev r ++ [l]) by (apply (f_equal (@rev symbol)) in E; rewrite rev_involutive in E; exact E).
    assert (Hl : length w = S (length r)) by (rewrite Hw, app_length, rev_length; cbn; lia).
    rewrite Hl. cbn [Nat.eqb].
    destruct (Nat.lt_trichotomy i (length r)) as [H|[H|H]].
    + rewrite nth_error_app1 by (rewrite rev_length; exact H).
      replace (i =? S (length r)) with false by lia. replace (i =? length r) with false by lia.
      rewrite Hw, nth_error_app1 by (rewrite rev_length; exact H). reflexivity.
    + subst i. replace (length r =? S (length r)) with false by lia. rewrite Nat.eqb_refl.
      rewrite nth_error_app2, rev_length, Nat.sub_diag by (rewrite rev_length; lia). cbn.
      rewrite Hw, nth_error_app2, rev_length, Nat.sub_diag by (rewrite rev_length; lia). reflexivity.
    + rewrite nth_error_app2 by (rewrite rev_length; lia). rewrite rev_length.
      destruct (Nat.eqb_spec i (S (length r))) as [->|Hn].
      * replace (S (length r) - length r) with 1 by lia. cbn. rewrite Nat.sub_0_r. reflexivity.
      * replace (i =? length r) with false by lia. rewrite (proj2 (nth_error_None w i)) by lia.
        apply nth_error_None. cbn. lia.
Qed.

Lemma word_of_snoc l p : word_of (l ++ [p]) = word_add (word_of l) (fst p) (snd p).
Proof. unfold word_of. rewrite fold_left_app. reflexivity. Qed.

Lemma word_of_length l : length (word_of l) = length l.
Proof.
  induction l as [|p l IH] using rev_ind; [reflexivity|]. rewrite word_of_snoc, word_add_length, app_length, IH. cbn; lia.
Qed.

Lemma word_of_nth l i : nth_error (word_of l) i =
  option_map (fun p => mkSym (fst p) (match i with O => None | S j => Some j end)
                             (if S i <? length l then Some (S i) else None) (snd p)) (nth_error l i).
Proof.
  induction l as [|p l IH] using rev_ind; [destruct i; reflexivity|].
  rewrite word_of_snoc, word_add_nth, word_of_length, app_length. cbn [length].
  destruct (Nat.eqb_spec i (length l)) as [->|Hi].
  - rewrite nth_error_app2, Nat.sub_diag by lia. cbn [nth_error option_map]. 
    replace (S (length l) <? length l + 1) with false by lia. f_equal. f_equal.
    destruct (length l) as [|k]; [reflexivity|]. cbn. rewrite Nat.sub_0_r. reflexivity.
  - destruct (Nat.eqb_spec (S i) (length l)) as [Hs|Hs].
    + rewrite IH. rewrite nth_error_app1 by lia. destruct (nth_error l i) as [q|]; [|reflexivity]. cbn [option_map s_c s_prev s_len].
      replace (S i <? length l + 1) with true by lia. rewrite Hs. reflexivity.
    + rewrite IH. destruct (Nat.ltb_spec i (length l)) as [H|H].
      * rewrite nth_error_app1 by exact H. destruct (nth_error l i); [|reflexivity]. cbn [option_map].
        replace (S i <? length l) with true by lia. replace (S i <? length l + 1) with true by lia. reflexivity.
      * rewrite (proj2 (nth_error_None l i)) by exact H. rewrite (proj2 (nth_error_None (l ++ [p]) i)); [reflexivity|].
        rewrite app_length; cbn; lia.
Qed.

Definition positive (l : seqn) : Prop := Forall (fun p => 0 < snd p) l.

Lemma nth_error_seq a n i : nth_error (seq a n) i = if i <? n then Some (a + i) else None.
Proof.
  destruct (Nat.ltb_spec i n).
  - rewrite (nth_error_nth' _ 0) by (rewrite seq_length; assumption). rewrite seq_nth by assumption. reflexivity.
  - apply nth_error_None. rewrite seq_length. exact H.
Qed.

Lemma word_of_inv l : positive l -> Inv (word_of l) (seq 0 (length l)).
Proof.
  intros Hp. unfold positive in Hp. rewrite Forall_forall in Hp. constructor.
  - apply seq_sorted.
  - intros i. rewrite in_seq. split.
    + intros Hi. unfold live. rewrite word_of_nth. destruct (nth_error l i) as [p|] eqn:E; [|apply nth_error_None in E; lia].
      cbn. eexists; split; [reflexivity|]. cbn. apply Hp. eapply nth_error_In; exact E.
    + intros (s & E & _). assert (i < length (word_of l)) by (apply nth_error_Some; congruence). rewrite word_of_length in H. lia.
  - intros k i Hk. rewrite nth_error_seq in Hk. destruct (Nat.ltb_spec k (length l)) as [H|H]; [|discriminate]. inversion Hk as [Hki]; rewrite <- Hki in *; clear Hk Hki i.
    cbn [Nat.add]. rewrite word_of_nth. destruct (nth_error l k) as [p|] eqn:E; [|apply nth_error_None in E; lia]. cbn [option_map].
    eexists; split; [reflexivity|]. cbn [s_len s_prev s_next]. split; [apply Hp; eapply nth_error_In; exact E|]. split.
    + unfold pred_of. destruct k as [|k]; [reflexivity|]. rewrite nth_error_seq. replace (k <? length l) with true by lia. reflexivity.
    + rewrite nth_error_seq. reflexivity.
Qed.

Lemma word_of_abs l : abs (word_of l) (seq 0 (length l)) = l.
Proof.
  apply list_ext. intros i. unfold abs. rewrite nth_error_map, nth_error_seq.
  destruct (Nat.ltb_spec i (length l)).
  - cbn. unfold look. rewrite word_of_nth. destruct (nth_error l i) as [[c n]|] eqn:E; [reflexivity | apply nth_error_None in E; lia].
  - cbn. symmetry. apply nth_error_None. exact H.
Qed.

(** ** One accepted pop *)
Lemma vset_nth {A} (l : list A) i x : i < length l -> exists l', vset l i x = Ok l' /\ length l' = length l /\
  forall j, nth_error l' j = if j =? i then Some x else nth_error l j.
Proof.
  intros H. rewrite vset_ok by exact H. eexists; split; [reflexivity|]. split; [apply set_nth_length; exact H|].
  intros j. apply set_nth_error; exact H.
Qed.

(** queue entries needed at position k of the live list *)
Definition needs (m : merge_map) (w : list symbol) (idx : list nat) (e : merge) : Prop :=
  exists k i j a la b lb, nth_error idx k = Some i /\ nth_error idx (S k) = Some j /\
    look w i = (a, la) /\ look w j = (b, lb) /\ mfind a b m = Some (mg_rank e, mg_new e) /\ mg_pos e = i.

(** the entry stands for a rule of the table *)
Definition listed (m : merge_map) (e : merge) : Prop := exists a b, mfind a b m = Some (mg_rank e, mg_new e).

Lemma abs_split w A i j B :
  abs w (A ++ i :: j :: B) = abs w A ++ look w i :: look w j :: abs w B.
Proof. unfold abs. rewrite map_app. reflexivity. Qed.

Inductive step_result (m : merge_map) (w : list symbol) (idx : list nat) (top : merge) : list symbol -> list merge -> Prop :=
| sr_reject : ~ needs m w idx top -> step_result m w idx top w []
| sr_merge A j B w' new a la b lb rank :
    idx = A ++ mg_pos top :: j :: B ->
    look w (mg_pos top) = (a, la) -> look w j = (b, lb) ->
    mfind a b m = Some (rank, mg_new top) ->
    length w' = length w ->
    Inv w' (A ++ mg_pos top :: B) ->
    look w' (mg_pos top) = (mg_new top, la + lb) ->
    (forall i, i <> mg_pos top -> i <> j -> look w' i = look w i) ->
    length new <= 2 ->
    (forall e, In e new -> mg_pos e < length w) ->
    (forall e, In e new -> listed m e) ->
    (forall e, needs m w' (A ++ mg_pos top :: B) e ->
       In e new \/ (needs m w idx e /\ mg_pos e <> mg_pos top)) ->
    step_result m w idx top w' new.

Lemma pred_of_spec idx k i : pred_of idx k = Some i <-> exists k', k = S k' /\ nth_error idx k' = Some i.
Proof.
  destruct k as [|k]; cbn; split.
  - discriminate.
  - intros (k' & E & _). discriminate.
  - intros H. exists k; auto.
  - intros (k' & E & H). inversion E; subst; exact H.
Qed.

Lemma remove_nth A (i j : nat) B k :
  nth_error (A ++ i :: B) k = if k <=? length A then nth_error (A ++ i :: j :: B) k else nth_error (A ++ i :: j :: B) (S k).
Proof.
  destruct (Nat.leb_spec k (length A)) as [H|H].
  - destruct (Nat.eq_dec k (length A)) as [->|Hn].
    + rewrite !nth_error_app2, Nat.sub_diag by lia. reflexivity.
    + rewrite !nth_error_app1 by lia. reflexivity.
  - rewrite !nth_error_app2 by lia. replace (k - length A) with (S (k - length A - 1)) by lia.
    replace (S k - length A) with (S (S (k - length A - 1))) by lia. reflexivity.
Qed.

Lemma nodup_nth (l : list nat) a b i : NoDup l -> nth_error l a = Some i -> nth_error l b = Some i -> a = b.
Proof.
  intros Hn Ha Hb. rewrite NoDup_nth_error in Hn. apply Hn; [apply nth_error_Some; congruence | congruence].
Qed.

Lemma merge_step_spec m w idx top :
  Inv w idx -> mg_pos top < length w ->
  exists w' new, merge_step m w top = Ok (w', new) /\ step_result m w idx top w' new.
Proof.
  intros HI Hpos. unfold merge_step. unfold vat.
  destruct (nth_error w (mg_pos top)) as [cur|] eqn:Ec; [|apply nth_error_None in Ec; lia]. cbn [bind].
  destruct (Nat.eqb_spec (s_len cur) 0) as [Hdead|Hlive].
  { exists w, []. split; [reflexivity|]. apply sr_reject. intros (k & i & j & a & la & b & lb & Hk & _ & _ & _ & _ & Hi). subst i.
    destruct (inv_link w idx HI k _ Hk) as (s & Es & Hs & _). rewrite Ec in Es. inversion Es; subst. lia. }
  assert (Hin : In (mg_pos top) idx) by (apply (inv_live w idx HI); exists cur; split; [exact Ec | lia]).
  apply In_nth_error in Hin as [k Hk].
  destruct (inv_link w idx HI k _ Hk) as (s & Es & Hsl & Hsp & Hsn). rewrite Ec in Es. inversion Es; subst s; clear Es.
  pose proof (sorted_nodup idx (inv_sorted w idx HI)) as Hnd.
  destruct (s_next cur) as [np|] eqn:En.
  2:{ exists w, []. split; [reflexivity|]. apply sr_reject. intros (k' & i & j & a & la & b & lb & Hk' & Hj & _ & _ & _ & Hi). subst i.
      assert (k' = k) by (eapply nodup_nth; eassumption). subst. congruence. }
  destruct (inv_link w idx HI (S k) np (eq_sym Hsn)) as (rt & Er & Hrl & Hrp & Hrn).
  rewrite Er.
  assert (Hreject : forall o, mfind (s_c cur) (s_c rt) m = o -> (forall r, o <> Some (r, mg_new top)) -> ~ needs m w idx top).
  { intros o Ho Hno (k' & i & j & a & la & b & lb & Hk' & Hj & Hla & Hlb & Hm & Hi). subst i.
    assert (k' = k) by (eapply nodup_nth; eassumption). subst. rewrite <- Hsn in Hj. inversion Hj; subst j.
    unfold look in Hla, Hlb. rewrite Ec in Hla. rewrite Er in Hlb. inversion Hla; inversion Hlb; subst. eapply Hno; exact Hm. }
  destruct (mfind (s_c cur) (s_c rt) m) as [[rank new]|] eqn:Em.
  2:{ exists w, []. split; [reflexivity|]. apply sr_reject. eapply Hreject; [reflexivity | discriminate]. }
  destruct (Z.eqb_spec new (mg_new top)) as [->|Hne]; cbn [negb].
  2:{ exists w, []. split; [reflexivity|]. apply sr_reject. eapply Hreject; [reflexivity|]. intros r E; inversion E; subst; contradiction. }
  (* the merge *)
  assert (Hsplit : exists A B, idx = A ++ mg_pos top :: np :: B /\ length A = k).
  { apply nth_error_split in Hk as (A & R & -> & Hl). rewrite nth_error_app2 in Hsn by lia. replace (S k - length A) with 1 in Hsn by lia.
    destruct R as [|x B]; [discriminate|]. cbn in Hsn. inversion Hsn; subst x. exists A, B. auto. }
  destruct Hsplit as (A & B & Hidx & HlA).
  assert (Hpn : mg_pos top <> np).
  { intros E. rewrite Hidx, E in Hnd. apply NoDup_remove_2 in Hnd. apply Hnd. apply in_app_iff. right; left; reflexivity. }
  assert (Hnp : np < length w) by (apply nth_error_Some; congruence).
  set (cur' := mkSym (mg_new top) (s_prev cur) (s_next rt) (s_len cur + s_len rt)).
  destruct (vset_nth w (mg_pos top) cur' Hpos) as (w1 & Hw1 & Hl1 & Hn1). rewrite Hw1. cbn [bind].
  destruct (vset_nth w1 np (mkSym (s_c rt) (s_prev rt) (s_next rt) 0) ltac:(lia)) as (w2 & Hw2 & Hl2 & Hn2). rewrite Hw2. cbn [bind].
  (* third write *)
  assert (H3 : exists w3, (match s_next rt with
                     | Some nn => match nth_error w2 nn with
                                  | Some x => vset w2 nn (mkSym (s_c x) (Some (mg_pos top)) (s_next x) (s_len x))
                                  | None => Ok w2
                                  end
                     | None => Ok w2
                     end) = Ok w3 /\ length w3 = length w /\
             forall i, nth_error w3 i =
               if (match s_next rt with Some nn => i =? nn | None => false end)
               then option_map (fun x => mkSym (s_c x) (Some (mg_pos top)) (s_next x) (s_len x)) (nth_error w i)
               else if i =? np then Some (mkSym (s_c rt) (s_prev rt) (s_next rt) 0)
               else if i =? mg_pos top then Some cur' else nth_error w i).
  { destruct (s_next rt) as [nn|] eqn:Enn.
    - assert (Hnnk : nth_error idx (S (S k)) = Some nn) by congruence.
      destruct (inv_link w idx HI _ _ Hnnk) as (x & Ex & _).
      assert (nn <> np).
      { intros E. subst nn. assert (S (S k) = S k) by (eapply nodup_nth; [exact Hnd | exact Hnnk | congruence]). lia. }
      assert (nn <> mg_pos top).
      { intros E. subst nn. assert (S (S k) = k) by (eapply nodup_nth; [exact Hnd | exact Hnnk | congruence]). lia. }
      rewrite Hn2. replace (nn =? np) with false by lia. rewrite Hn1. replace (nn =? mg_pos top) with false by lia. rewrite Ex.
      destruct (vset_nth w2 nn (mkSym (s_c x) (Some (mg_pos top)) (s_next x) (s_len x))) as (w3 & Hw3 & Hl3 & Hn3).
      { assert (nn < length w) by (apply nth_error_Some; congruence). lia. }
      exists w3. split; [exact Hw3|]. split; [lia|]. intros i. rewrite Hn3. destruct (Nat.eqb_spec i nn) as [->|]; [rewrite Ex; reflexivity|].
      rewrite Hn2. destruct (i =? np); [reflexivity|]. apply Hn1.
    - exists w2. split; [reflexivity|]. split; [lia|]. intros i. rewrite Hn2. destruct (i =? np); [reflexivity|]. apply Hn1. }
  destruct H3 as (w3 & Hw3 & Hl3 & Hn3). rewrite Hw3. cbn [bind].
  eexists; eexists; split; [reflexivity|].
  assert (Hnn_ne : forall nn, s_next rt = Some nn -> nn <> np /\ nn <> mg_pos top).
  { intros nn E. rewrite Hrn in E. split; intros ->.
    - assert (S (S k) = S k) by (eapply nodup_nth; [exact Hnd | exact E | congruence]). lia.
    - assert (S (S k) = k) by (eapply nodup_nth; [exact Hnd | exact E | congruence]). lia. }
  assert (Hlook_pos : nth_error w3 (mg_pos top) = Some cur').
  { rewrite Hn3. destruct (s_next rt) as [nn|] eqn:Enn.
    - destruct (Hnn_ne nn eq_refl). replace (mg_pos top =? nn) with false by lia. replace (mg_pos top =? np) with false by lia. rewrite Nat.eqb_refl. reflexivity.
    - replace (mg_pos top =? np) with false by lia. rewrite Nat.eqb_refl. reflexivity. }
  assert (Hlook_np : nth_error w3 np = Some (mkSym (s_c rt) (s_prev rt) (s_next rt) 0)).
  { rewrite Hn3. destruct (s_next rt) as [nn|] eqn:Enn.
    - destruct (Hnn_ne nn eq_refl). replace (np =? nn) with false by lia. rewrite Nat.eqb_refl. reflexivity.
    - rewrite Nat.eqb_refl. reflexivity. }
  assert (Hlook_other : forall i, i <> mg_pos top -> i <> np ->
            nth_error w3 i = if (match s_next rt with Some nn => i =? nn | None => false end)
                             then option_map (fun x => mkSym (s_c x) (Some (mg_pos top)) (s_next x) (s_len x)) (nth_error w i)
                             else nth_error w i).
  { intros i H1 H2. rewrite Hn3. replace (i =? np) with false by lia. replace (i =? mg_pos top) with false by lia. reflexivity. }
  assert (Hlook_same : forall i, i <> mg_pos top -> i <> np -> look w3 i = look w i).
  { intros i H1 H2. unfold look. rewrite Hlook_other by assumption. destruct (match s_next rt with Some nn => i =? nn | None => false end); [|reflexivity].
    destruct (nth_error w i); reflexivity. }
  assert (Hlive3 : forall i, live w3 i <-> live w i /\ i <> np).
  { intros i. unfold live. destruct (Nat.eq_dec i np) as [->|Hi2].
    - rewrite Hlook_np. split; [intros (s & E & H); inversion E; subst; cbn in H; lia | tauto].
    - destruct (Nat.eq_dec i (mg_pos top)) as [->|Hi1].
      + rewrite Hlook_pos, Ec. split.
        * intros _. split; [exists cur; split; [reflexivity | lia] | exact Hi2].
        * intros _. exists cur'. split; [reflexivity | cbn; lia].
      + rewrite Hlook_other by assumption. destruct (match s_next rt with Some nn => i =? nn | None => false end).
        * destruct (nth_error w i) as [x|]; cbn; split.
          -- intros (s & E & H). inversion E; subst. cbn in H. split; [exists x; auto | exact Hi2].
          -- intros [(s & E & H) _]. inversion E; subst. eexists; split; [reflexivity | exact H].
          -- intros (s & E & H). discriminate.
          -- intros [(s & E & H) _]. discriminate.
        * tauto. }
  assert (Hin' : forall i, In i (A ++ mg_pos top :: B) <-> In i idx /\ i <> np).
  { intros i. rewrite Hidx, !in_app_iff. cbn [In]. split.
    - intros H. split; [tauto|]. intros ->. rewrite Hidx in Hnd.
      replace (A ++ mg_pos top :: np :: B) with ((A ++ [mg_pos top]) ++ np :: B) in Hnd by (rewrite <- app_assoc; reflexivity).
      apply NoDup_remove_2 in Hnd. apply Hnd. rewrite !in_app_iff. cbn [In]. tauto.
    - intros [H Hne]. destruct H as [H|[H|[H|H]]]; [auto | auto | congruence | auto]. }
  assert (HI3 : Inv w3 (A ++ mg_pos top :: B)).
  { constructor.
    - pose proof (inv_sorted w idx HI) as Hs. rewrite Hidx in Hs. clear - Hs. induction A as [|x A IH]; cbn [app] in *.
      + inversion Hs as [|? ? Hs1 Hf1]; subst. inversion Hs1; subst. constructor; [assumption|]. inversion Hf1; assumption.
      + inversion Hs as [|? ? Hs1 Hf1]; subst. constructor; [apply IH; exact Hs1|]. rewrite Forall_forall in *. intros y Hy. apply Hf1.
        rewrite in_app_iff in *. cbn [In] in *. tauto.
    - intros i. rewrite Hin', Hlive3, (inv_live w idx HI). tauto.
    - intros q i Hq. rewrite (remove_nth A (mg_pos top) np B) in Hq. rewrite <- Hidx in Hq. rewrite HlA in Hq.
      assert (Hpred : pred_of (A ++ mg_pos top :: B) q = if q <=? k then pred_of idx q else if q =? S k then Some (mg_pos top) else pred_of idx (S q)).
      { unfold pred_of. destruct q as [|q']; [reflexivity|]. rewrite (remove_nth A (mg_pos top) np B), <- Hidx, HlA.
        destruct (Nat.leb_spec (S q') k); destruct (Nat.leb_spec q' k); try lia; [reflexivity| |].
        - replace (S q' =? S k) with true by lia. replace q' with k by lia. exact Hk.
        - replace (S q' =? S k) with false by lia. reflexivity. }
      assert (Hsucc : nth_error (A ++ mg_pos top :: B) (S q) = if S q <=? k then nth_error idx (S q) else nth_error idx (S (S q))).
      { rewrite (remove_nth A (mg_pos top) np B), <- Hidx, HlA. reflexivity. }
      rewrite Hpred, Hsucc. destruct (Nat.leb_spec q k) as [Hqk|Hqk].
      + destruct (Nat.eq_dec q k) as [->|Hne].
        * rewrite Hk in Hq. inversion Hq; subst i. exists cur'. split; [exact Hlook_pos|]. cbn [cur' s_len s_prev s_next].
          split; [lia|]. split; [exact Hsp|]. replace (S k <=? k) with false by lia. rewrite Hrn. reflexivity.
        * destruct (inv_link w idx HI q i Hq) as (s & Es & H1 & H2 & H4).
          assert (i <> mg_pos top) by (intros ->; apply Hne; eapply nodup_nth; eassumption).
          assert (i <> np) by (intros ->; assert (q = S k) by (eapply nodup_nth; [exact Hnd | exact Hq | congruence]); lia).
          exists s. rewrite Hlook_other by assumption. split.
          -- destruct (s_next rt) as [nn|] eqn:Enn; [|exact Es]. destruct (Nat.eqb_spec i nn) as [->|]; [|exact Es].
             exfalso. assert (q = S (S k)) by (eapply nodup_nth; [exact Hnd | exact Hq | congruence]). lia.
          -- split; [exact H1|]. split; [exact H2|]. replace (S q <=? k) with true by lia. exact H4.
      + destruct (inv_link w idx HI (S q) i Hq) as (s & Es & H1 & H2 & H4).
        assert (i <> mg_pos top) by (intros ->; assert (S q = k) by (eapply nodup_nth; eassumption); lia).
        assert (i <> np) by (intros ->; assert (S q = S k) by (eapply nodup_nth; [exact Hnd | exact Hq | congruence]); lia).
        rewrite Hlook_other by assumption. replace (S q <=? k) with false by lia.
        destruct (Nat.eqb_spec q (S k)) as [->|Hq2].
        * assert (s_next rt = Some i) as Hri by congruence. rewrite Hri, Nat.eqb_refl, Es. cbn [option_map].
          eexists; split; [reflexivity|]. cbn [s_len s_prev s_next]. auto.
        * exists s. split; [|auto]. destruct (s_next rt) as [nn|] eqn:Enn; [|exact Es]. destruct (Nat.eqb_spec i nn) as [->|]; [|exact Es].
          exfalso. assert (S q = S (S k)) by (eapply nodup_nth; [exact Hnd | exact Hq | congruence]). lia. }
  eapply (sr_merge m w idx top A np B w3 _ (s_c cur) (s_len cur) (s_c rt) (s_len rt) rank); try assumption.
  - unfold look. rewrite Ec. reflexivity.
  - unfold look. rewrite Er. reflexivity.
  - unfold look. rewrite Hlook_pos. reflexivity.
  - rewrite app_length.
    assert (Hone : forall o1 : option nat, length (match o1 with Some pv => match nth_error w3 pv with Some ps => match mfind (s_c ps) (s_c cur') m with
         Some (rank, new) => [mkMerge pv rank new] | None => [] end | None => [] end | None => [] end) <= 1).
    { intros [pv|]; [|cbn; lia]. destruct (nth_error w3 pv) as [ps|]; [|cbn; lia]. destruct (mfind (s_c ps) (s_c cur') m) as [[? ?]|]; cbn; lia. }
    assert (Htwo : forall o1 : option nat, length (match o1 with Some nx => match nth_error w3 nx with Some ns => match mfind (s_c cur') (s_c ns) m with
         Some (rank, new) => [mkMerge (mg_pos top) rank new] | None => [] end | None => [] end | None => [] end) <= 1).
    { intros [pv|]; [|cbn; lia]. destruct (nth_error w3 pv) as [ps|]; [|cbn; lia]. destruct (mfind (s_c cur') (s_c ps) m) as [[? ?]|]; cbn; lia. }
    specialize (Hone (s_prev cur')). specialize (Htwo (s_next cur')). lia.
  - intros e He. apply in_app_iff in He as [He|He].
    + destruct (s_prev cur') as [pv|]; [|destruct He]. destruct (nth_error w3 pv) as [ps|] eqn:Epv; [|destruct He].
      destruct (mfind (s_c ps) (s_c cur') m) as [[? ?]|]; [|destruct He]. destruct He as [<-|[]]. cbn.
      rewrite <- Hl3. apply nth_error_Some. congruence.
    + destruct (s_next cur') as [nx|]; [|destruct He]. destruct (nth_error w3 nx) as [ns|] eqn:Enx; [|destruct He].
      destruct (mfind (s_c cur') (s_c ns) m) as [[? ?]|]; [|destruct He]. destruct He as [<-|[]]. cbn. exact Hpos.
  - intros e He. apply in_app_iff in He as [He|He].
    + destruct (s_prev cur') as [pv|]; [|destruct He]. destruct (nth_error w3 pv) as [ps|] eqn:Epv; [|destruct He].
      destruct (mfind (s_c ps) (s_c cur') m) as [[r0 n0]|] eqn:Eq; [|destruct He]. destruct He as [<-|[]]. exists (s_c ps), (s_c cur'). exact Eq.
    + destruct (s_next cur') as [nx|]; [|destruct He]. destruct (nth_error w3 nx) as [ns|] eqn:Enx; [|destruct He].
      destruct (mfind (s_c cur') (s_c ns) m) as [[r0 n0]|] eqn:Eq; [|destruct He]. destruct He as [<-|[]]. exists (s_c cur'), (s_c ns). exact Eq.
  - (* completeness *)
    intros e (q & i & j & a & la & b & lb & Hi & Hj & Ha & Hb & Hm & He).
    destruct (inv_link _ _ HI3 q i Hi) as (si & Esi & _ & _ & Hsi_next).
    destruct (inv_link _ _ HI3 (S q) j Hj) as (sj & Esj & _ & Hsj_prev & _).
    destruct (Nat.eq_dec i (mg_pos top)) as [->|Hi1].
    + left. apply in_app_iff. right. rewrite Hlook_pos in Esi. inversion Esi; subst si.
      rewrite Hsi_next, Hj, Esj. unfold look in Ha, Hb. rewrite Hlook_pos in Ha. rewrite Esj in Hb. inversion Ha; inversion Hb; subst.
      change (s_c cur') with (mg_new top). rewrite Hm. left. destruct e; cbn in *; congruence.
    + destruct (Nat.eq_dec j (mg_pos top)) as [->|Hj1].
      * left. apply in_app_iff. left. rewrite Hlook_pos in Esj. inversion Esj; subst sj.
        rewrite Hsj_prev. cbn [pred_of]. rewrite Hi, Esi. unfold look in Ha, Hb. rewrite Esi in Ha. rewrite Hlook_pos in Hb. inversion Ha; inversion Hb; subst.
        change (s_c cur') with (mg_new top). rewrite Hm. left. destruct e; cbn in *; congruence.
      * right. split; [|congruence].
        assert (Hi2 : i <> np) by (intros ->; apply nth_error_In in Hi; apply Hin' in Hi as [_ Hi]; congruence).
        assert (Hj2 : j <> np) by (intros ->; apply nth_error_In in Hj; apply Hin' in Hj as [_ Hj]; congruence).
        rewrite Hlook_same in Ha, Hb by assumption.
        rewrite (remove_nth A (mg_pos top) np B), <- Hidx, HlA in Hi, Hj.
        destruct (Nat.leb_spec q k) as [Hqk|Hqk].
        -- destruct (Nat.leb_spec (S q) k) as [Hqk2|Hqk2].
           ++ exists q, i, j, a, la, b, lb. auto 10.
           ++ exfalso. assert (q = k) by lia. subst q. rewrite Hk in Hi. congruence.
        -- replace (S q <=? k) with false in Hj by lia. exists (S q), i, j, a, la, b, lb. auto 10.
Qed.

(** ** The loop *)
Lemma abs_eq w w' l : (forall i, In i l -> look w' i = look w i) -> abs w' l = abs w l.
Proof. intros H. unfold abs. apply map_ext_in. exact H. Qed.

Lemma sr_step m w idx top A j B w' a la b lb rank :
  Inv w idx -> idx = A ++ mg_pos top :: j :: B ->
  look w (mg_pos top) = (a, la) -> look w j = (b, lb) ->
  mfind a b m = Some (rank, mg_new top) ->
  look w' (mg_pos top) = (mg_new top, la + lb) ->
  (forall i, i <> mg_pos top -> i <> j -> look w' i = look w i) ->
  step_at m rank (abs w idx) (abs w' (A ++ mg_pos top :: B)).
Proof.
  intros HI -> Ha Hb Hm Hn Hsame. pose proof (sorted_nodup _ (inv_sorted _ _ HI)) as Hnd.
  rewrite abs_split, Ha, Hb.
  assert (HA : abs w' A = abs w A).
  { apply abs_eq. intros i Hi. apply Hsame; intros ->.
    - apply NoDup_remove_2 in Hnd. apply Hnd. apply in_app_iff; auto.
    - replace (A ++ mg_pos top :: j :: B) with ((A ++ [mg_pos top]) ++ j :: B) in Hnd by (rewrite <- app_assoc; reflexivity).
      apply NoDup_remove_2 in Hnd. apply Hnd. rewrite !in_app_iff; auto. }
  assert (HB : abs w' B = abs w B).
  { apply abs_eq. intros i Hi. apply Hsame; intros ->.
    - apply NoDup_remove_2 in Hnd. apply Hnd. apply in_app_iff; cbn; auto.
    - replace (A ++ mg_pos top :: j :: B) with ((A ++ [mg_pos top]) ++ j :: B) in Hnd by (rewrite <- app_assoc; reflexivity).
      apply NoDup_remove_2 in Hnd. apply Hnd. rewrite !in_app_iff; auto. }
  unfold abs at 3. rewrite map_app. cbn [map]. rewrite Hn. fold (abs w' A). fold (abs w' B). rewrite HA, HB.
  constructor. exact Hm.
Qed.

Lemma applicable_needs m w idx rank : applicable m rank (abs w idx) -> exists e, needs m w idx e /\ mg_rank e = rank.
Proof.
  intros [y Hy]. remember (abs w idx) as x eqn:Ex. destruct Hy as [A a la b lb B n Hm].
  assert (H1 : nth_error (abs w idx) (length A) = Some (a, la)) by (rewrite <- Ex, nth_error_app2, Nat.sub_diag by lia; reflexivity).
  assert (H2 : nth_error (abs w idx) (S (length A)) = Some (b, lb)).
  { rewrite <- Ex, nth_error_app2 by lia. replace (S (length A) - length A) with 1 by lia. reflexivity. }
  unfold abs in H1, H2. rewrite nth_error_map in H1, H2.
  destruct (nth_error idx (length A)) as [i|] eqn:E1; [|discriminate].
  destruct (nth_error idx (S (length A))) as [j|] eqn:E2; [|discriminate].
  cbn in H1, H2. exists (mkMerge i rank n). split; [|reflexivity].
  exists (length A), i, j, a, la, b, lb. cbn. repeat split; try assumption; congruence.
Qed.

Definition T3 (idx : list nat) (q s : list merge) : nat := 3 * length idx + length q + length s.

Lemma merge_loop_spec E m d n : pq_ok E -> forall fuel k w idx q s,
  Inv w idx -> length w = n ->
  (forall e, In e (q ++ s) -> mg_pos e < n) ->
  T3 idx q s <= 4 * n -> T3 idx q s * (4 * n + 2) + length q <= fuel ->
  exists w' idx', merge_loop E fuel m d k w q s = Ok w' /\ Inv w' idx' /\
    steps (step m) (abs w idx) (abs w' idx') /\
    ((forall k, dropped E d k = false) -> s = [] -> (forall e, needs m w idx e -> In e q) ->
       (forall rank, ~ applicable m rank (abs w' idx')) /\
       (distinct_results m -> (forall e, In e q -> listed m e) -> steps (step_highest m) (abs w idx) (abs w' idx'))) /\
    ((forall k, dropped E d k = true) -> w' = w /\ idx' = idx).
Proof.
  intros Hpq. induction fuel as [|fuel IH]; intros k w idx q s HI Hn Hpos HT Hf.
  - assert (q = []) by (destruct q; [reflexivity | cbn in Hf; lia]). subst q. cbn [merge_loop].
    pose proof (Hpq []) as Hq. destruct (e_pq E []) as [[t q']|].
    { destruct Hq as [Hp _]. apply Permutation_nil in Hp. discriminate. }
    exists w, idx. split; [reflexivity|]. split; [exact HI|]. split; [constructor|]. split; [|auto].
    intros _ _ Hc. split; [|constructor]. intros rank Ha. apply applicable_needs in Ha as (e & He & _). apply (Hc e He).
  - cbn [merge_loop]. pose proof (Hpq q) as Hq. destruct (e_pq E q) as [[top q']|].
    2:{ subst q. exists w, idx. split; [reflexivity|]. split; [exact HI|]. split; [constructor|]. split; [|auto].
        intros _ _ Hc. split; [|constructor]. intros rank Ha. apply applicable_needs in Ha as (e & He & _). apply (Hc e He). }
    destruct Hq as [Hperm Htop].
    pose proof (Permutation_length Hperm) as Hlq. cbn [length] in Hlq.
    assert (Hin_top : In top q) by (eapply Permutation_in; [apply Permutation_sym; exact Hperm | left; reflexivity]).
    assert (Hin_q' : forall e, In e q' -> In e q) by (intros e He; eapply Permutation_in; [apply Permutation_sym; exact Hperm | right; exact He]).
    assert (Hin_q : forall e, In e q -> e = top \/ In e q').
    { intros e He. apply (Permutation_in _ Hperm) in He. destruct He; auto. }
    destruct (dropped E d k) eqn:Ed.
    + destruct (IH (S k) w idx q' (s ++ [top]) HI Hn) as (w' & idx' & Hr & HI' & Hst & Hz & Hall).
      * intros e He. rewrite !in_app_iff in He. apply Hpos. rewrite in_app_iff. destruct He as [He|[He|[<-|[]]]]; auto.
      * unfold T3 in *. rewrite app_length. cbn [length]. lia.
      * unfold T3 in *. rewrite app_length. cbn [length]. replace (3 * length idx + length q' + (length s + 1)) with (3 * length idx + length q + length s) by lia. lia.
      * exists w', idx'. split; [exact Hr|]. split; [exact HI'|]. split; [exact Hst|]. split; [|exact Hall].
        intros Hd. rewrite Hd in Ed. discriminate.
    + destruct (merge_step_spec m w idx top HI) as (w1 & new & Hms & Hsr).
      { rewrite Hn. apply Hpos. apply in_app_iff; auto. }
      rewrite Hms. cbn [bind]. destruct Hsr as [Hrej | A j B w1 new a la b lb rank Hidx Ha Hb Hm Hlen HI1 Hlk Hsame Hnew Hnpos Hnl Hcomp].
      * destruct (IH (S k) w idx (q' ++ s ++ []) [] HI Hn) as (w' & idx' & Hr & HI' & Hst & Hz & Hall).
        -- intros e He. rewrite !app_nil_r in He. rewrite !in_app_iff in *. apply Hpos. rewrite in_app_iff. destruct He; auto.
        -- unfold T3 in *. rewrite !app_length. cbn [length]. lia.
        -- unfold T3 in *. rewrite !app_length. cbn [length]. nia.
        -- exists w', idx'. split; [exact Hr|]. split; [exact HI'|]. split; [exact Hst|]. split.
           ++ intros Hd -> Hc. cbn [app] in Hz. rewrite app_nil_r in Hz. destruct (Hz Hd eq_refl) as [Hz1 Hz2].
              ** intros e He. destruct (Hin_q e (Hc e He)) as [->|H]; [contradiction | exact H].
              ** split; [exact Hz1|]. intros Hdr Hls. apply Hz2; auto.
           ++ intros Hd. rewrite Hd in Ed. discriminate.
      * destruct (IH (S k) w1 (A ++ mg_pos top :: B) (q' ++ s ++ new) [] HI1) as (w' & idx' & Hr & HI' & Hst & Hz & Hall).
        -- congruence.
        -- intros e He. rewrite app_nil_r, !in_app_iff in He. destruct He as [He|[He|He]].
           ++ apply Hpos. apply in_app_iff; auto.
           ++ apply Hpos. apply in_app_iff; auto.
           ++ rewrite <- Hn. auto.
        -- unfold T3 in *. subst idx. rewrite !app_length in *. cbn [length] in *. lia.
        -- unfold T3 in *. subst idx. rewrite !app_length in *. cbn [length] in *. nia.
        -- pose proof (sr_step m w idx top A j B w1 a la b lb rank HI Hidx Ha Hb Hm Hlk Hsame) as Hstep.
           exists w', idx'. split; [exact Hr|]. split; [exact HI'|]. split.
           { econstructor; [exists rank; exact Hstep | exact Hst]. }
           split.
           ++ intros Hd -> Hc. cbn [app] in Hz. destruct (Hz Hd eq_refl) as [Hz1 Hz2].
              ** intros e He. apply in_app_iff. destruct (Hcomp e He) as [H|[H Hne]]; [auto|]. left.
                 destruct (Hin_q e (Hc e H)) as [->|H']; [congruence | exact H'].
              ** split; [exact Hz1|]. intros Hdr Hls. econstructor; [|apply Hz2; [exact Hdr|]].
                 --- exists rank. split; [exact Hstep|]. intros r Hap. apply applicable_needs in Hap as (e & He & <-).
                     assert (rank = mg_rank top) as ->.
                     { destruct (Hls top Hin_top) as (a' & b' & Hab). destruct (Hdr _ _ _ _ _ _ _ Hab Hm) as [-> ->]. congruence. }
                     specialize (Htop e (Hc e He)). unfold merge_lt in Htop. lia.
                 --- intros e He. apply in_app_iff in He as [He|He]; auto.
           ++ intros Hd. rewrite Hd in Ed. discriminate.
Qed.

(** ** The initial queue *)
Lemma init_queue_len m w : forall i, length (init_queue m i w) <= length w.
Proof.
  induction w as [|a w IH]; intros i; [reflexivity|]. destruct w as [|b w]; [cbn; lia|].
  change (init_queue m i (a :: b :: w)) with
    (match mfind (s_c a) (s_c b) m with Some (rank, new) => mkMerge i rank new :: init_queue m (S i) (b :: w) | None => init_queue m (S i) (b :: w) end).
  specialize (IH (S i)). destruct (mfind (s_c a) (s_c b) m) as [[? ?]|]; cbn [length] in *; lia.
Qed.

Lemma init_queue_in m w : forall i e, In e (init_queue m i w) <->
  exists k a b, nth_error w k = Some a /\ nth_error w (S k) = Some b /\ mg_pos e = i + k /\ mfind (s_c a) (s_c b) m = Some (mg_rank e, mg_new e).
Proof.
  induction w as [|a w IH]; intros i e.
  - cbn. split; [tauto|]. intros (k & a & b & H & _). destruct k; discriminate.
  - destruct w as [|b w].
    + cbn. split; [tauto|]. intros (k & a' & b & _ & H & _). destruct k; discriminate.
    + change (init_queue m i (a :: b :: w)) with
        (match mfind (s_c a) (s_c b) m with Some (rank, new) => mkMerge i rank new :: init_queue m (S i) (b :: w) | None => init_queue m (S i) (b :: w) end).
      assert (Hrec : In e (init_queue m (S i) (b :: w)) <-> exists k x y, nth_error (a :: b :: w) (S k) = Some x /\ nth_error (a :: b :: w) (S (S k)) = Some y
                /\ mg_pos e = i + S k /\ mfind (s_c x) (s_c y) m = Some (mg_rank e, mg_new e)).
      { rewrite (IH (S i) e). split; intros (k & x & y & H1 & H2 & H3 & H4); exists k, x, y; cbn [nth_error] in *; repeat split; try assumption; lia. }
      split.
      * intros H. assert (Hcase : (mfind (s_c a) (s_c b) m = Some (mg_rank e, mg_new e) /\ mg_pos e = i) \/ In e (init_queue m (S i) (b :: w))).
        { destruct (mfind (s_c a) (s_c b) m) as [[r n]|]; [|auto]. destruct H as [<-|H]; [left; split; reflexivity | auto]. }
        destruct Hcase as [[H1 H2]|H'].
        -- exists 0, a, b. cbn [nth_error]. repeat split; try assumption; lia.
        -- apply Hrec in H' as (k & x & y & H'). exists (S k), x, y. exact H'.
      * intros ([|k] & x & y & H1 & H2 & H3 & H4).
        -- cbn in H1, H2. inversion H1; inversion H2; subst. rewrite H4. left. destruct e; cbn in *. f_equal; lia.
        -- assert (In e (init_queue m (S i) (b :: w))) by (apply Hrec; exists k, x, y; auto).
           destruct (mfind (s_c a) (s_c b) m) as [[r n]|]; [right; assumption | assumption].
Qed.

Lemma step_total_len m x y : step m x y -> total_len y = total_len x.
Proof.
  intros (rank & H). destruct H as [A a la b lb B n _]. unfold total_len. rewrite !fold_right_app. cbn [fold_right snd]. clear rank.
   induction A as [|p A IH]; cbn [app total_len fold_right snd] in *; unfold total_len in *; cbn [fold_right snd] in *; lia.
Qed.

Lemma steps_total_len m x y : steps (step m) x y -> total_len y = total_len x.
Proof.
  induction 1 as [|x y z H _ IH]; [reflexivity|]. rewrite IH. eapply step_total_len; exact H.
Qed.

Theorem merge_all_spec E m d l : pq_ok E -> positive l -> l <> [] ->
  exists w, merge_all E m d (word_of l) = Ok w /\ steps (step m) l (contents w) /\
    ((forall k, dropped E d k = false) ->
       (forall rank, ~ applicable m rank (contents w)) /\
       (distinct_results m -> steps (step_highest m) l (contents w))) /\
    ((forall k, dropped E d k = true) -> contents w = l).
Proof.
  intros Hpq Hp Hl. unfold merge_all.
  destruct (word_of l) as [|s0 r0] eqn:Ew.
  { exfalso. apply Hl. apply (f_equal (@length symbol)) in Ew. rewrite word_of_length in Ew. destruct l; [reflexivity | discriminate]. }
  rewrite <- Ew. clear Ew s0 r0.
  destruct (merge_loop_spec E m d (length l) Hpq (merge_fuel (length (word_of l))) 0 (word_of l) (seq 0 (length l)) (init_queue m 0 (word_of l)) [])
    as (w' & idx' & Hr & HI & Hst & Hz & Hall).
  - apply word_of_inv; exact Hp.
  - apply word_of_length.
  - intros e He. rewrite app_nil_r in He. apply init_queue_in in He as (k & a & b & H1 & _ & H3 & _). cbn in H3.
    rewrite H3, <- word_of_length. apply nth_error_Some. congruence.
  - unfold T3. rewrite seq_length. cbn [length]. pose proof (init_queue_len m (word_of l) 0) as H. rewrite word_of_length in H. lia.
  - unfold T3, merge_fuel. rewrite seq_length, word_of_length. cbn [length]. pose proof (init_queue_len m (word_of l) 0) as H. rewrite word_of_length in H. nia.
  - rewrite Hr. cbn [bind]. eexists; split; [reflexivity|]. rewrite (inv_contents w' idx' HI). rewrite word_of_abs in *.
    split; [exact Hst|]. split.
    + intros Hd. destruct (Hz Hd eq_refl) as [H1 H2].
      * intros e (k & i & j & a & la & b & lb & Hk & Hj & Ha & Hb & Hm & He). apply init_queue_in.
        rewrite nth_error_seq in Hk, Hj.
        destruct (Nat.ltb_spec k (length l)); [|discriminate]. destruct (Nat.ltb_spec (S k) (length l)); [|discriminate].
        cbn in Hk, Hj. assert (Hik : i = k) by congruence. assert (Hjk : j = S k) by congruence. clear Hk Hj. subst j. rewrite Hik in *. clear Hik i. unfold look in Ha, Hb.
        destruct (nth_error (word_of l) k) as [x|] eqn:Ex; [|apply nth_error_None in Ex; rewrite word_of_length in Ex; lia].
        destruct (nth_error (word_of l) (S k)) as [y|] eqn:Ey; [|apply nth_error_None in Ey; rewrite word_of_length in Ey; lia].
        assert (s_c x = a) by congruence. assert (s_c y = b) by congruence. subst a b. exists k, x, y. auto.
      * split; [exact H1|]. intros Hdr. apply H2; [exact Hdr|]. intros e He. apply init_queue_in in He as (k & a & b & _ & _ & _ & Hm).
        exists (s_c a), (s_c b). exact Hm.
    + intros Hd. destruct (Hall Hd) as [-> ->]. apply word_of_abs.
Qed.
