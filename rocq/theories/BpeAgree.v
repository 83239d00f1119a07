(** Two merge tables that agree on every adjacent pair a word can ever show give the same merges. *)
From Verif Require Import Base BaseFacts Common Bpe BpeSpec BpeProofs.
From Coq Require Import Permutation Relations Sorted ZifyBool ZifyNat.
From Coq Require QArith_base.

Definition agree (m m' : merge_map) (y : seqn) : Prop := forall A a la b lb B, y = A ++ (a, la) :: (b, lb) :: B -> mfind a b m' = mfind a b m.
Lemma agree_nth m m' w idx k i j : agree m m' (abs w idx) -> nth_error idx k = Some i -> nth_error idx (S k) = Some j -> mfind (fst (look w i)) (fst (look w j)) m' = mfind (fst (look w i)) (fst (look w j)) m.
Proof.
  intros H Hi Hj. apply nth_error_split in Hi as (A & R & -> & Hl). rewrite nth_error_app2 in Hj by lia. replace (S k - length A) with 1 in Hj by lia. destruct R as [|x B]; [discriminate|]. cbn in Hj. injection Hj as ->.
  rewrite abs_split in H. destruct (look w i) as [a la] eqn:Ea, (look w j) as [b lb] eqn:Eb. cbn [fst]. exact (H _ _ _ _ _ _ eq_refl).
Qed.
Lemma merge_step_agree m m' w idx top : Inv w idx -> mg_pos top < length w -> agree m m' (abs w idx) -> (forall y, step m (abs w idx) y -> agree m m' y) -> merge_step m' w top = merge_step m w top.
Proof.
  intros HI Hpos HA HB. destruct (merge_step_spec m w idx top HI Hpos) as (w' & new & HM & HS). rewrite HM. unfold merge_step in HM |- *. unfold vat in *.
  destruct (nth_error w (mg_pos top)) as [cur|] eqn:Ec; [|exact HM]. cbn [bind] in *. destruct (Nat.eqb_spec (s_len cur) 0) as [Hd|Hd]; [exact HM|].
  assert (Hin : In (mg_pos top) idx) by (apply (inv_live w idx HI); exists cur; split; [exact Ec | lia]). apply In_nth_error in Hin as [k Hk].
  destruct (inv_link w idx HI k _ Hk) as (s & Es & Hsl & Hsp & Hsn). rewrite Ec in Es. inversion Es; subst s; clear Es.
  destruct (s_next cur) as [np|] eqn:En; [|exact HM]. destruct (inv_link w idx HI (S k) np (eq_sym Hsn)) as (rt & Er & Hrl & Hrp & Hrn). rewrite Er in *.
  assert (HQ : mfind (s_c cur) (s_c rt) m' = mfind (s_c cur) (s_c rt) m). { pose proof (agree_nth m m' w idx k _ _ HA Hk (eq_sym Hsn)) as H. unfold look in H. rewrite Ec, Er in H. exact H. }
  rewrite HQ. destruct (mfind (s_c cur) (s_c rt) m) as [[rank n]|] eqn:Em; [|exact HM]. destruct (negb (n =? mg_new top)%Z) eqn:Eb; [exact HM|].
  cbv zeta in *. set (cur' := mkSym (mg_new top) (s_prev cur) (s_next rt) (s_len cur + s_len rt)) in *. cbn [s_prev s_next] in HM |- *.
  apply bind_ok in HM as (w1 & H1 & HM). apply bind_ok in HM as (w2 & H2 & HM). apply bind_ok in HM as (w3 & H3 & HM). rewrite H1. cbn [bind]. rewrite H2. cbn [bind]. rewrite H3. cbn [bind]. injection HM as HW HNew. subst w'.
  assert (HS3 : forall x, nth_error w3 (mg_pos top) = Some x -> s_len x <> s_len cur).
  { intros x Hx E0. destruct (vset_nth w (mg_pos top) cur' Hpos) as (w1' & Hw1 & Hl1 & Hn1). assert (w1' = w1) by congruence. subst w1'.
    assert (Hnp : np < length w1) by (rewrite Hl1; apply nth_error_Some; congruence). destruct (vset_nth w1 np (mkSym (s_c rt) (s_prev rt) (s_next rt) 0) Hnp) as (w2' & Hw2 & Hl2 & Hn2). assert (w2' = w2) by congruence. subst w2'.
    assert (K : exists z, nth_error w2 (mg_pos top) = Some z /\ s_len z <> s_len cur).
    { rewrite Hn2. destruct (mg_pos top =? np); [eexists; split; [reflexivity | cbn; lia]|]. rewrite Hn1, Nat.eqb_refl. eexists; split; [reflexivity | unfold cur'; cbn; lia]. }
    destruct K as (z & Ez & Lz). destruct (s_next rt) as [nn|]; [|injection H3 as <-; congruence]. destruct (nth_error w2 nn) as [q|] eqn:Eq; [|injection H3 as <-; congruence].
    assert (Hnn : nn < length w2) by (apply nth_error_Some; congruence). destruct (vset_nth w2 nn (mkSym (s_c q) (Some (mg_pos top)) (s_next q) (s_len q)) Hnn) as (w3' & Hw3 & Hl3 & Hn3). assert (w3' = w3) by congruence. subst w3'.
    rewrite Hn3 in Hx. destruct (Nat.eqb_spec (mg_pos top) nn) as [E1|]; [|congruence]. injection Hx as <-. cbn in E0. rewrite <- E1 in Eq. congruence. }
  rewrite <- HNew. inversion HS as [Hrej E1 E2 | A j B w3' new' a la b lb rk Hidx Ha Hb Hm Hlen HI3 Hlk Hsame _ _ _ _ E1 E2].
  - exfalso. assert (E3 : w3 = w) by congruence. apply (HS3 cur); [rewrite E3; exact Ec | reflexivity].
  - subst w3' new'. assert (HkA : k = length A). { eapply nodup_nth; [apply (sorted_nodup _ (inv_sorted _ _ HI)) | exact Hk|]. rewrite Hidx, nth_error_app2, Nat.sub_diag by lia. reflexivity. }
    assert (AG : agree m m' (abs w3 (A ++ mg_pos top :: B))). { apply HB. exists rk. eapply sr_step; eassumption. }
    assert (Hpi : nth_error (A ++ mg_pos top :: B) k = Some (mg_pos top)) by (rewrite nth_error_app2, HkA, Nat.sub_diag by lia; reflexivity).
    destruct (inv_link _ _ HI3 k _ Hpi) as (c3 & Ec3 & _). assert (Hc3 : s_c c3 = mg_new top) by (unfold look in Hlk; rewrite Ec3 in Hlk; congruence).
    assert (G1 : forall pv ps, s_prev cur = Some pv -> nth_error w3 pv = Some ps -> mfind (s_c ps) (s_c cur') m' = mfind (s_c ps) (s_c cur') m).
    { intros pv ps Epv Eps. rewrite Hsp in Epv. destruct k as [|k]; [discriminate|]. cbn [pred_of] in Epv.
      assert (Epv' : nth_error (A ++ mg_pos top :: B) k = Some pv) by (rewrite nth_error_app1 by lia; rewrite Hidx, nth_error_app1 in Epv by lia; exact Epv).
      pose proof (agree_nth m m' w3 _ k _ _ AG Epv' Hpi) as H. rewrite Hlk in H. unfold look in H. rewrite Eps in H. exact H. }
    assert (G2 : forall nx ns, s_next rt = Some nx -> nth_error w3 nx = Some ns -> mfind (s_c cur') (s_c ns) m' = mfind (s_c cur') (s_c ns) m).
    { intros nx ns Enx Ens. rewrite Hrn in Enx.
      assert (Enx' : nth_error (A ++ mg_pos top :: B) (S k) = Some nx). { rewrite Hidx in Enx. rewrite nth_error_app2 in Enx |- * by lia. replace (S (S k) - length A) with 2 in Enx by lia. replace (S k - length A) with 1 by lia. exact Enx. }
      pose proof (agree_nth m m' w3 _ k _ _ AG Hpi Enx') as H. rewrite Hlk in H. unfold look in H. rewrite Ens in H. exact H. }
    change (s_prev cur') with (s_prev cur). change (s_next cur') with (s_next rt). do 3 f_equal.
    + destruct (s_prev cur) as [pv|]; [|reflexivity]. destruct (nth_error w3 pv) as [ps|] eqn:Eps; [|reflexivity]. rewrite (G1 _ _ eq_refl Eps). reflexivity.
    + destruct (s_next rt) as [nx|]; [|reflexivity]. destruct (nth_error w3 nx) as [ns|] eqn:Ens; [|reflexivity]. rewrite (G2 _ _ eq_refl Ens). reflexivity.
Qed.

Lemma merge_loop_agree E m m' d : pq_ok E -> forall fuel k w idx q s, Inv w idx -> (forall e, In e (q ++ s) -> mg_pos e < length w) ->
  (forall y, steps (step m) (abs w idx) y -> agree m m' y) -> merge_loop E fuel m' d k w q s = merge_loop E fuel m d k w q s.
Proof.
  intros Hpq. induction fuel as [|f IH]; intros k w idx q s HI Hq HA; cbn [merge_loop]; [reflexivity|]. pose proof (Hpq q) as HP. destruct (e_pq E q) as [[top q']|]; [|reflexivity]. destruct HP as [Hperm _].
  assert (Hsub : forall e, In e q' -> In e q) by (intros e He; eapply Permutation_in; [apply Permutation_sym; exact Hperm | right; exact He]).
  assert (Htop : In top q) by (eapply Permutation_in; [apply Permutation_sym; exact Hperm | left; reflexivity]).
  destruct (dropped E d k).
  - apply (IH _ _ idx); [exact HI | | exact HA]. intros e He. apply Hq. rewrite !in_app_iff in *. destruct He as [He|[He|[<-|[]]]]; auto.
  - assert (Hp : mg_pos top < length w) by (apply Hq, in_app_iff; auto). rewrite (merge_step_agree m m' w idx top HI Hp).
    + destruct (merge_step_spec m w idx top HI Hp) as (w1 & new & HM & HS). rewrite HM. cbn [bind]. destruct HS as [Hrej | A j B w1 new a la b lb rk Hidx Ha Hb Hm Hlen HI3 Hlk Hsame Hl2 Hnp _ _].
      * apply (IH _ _ idx); [exact HI | | exact HA]. intros e He. apply Hq. rewrite !app_nil_r in He. rewrite !in_app_iff in *. destruct He; auto.
      * apply (IH _ _ (A ++ mg_pos top :: B)); [exact HI3 | |].
        -- intros e He. rewrite Hlen. rewrite app_nil_r, !in_app_iff in He. destruct He as [He|[He|He]]; [apply Hq, in_app_iff; auto | apply Hq, in_app_iff; auto | apply Hnp; exact He].
        -- intros y Hy. apply HA. econstructor; [|exact Hy]. exists rk. eapply sr_step; eassumption.
    + apply HA. constructor.
    + intros y Hy. apply HA. econstructor; [exact Hy | constructor].
Qed.
Lemma init_queue_agree m m' l : forall i, agree m m' (contents l) -> init_queue m' i l = init_queue m i l.
Proof.
  induction l as [|a l IH]; intros i H; [reflexivity|]. destruct l as [|b r]; [reflexivity|].
  assert (H1 : mfind (s_c a) (s_c b) m' = mfind (s_c a) (s_c b) m) by exact (H [] (s_c a) (s_len a) (s_c b) (s_len b) (contents r) eq_refl).
  assert (H2 : agree m m' (contents (b :: r))) by (intros A x lx y ly B E0; apply (H ((s_c a, s_len a) :: A) x lx y ly B); unfold contents in *; cbn [map] in *; rewrite E0; reflexivity).
  change (init_queue m' i (a :: b :: r)) with (match mfind (s_c a) (s_c b) m' with Some (rank, new) => mkMerge i rank new :: init_queue m' (S i) (b :: r) | None => init_queue m' (S i) (b :: r) end).
  change (init_queue m i (a :: b :: r)) with (match mfind (s_c a) (s_c b) m with Some (rank, new) => mkMerge i rank new :: init_queue m (S i) (b :: r) | None => init_queue m (S i) (b :: r) end).
  rewrite H1, (IH (S i) H2). reflexivity.
Qed.
Lemma merge_all_agree E m m' d l : pq_ok E -> positive l -> (forall y, steps (step m) l y -> agree m m' y) -> merge_all E m' d (word_of l) = merge_all E m d (word_of l).
Proof.
  intros Hpq Hp HA. unfold merge_all. destruct (word_of l) as [|s0 r0] eqn:Ew; [reflexivity|]. rewrite <- Ew. clear Ew s0 r0.
  assert (HC : contents (word_of l) = l). { apply list_ext. intros i. unfold contents. rewrite nth_error_map, word_of_nth. destruct (nth_error l i) as [[c n]|]; reflexivity. }
  rewrite (init_queue_agree m m' (word_of l) 0) by (rewrite HC; apply HA; constructor).
  rewrite (merge_loop_agree E m m' d Hpq _ 0 (word_of l) (seq 0 (length l))); [reflexivity | apply word_of_inv; exact Hp | | rewrite word_of_abs; exact HA].
  intros e He. rewrite app_nil_r in He. apply init_queue_in in He as (k & a & b & H1 & _ & H3 & _). cbn in H3. rewrite H3. apply nth_error_Some. congruence.
Qed.
