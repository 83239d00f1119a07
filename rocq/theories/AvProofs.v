From Verif Require Import Base BaseFacts Unicode UnicodeProofs Common Normalizer PreTokenizer WordPiece AddedVocab NormSpec NormProofs PreSpec PreProofs AvSpec.
From Coq Require Import ZifyBool.

(** ** Matching *)
Lemma usub_slice u a b : usub u a (b - a) = slice u a b.
Proof. reflexivity. Qed.

Lemma word_ids_in trie : forall t k, sfind t (word_ids trie) = Some k -> In (t, k) trie.
Proof.
  unfold word_ids. assert (G : forall m t k, sfind t (fold_left (fun m p => sset (fst p) (snd p) m) trie m) = Some k -> In (t, k) trie \/ sfind t m = Some k).
  { induction trie as [|[t0 k0] trie IH]; intros m t k H; [right; exact H|]. cbn [fold_left] in H. apply IH in H as [H|H]; [left; right; exact H|].
    cbn [fst snd] in H. rewrite sfind_sset in H. destruct (leqb_spec t t0) as [->|]; [injection H as ->; left; left; reflexivity | right; exact H]. }
  intros t k H. apply G in H as [H|H]; [exact H | discriminate].
Qed.
Lemma word_ids_some trie t k : In (t, k) trie -> exists k', sfind t (word_ids trie) = Some k'.
Proof.
  unfold word_ids. assert (G : forall m, (In (t, k) trie \/ (exists k', sfind t m = Some k')) -> exists k', sfind t (fold_left (fun m p => sset (fst p) (snd p) m) trie m) = Some k').
  { induction trie as [|[t0 k0] trie IH]; intros m H; [destruct H as [[]|H]; exact H|]. cbn [fold_left]. apply IH. cbn [fst snd].
    destruct H as [[H|H]|[k' H]]; [injection H as -> ->; right; exists k; rewrite sfind_sset, leqb_refl; reflexivity | left; exact H|].
    right. rewrite sfind_sset. destruct (leqb t t0); eauto. }
  intros H. apply G. left. exact H.
Qed.

Definition hit_ok (ids : smap Z) (u : ustr) (m : nat * nat * Z) : Prop :=
  let '(a, b, k) := m in sfind (to_utf8 (slice u a b)) ids = Some k.

Lemma raw_matches_ok ids u : forall todo i cur, i + todo = length u -> cur <= i ->
  ordered cur (length u) (map fst (raw_matches ids u todo i cur)) /\ Forall (hit_ok ids u) (raw_matches ids u todo i cur).
Proof.
  induction todo as [|n IH]; intros i cur Hi Hc; cbn [raw_matches].
  - destruct (Nat.eqb_spec i cur); [cbn; split; [lia | constructor]|]. rewrite usub_slice. destruct (sfind _ _) as [k|] eqn:Ek; cbn; [|split; [lia | constructor]].
    split; [lia|]. constructor; [exact Ek | constructor].
  - rewrite usub_slice. destruct (sfind (to_utf8 (slice u cur i)) ids) as [k|] eqn:Ek.
    + assert (Hle : i <= (if (nth i u 0 =? 32)%N then S i else i) <= S i) by (destruct (nth i u 0 =? 32)%N; lia).
      destruct (IH (S i) (if (nth i u 0 =? 32)%N then S i else i) ltac:(lia) ltac:(lia)) as [Ha Hb]. cbn [map fst ordered]. split.
      * repeat split; try lia. eapply ordered_weaken; [|exact Ha]. lia.
      * constructor; [exact Ek | exact Hb].
    + assert (Hle : cur <= (if (nth i u 0 =? 32)%N then S i else cur) <= S i) by (destruct (nth i u 0 =? 32)%N; lia).
      destruct (IH (S i) (if (nth i u 0 =? 32)%N then S i else cur) ltac:(lia) ltac:(lia)) as [Ha Hb]. split; [eapply ordered_weaken; [|exact Ha]; lia | exact Hb].
Qed.

(** segments of a list of plain matches *)
Fixpoint plain_segs (start len : nat) (l : list (nat * nat * Z)) : segmentation :=
  match l with
  | [] => if start =? len then [] else [(None, (start, len))]
  | (a, b, k) :: r => (if start <? a then [(None, (start, a))] else []) ++ (Some k, (a, b)) :: plain_segs b len r
  end.

Lemma resolve_plain sentence total map_r : forall l start, Forall (fun m => exists t, zfind (snd m) map_r = Some t /\ plain_token t) l ->
  resolve_matches sentence total start map_r l = Ok (map_r, plain_segs start total l).
Proof.
  induction l as [|[[a b] k] l IH]; intros start H; [reflexivity|]. inversion H as [|? ? (t & Ht & (P1 & P2 & P3)) H']; subst. cbn [resolve_matches snd] in *.
  rewrite Ht, P1, P2, P3. cbn [bind negb]. rewrite (IH b H'). reflexivity.
Qed.

Lemma plain_segs_ok ids u : forall l start, ordered start (length u) (map fst l) -> Forall (hit_ok ids u) l ->
  chained start (length u) (map snd (plain_segs start (length u) l)) /\
  Forall (fun p => match fst p with
                   | Some i => sfind (to_utf8 (slice u (fst (snd p)) (snd (snd p)))) ids = Some i
                   | None => fst (snd p) < snd (snd p)
                   end) (plain_segs start (length u) l).
Proof.
  induction l as [|[[a b] k] l IH]; intros start Ho Hh; cbn [map fst ordered plain_segs] in *.
  - destruct (Nat.eqb_spec start (length u)); cbn; [split; [assumption | constructor]|]. split; [lia|]. constructor; [cbn; lia | constructor].
  - destruct Ho as (H1 & H2 & H3 & Ho). inversion Hh as [|? ? Hk Hh']; subst. destruct (IH b Ho Hh') as [Ha Hb]. destruct (Nat.ltb_spec start a); cbn.
    + repeat split; try lia; [exact Ha|]. constructor; [cbn; lia|]. constructor; [exact Hk | exact Hb].
    + assert (a = start) as -> by lia. repeat split; try lia; [exact Ha|]. constructor; [exact Hk | exact Hb].
Qed.

Definition segs_of (trie : list (bytes * Z)) (u : ustr) : segmentation :=
  plain_segs 0 (length u) (raw_matches (word_ids trie) u (length u) 0 0).

Lemma find_plain map_r sentence trie : plain_ids map_r trie ->
  av_find_matches map_r sentence trie = Ok (map_r, segs_of trie (from_utf8 sentence)) /\ partitions trie (from_utf8 sentence) (segs_of trie (from_utf8 sentence)).
Proof.
  intros HP. unfold av_find_matches, segs_of. set (u := from_utf8 sentence).
  destruct (raw_matches_ok (word_ids trie) u (length u) 0 0 eq_refl (le_n _)) as [Ho Hh].
  rewrite resolve_plain.
  - split; [reflexivity|]. destruct (plain_segs_ok (word_ids trie) u _ 0 Ho Hh) as [Ha Hb]. split; [exact Ha|].
    eapply Forall_impl; [|exact Hb]. intros [[i|] [a b]] H; cbn in *; [apply word_ids_in; exact H | exact H].
  - eapply Forall_impl; [|exact Hh]. intros [[a b] k] H. cbn in H. apply word_ids_in in H. destruct (proj1 (Forall_forall _ _) HP _ H) as (t & Ht). exists t. exact Ht.
Qed.

(** ** Assigning ids *)
Lemma max_value_ge m : forall k v, In (k, v) m -> exists mx, max_value m = Some mx /\ (v <= mx)%Z.
Proof.
  induction m as [|[k0 v0] m IH]; intros k v H; [destruct H|]. cbn [max_value]. destruct H as [H|H].
  - injection H as -> ->. destruct (max_value m); eexists; (split; [reflexivity | lia]).
  - destruct (IH k v H) as (mx & -> & Hm). eexists. split; [reflexivity | lia].
Qed.
Lemma max_value_in m : forall mx, max_value m = Some mx -> exists k, In (k, mx) m.
Proof.
  induction m as [|[k0 v0] m IH]; intros mx H; [discriminate|]. cbn [max_value] in H. destruct (max_value m) as [w|].
  - injection H as <-. destruct (Z.max_spec v0 w) as [[_ ->]|[_ ->]]; [destruct (IH w eq_refl) as (k & Hk); exists k; right; exact Hk | exists k0; left; reflexivity].
  - injection H as <-. exists k0. left. reflexivity.
Qed.
Lemma sset_keys {V} k (v : V) m : NoDup (map fst m) -> NoDup (map fst (sset k v m)) /\ (forall x, In x (map fst (sset k v m)) <-> x = k \/ In x (map fst m)).
Proof.
  induction m as [|[q w] m IH]; intros Hn; cbn [sset map fst].
  - split; [constructor; [tauto | constructor]|]. intros x. cbn. intuition congruence.
  - inversion Hn as [|? ? Hq Hn']; subst. destruct (IH Hn') as [I1 I2]. destruct (leqb_spec k q) as [->|Hne]; cbn [map fst].
    + split; [constructor; assumption|]. intros x. cbn. intuition congruence.
    + split; [constructor; [|exact I1]; rewrite I2; intuition congruence|]. intros x. cbn. rewrite I2. tauto.
Qed.

(** The invariant: a token of the model has the model's id, the others have ids beyond the model's; ids are unique; and the reverse
    map leads back. *)
Record ids_ok (v : smap Z) (av : added_vocab) : Prop := {
  io_keys : NoDup (map fst (av_map av));
  io_model : forall t i, sfind t (av_map av) = Some i -> match sfind t v with Some j => i = j | None => (Z.of_nat (length v) <= i)%Z end;
  io_inj : forall t1 t2 i, sfind t1 (av_map av) = Some i -> sfind t2 (av_map av) = Some i -> t1 = t2;
  io_back : forall t i, sfind t (av_map av) = Some i -> exists tok, zfind i (av_map_r av) = Some tok /\ at_content tok = t;
  io_from : forall i tok, zfind i (av_map_r av) = Some tok -> sfind (at_content tok) (av_map av) = Some i \/ (at_content tok = [] /\ sfind [] v = Some i) }.

Lemma dense_range v t i : dense v -> sfind t v = Some i -> (0 <= i < Z.of_nat (length v))%Z.
Proof. intros (_ & _ & H) Hf. apply sfind_in in Hf. exact (proj1 (Forall_forall _ _) H _ Hf). Qed.
Lemma nodup_snd_inj {A} (v : list (A * Z)) : NoDup (map snd v) -> forall a b i, In (a, i) v -> In (b, i) v -> a = b.
Proof.
  induction v as [|[k w] v IH]; intros Hn a b i H1 H2; [destruct H1|]. cbn in Hn. inversion Hn as [|? ? Hw Hn']; subst.
  assert (HN : forall c, In (c, w) v -> False) by (intros c Hc; apply Hw; apply in_map_iff; exists (c, w); auto).
  destruct H1 as [H1|H1], H2 as [H2|H2].
  - congruence.
  - injection H1 as -> ->. destruct (HN _ H2).
  - injection H2 as -> ->. destruct (HN _ H1).
  - eapply IH; eassumption.
Qed.
Lemma dense_inj v a b i : dense v -> sfind a v = Some i -> sfind b v = Some i -> a = b.
Proof. intros (_ & H & _) H1 H2. eapply nodup_snd_inj; [exact H | apply sfind_in; exact H1 | apply sfind_in; exact H2]. Qed.

Lemma choose_id_ok v av t : dense v -> v <> [] -> ids_ok v av -> exists i, choose_id av (Some v) t = Ok i /\
  (forall j, sfind t (av_map av) = Some j -> i = j) /\
  match sfind t v with Some j => i = j | None => (Z.of_nat (length v) <= i)%Z end /\
  (forall t', sfind t' (av_map av) = Some i -> t' = t).
Proof.
  intros Hd Hne HI. unfold choose_id. destruct (sfind t (av_map av)) as [i|] eqn:Et.
  - exists i. split; [reflexivity|]. split; [congruence|]. split; [exact (io_model _ _ HI t i Et)|]. intros t' H. eapply io_inj; eassumption.
  - unfold token_to_id, vocab_size. assert (Hs : (0 < Z.of_nat (length v))%Z) by (destruct v; [congruence | cbn; lia]).
    destruct (sfind t v) as [i|] eqn:Ev.
    + exists i. split; [reflexivity|]. split; [discriminate|]. split; [reflexivity|]. intros t' H. pose proof (io_model _ _ HI t' i H) as Hm. pose proof (dense_range v t i Hd Ev) as Hr.
      destruct (sfind t' v) as [j|] eqn:Ev'; [subst j; eapply dense_inj; eassumption | lia].
    + replace (Z.of_nat (length v) =? 0)%Z with false by lia. cbn [orb]. destruct (max_value (av_map av)) as [mx|] eqn:Em.
      * destruct (Z.leb_spec (Z.of_nat (length v)) mx).
        -- exists (mx + 1)%Z. split; [reflexivity|]. split; [discriminate|]. split; [lia|]. intros t' H'. apply sfind_in in H'. destruct (max_value_ge _ _ _ H') as (mx' & E' & Hle). rewrite E' in Em. injection Em as ->. lia.
        -- exists (Z.of_nat (length v)). split; [reflexivity|]. split; [discriminate|]. split; [lia|]. intros t' H'. apply sfind_in in H'. destruct (max_value_ge _ _ _ H') as (mx' & E' & Hle). rewrite E' in Em. injection Em as ->. lia.
      * exists (Z.of_nat (length v)). split; [reflexivity|]. split; [discriminate|]. split; [lia|]. intros t' H'. apply sfind_in in H'. destruct (max_value_ge _ _ _ H') as (mx' & E' & Hle). congruence.
Qed.

Lemma step_ok v av av' tok i : dense v -> ids_ok v av -> at_content tok <> [] ->
  (forall j, sfind (at_content tok) (av_map av) = Some j -> i = j) ->
  match sfind (at_content tok) v with Some j => i = j | None => (Z.of_nat (length v) <= i)%Z end ->
  (forall t', sfind t' (av_map av) = Some i -> t' = at_content tok) ->
  av_map av' = sset (at_content tok) i (av_map av) -> av_map_r av' = zset i tok (av_map_r av) -> ids_ok v av'.
Proof.
  intros Hd HI Hne Hold Hmod Huniq Em Er. constructor; rewrite ?Em, ?Er.
  - apply sset_keys. exact (io_keys _ _ HI).
  - intros t j. rewrite sfind_sset. destruct (leqb_spec t (at_content tok)) as [->|_]; [intros H; injection H as <-; exact Hmod | apply io_model; exact HI].
  - intros t1 t2 j. rewrite !sfind_sset. destruct (leqb_spec t1 (at_content tok)) as [->|N1], (leqb_spec t2 (at_content tok)) as [->|N2]; intros H1 H2.
    + reflexivity.
    + injection H1 as <-. symmetry. apply Huniq. exact H2.
    + injection H2 as <-. apply Huniq. exact H1.
    + eapply io_inj; eassumption.
  - intros t j. rewrite sfind_sset, zfind_zset. destruct (leqb_spec t (at_content tok)) as [->|N1]; intros H.
    + injection H as <-. rewrite Z.eqb_refl. exists tok. auto.
    + destruct (Z.eqb_spec j i) as [->|Hji]; [exfalso; apply N1; apply Huniq; exact H | apply (io_back _ _ HI); exact H].
  - intros j tok'. rewrite zfind_zset. destruct (Z.eqb_spec j i) as [->|Hji]; intros H.
    + injection H as <-. left. rewrite sfind_sset, leqb_refl. reflexivity.
    + destruct (io_from _ _ HI j tok' H) as [H'|H']; [left | right; exact H'].
      rewrite sfind_sset. destruct (leqb_spec (at_content tok') (at_content tok)) as [E|E]; [|exact H'].
      exfalso. apply Hji. rewrite E in H'. symmetry. apply Hold. exact H'.
Qed.

Lemma ids_ok_ext v av av' : av_map av' = av_map av -> av_map_r av' = av_map_r av -> ids_ok v av -> ids_ok v av'.
Proof. intros E1 E2 [H1 H2 H3 H4 H5]. constructor; rewrite ?E1, ?E2; assumption. Qed.

Lemma assign_ids_ok v : dense v -> v <> [] -> forall l av alias, ids_ok v av -> (alias = true -> Forall (fun t => at_content t = [] \/ In (at_content t) (av_special_set av)) l) ->
  exists av', assign_ids alias av (Some v) l = Ok av' /\ ids_ok v av' /\
    (forall t i, sfind t (av_map av) = Some i -> sfind t (av_map av') = Some i) /\
    (forall t, (exists i, sfind t (av_map av') = Some i) <-> (exists i, sfind t (av_map av) = Some i) \/ (t <> [] /\ In t (map at_content l))) /\
    av_specials av' = av_specials av /\ av_special_set av' = av_special_set av /\
    av_added av' = av_added av ++ filter (fun t => negb (is_nil (at_content t)) && negb (smem (at_content t) (av_special_set av))) l.
Proof.
  intros Hd Hne. induction l as [|tok l IH]; intros av alias HI HA.
  - exists av. split; [reflexivity|]. split; [exact HI|]. split; [auto|]. split; [|split; [reflexivity|]; split; [reflexivity | cbn; rewrite app_nil_r; reflexivity]].
    intros t. cbn. tauto.
  - cbn [assign_ids filter]. destruct (is_nil (at_content tok)) eqn:En.
    + apply is_nil_true in En. destruct (IH av alias HI) as (av' & H1 & H2 & H3 & H4 & H5 & H6 & H7); [intros Ha; specialize (HA Ha); inversion HA; assumption|].
      exists av'. split; [exact H1|]. split; [exact H2|]. split; [exact H3|]. split; [|cbn [negb andb]; auto]. intros t. rewrite H4. cbn. rewrite En. split; [tauto|]. intros [H|[Ht [H|H]]]; [left; exact H | congruence | right; auto].
    + apply is_nil_false in En. destruct (choose_id_ok v av (at_content tok) Hd Hne HI) as (i & -> & C1 & C2 & C3). cbn [bind negb andb].
      set (m' := sset (at_content tok) i (av_map av)). set (r' := zset i tok (av_map_r av)).
      assert (HS : forall added, ids_ok v (mkAv added (av_specials av) (av_special_set av) m' r' (av_trie_norm av) (av_trie_raw av))) by (intros added; eapply (step_ok v av _ tok i); eauto).
      assert (HK : forall t, (exists j, sfind t m' = Some j) <-> (exists j, sfind t (av_map av) = Some j) \/ t = at_content tok).
      { intros t. unfold m'. rewrite sfind_sset. destruct (leqb_spec t (at_content tok)) as [->|Hn]; [split; [auto | intros _; eauto] | split; [auto | intros [H|H]; [exact H | congruence]]]. }
      assert (HO : forall t j, sfind t (av_map av) = Some j -> sfind t m' = Some j).
      { intros t j H. unfold m'. rewrite sfind_sset. destruct (leqb_spec t (at_content tok)) as [->|Hn]; [f_equal; apply C1; exact H | exact H]. }
      destruct (smem (at_content tok) (av_special_set av)) eqn:Es; cbn [negb].
      * destruct (IH (mkAv (av_added av) (av_specials av) (av_special_set av) m' r' (av_trie_norm av) (av_trie_raw av)) alias (HS _)) as (av' & H1 & H2 & H3 & H4 & H5 & H6 & H7).
        { intros Ha. specialize (HA Ha). inversion HA; assumption. }
        cbn [av_map av_specials av_special_set av_added] in *. exists av'. split; [exact H1|]. split; [exact H2|]. split; [intros t j H; apply H3, HO; exact H|]. split; [|auto].
        intros t. rewrite H4, HK. cbn [map In]. split; [intros [[H|H]|H]; [auto | right; split; [congruence | left; congruence] | right; tauto]|]. intros [H|[Hn [H|H]]]; [auto | left; right; congruence | right; auto].
      * destruct alias.
        { specialize (HA eq_refl). inversion HA as [|? ? [H|H] _]; subst; [congruence|]. apply smem_in in H. congruence. }
        destruct (IH (mkAv (av_added av ++ [tok]) (av_specials av) (av_special_set av) m' r' (av_trie_norm av) (av_trie_raw av)) false (HS _)) as (av' & H1 & H2 & H3 & H4 & H5 & H6 & H7); [discriminate|].
        cbn [av_map av_specials av_special_set av_added] in *. exists av'. split; [exact H1|]. split; [exact H2|]. split; [intros t j H; apply H3, HO; exact H|]. split; [|split; [exact H5|]; split; [exact H6|]].
        -- intros t. rewrite H4, HK. cbn [map In]. split; [intros [[H|H]|H]; [auto | right; split; [congruence | left; congruence] | right; tauto]|]. intros [H|[Hn [H|H]]]; [auto | left; right; congruence | right; auto].
        -- rewrite H7, <- app_assoc. reflexivity.
Qed.

Lemma register_ok l : forall av, let av1 := fold_left register_special l av in
  av_added av1 = av_added av /\ av_map av1 = av_map av /\ av_map_r av1 = av_map_r av /\ av_trie_norm av1 = av_trie_norm av /\ av_trie_raw av1 = av_trie_raw av /\
  (forall t, In t (av_special_set av1) <-> In t (av_special_set av) \/ (t <> [] /\ exists tok, In tok l /\ at_special tok = true /\ at_content tok = t)) /\
  (forall tok, In tok (av_specials av1) -> In tok (av_specials av) \/ (In tok l /\ at_special tok = true /\ at_content tok <> [])) /\
  (forall t, In t (av_special_set av1) -> In t (av_special_set av) \/ exists tok, In tok (av_specials av1) /\ at_content tok = t) /\
  (forall tok, In tok (av_specials av) -> In tok (av_specials av1)).
Proof.
  induction l as [|tok l IH]; intros av; cbn [fold_left].
  - repeat split; try tauto. intros [H|(_ & x & [] & _)]. exact H.
  - specialize (IH (register_special av tok)). cbv zeta in IH. destruct IH as (A1 & A2 & A3 & A4 & A5 & A6 & A7 & A8 & A9).
    unfold register_special in A1, A2, A3, A4, A5, A6, A7, A8, A9 |- *.
    destruct (at_special tok && negb (is_nil (at_content tok)) && negb (smem (at_content tok) (av_special_set av))) eqn:Eb; cbn [av_added av_map av_map_r av_trie_norm av_trie_raw av_special_set av_specials] in *.
    + apply andb_prop in Eb as [Eb _]. apply andb_prop in Eb as [Es En]. apply negb_true_iff, is_nil_false in En.
      repeat (split; [assumption|]). split; [|split; [|split]].
      * intros t. rewrite A6, in_app_iff. cbn [In]. split.
        -- intros [[H|[<-|[]]]|(Hn & x & Hx & H)]; [left; exact H | right; split; [exact En | exists tok; auto] | right; split; [exact Hn | exists x; auto]].
        -- intros [H|(Hn & x & [<-|Hx] & Hs & <-)]; [tauto | tauto | right; split; [exact Hn | exists x; auto]].
      * intros x Hx. destruct (A7 x Hx) as [H|(H & H')]; [|right; cbn; tauto]. apply in_app_iff in H as [H|[<-|[]]]; [left; exact H | right; cbn; tauto].
      * intros t Ht. destruct (A8 t Ht) as [H|H]; [|right; exact H]. apply in_app_iff in H as [H|[<-|[]]]; [left; exact H|]. right. exists tok. split; [apply A9; apply in_app_iff; right; left; reflexivity | reflexivity].
      * intros x Hx. apply A9. apply in_app_iff. left. exact Hx.
    + repeat (split; [assumption|]). split; [|split; [|split]].
      * intros t. rewrite A6. split.
        -- intros [H|(Hn & x & Hx & H)]; [left; exact H | right; split; [exact Hn | exists x; cbn; tauto]].
        -- intros [H|(Hn & x & [<-|Hx] & Hs & <-)]; [tauto | | right; split; [exact Hn | exists x; auto]].
           left. rewrite Hs in Eb. apply is_nil_false in Hn. rewrite Hn in Eb. cbn in Eb. apply negb_false_iff in Eb. apply smem_in. exact Eb.
      * intros x Hx. destruct (A7 x Hx) as [H|(H & H')]; [left; exact H | right; cbn; tauto].
      * exact A8.
      * exact A9.
Qed.

Lemma known_in v b l : forall t i, In (t, i) (known_tokens v b l) <-> sfind t v = Some i /\ exists tok, In tok l /\ at_content tok = t /\ at_normalized tok = b.
Proof.
  induction l as [|tok l IH]; intros t i; cbn [known_tokens]; [split; [intros [] | intros (_ & x & [] & _)]|].
  unfold token_to_id. destruct (sfind (at_content tok) v) as [j|] eqn:Ej.
  - destruct (Bool.eqb (at_normalized tok) b) eqn:Eb.
    + apply Bool.eqb_prop in Eb. cbn [In]. rewrite IH. split.
      * intros [H|(H & x & Hx & H')]; [injection H as <- <-; split; [exact Ej | exists tok; auto] | split; [exact H | exists x; auto]].
      * intros (H & x & [<-|Hx] & <- & Hb); [left; congruence | right; split; [exact H | exists x; auto]].
    + apply Bool.eqb_false_iff in Eb. rewrite IH. split; intros (H & x & Hx & H'); (split; [exact H|]); exists x; [cbn; tauto|]. destruct Hx as [<-|Hx]; [destruct H'; congruence | auto].
  - rewrite IH. split; intros (H & x & Hx & H'); (split; [exact H|]); exists x; [cbn; tauto|]. destruct Hx as [<-|Hx]; [destruct H' as [<- _]; congruence | auto].
Qed.

(** One call of add_tokens. *)
Lemma add_tokens_ok v av l alias : dense v -> v <> [] -> ids_ok v av ->
  (alias = true -> Forall (fun t => at_content t = [] \/ In (at_content t) (av_special_set av) \/ exists tok, In tok l /\ at_special tok = true /\ at_content tok = at_content t) l) ->
  exists av', av_add_tokens alias av (Some v) l = Ok (av', (Z.of_nat (length l) - Z.of_nat (length (filter (fun t => is_nil (at_content t)) l)))%Z) /\ ids_ok v av' /\
    (forall t i, sfind t (av_map av) = Some i -> sfind t (av_map av') = Some i) /\
    (forall t, (exists i, sfind t (av_map av') = Some i) <-> (exists i, sfind t (av_map av) = Some i) \/ (t <> [] /\ In t (map at_content l))) /\
    (forall t, In t (av_special_set av') <-> In t (av_special_set av) \/ (t <> [] /\ exists tok, In tok l /\ at_special tok = true /\ at_content tok = t)) /\
    (forall t, In t (av_special_set av') -> In t (av_special_set av) \/ exists tok, In tok (av_specials av') /\ at_content tok = t) /\
    (forall tok, In tok (av_specials av) -> In tok (av_specials av')) /\
    (forall tok, In tok (av_specials av') -> In tok (av_specials av) \/ (In tok l /\ at_special tok = true /\ at_content tok <> [])) /\
    av_added av' = av_added av ++ filter (fun t => negb (is_nil (at_content t)) && negb (smem (at_content t) (av_special_set av'))) l /\
    av_trie_norm av' = known_tokens v true (av_specials av' ++ av_added av') /\ av_trie_raw av' = known_tokens v false (av_specials av' ++ av_added av').
Proof.
  intros Hd Hne HI HA. pose proof (register_ok l av) as HR. cbv zeta in HR. unfold av_add_tokens. set (av1 := fold_left register_special l av) in *.
  destruct HR as (A1 & A2 & A3 & A4 & A5 & A6 & A7 & A8 & A9).
  destruct (assign_ids_ok v Hd Hne l av1 alias) as (av2 & H1 & H2 & H3 & H4 & H5 & H6 & H7).
  - eapply ids_ok_ext; [exact A2 | exact A3 | exact HI].
  - intros Ha. specialize (HA Ha). eapply Forall_impl; [|exact HA]. cbn beta. intros t [H|[H|H]]; [left; exact H | right; apply A6; left; exact H|].
    destruct (at_content t) eqn:Et; [left; reflexivity|]. right. apply A6. right. split; [discriminate | exact H].
  - cbv zeta. rewrite H1. cbn [bind refresh_added_tokens]. eexists. split; [reflexivity|]. cbn [av_map av_map_r av_special_set av_specials av_added av_trie_norm av_trie_raw].
    rewrite A2 in H3, H4. rewrite H5, H6, H7, A1.
    split; [eapply ids_ok_ext; [| |exact H2]; reflexivity|]. split; [exact H3|]. split; [exact H4|]. split; [exact A6|]. split; [exact A8|]. split; [exact A9|]. split; [exact A7|]. split; [reflexivity|]. split; reflexivity.
Qed.

(** ** The reverse map only grows by default entries *)
Definition look (m : zmap added_token) (i : Z) : added_token := match zfind i m with Some t => t | None => default_added_token end.
Record grow (ids : list Z) (m m' : zmap added_token) : Prop := {
  gr_keep : forall i t, zfind i m = Some t -> zfind i m' = Some t;
  gr_new : forall i t, zfind i m' = Some t -> zfind i m = Some t \/ (t = default_added_token /\ In i ids);
  gr_look : forall i, look m' i = look m i;
  gr_same : (forall i, In i ids -> zfind i m <> None) -> m' = m }.

Lemma grow_refl ids m : grow ids m m.
Proof. constructor; auto. Qed.
Lemma grow_trans ids m1 m2 m3 : grow ids m1 m2 -> grow ids m2 m3 -> grow ids m1 m3.
Proof.
  intros [K1 N1 L1 S1] [K2 N2 L2 S2]. constructor.
  - auto.
  - intros i t H. destruct (N2 i t H) as [H'|H']; [apply N1; exact H' | right; exact H'].
  - intros i. rewrite L2. apply L1.
  - intros H. specialize (S1 H). subst m2. apply S2. exact H.
Qed.
Lemma grow_incl ids ids' m m' : incl ids ids' -> grow ids m m' -> grow ids' m m'.
Proof.
  intros Hi [K N L S]. constructor; auto.
  intros i t H. destruct (N i t H) as [H'|[H' H'']]; [left; exact H' | right; split; [exact H' | apply Hi; exact H'']].
Qed.

Lemma zfind_app {V} i (m1 m2 : zmap V) : zfind i (m1 ++ m2) = match zfind i m1 with Some t => Some t | None => zfind i m2 end.
Proof. induction m1 as [|[k w] m1 IH]; [reflexivity|]. cbn. destruct (i =? k)%Z; [reflexivity | exact IH]. Qed.

Lemma resolve_grow sentence total l : forall start map_r m segs, resolve_matches sentence total start map_r l = Ok (m, segs) -> grow (map snd l) map_r m.
Proof.
  induction l as [|[[a b] k] l IH]; intros start map_r m segs H; cbn [resolve_matches] in H; [injection H as <- <-; apply grow_refl|].
  set (pr := match zfind k map_r with Some t => (t, map_r) | None => (default_added_token, map_r ++ [(k, default_added_token)]) end) in H.
  assert (HG : grow [k] map_r (snd pr)).
  { unfold pr. destruct (zfind k map_r) as [t|] eqn:Ek; cbn [snd]; [apply grow_refl|]. constructor.
    - intros i t H'. rewrite zfind_app, H'. reflexivity.
    - intros i t. rewrite zfind_app. destruct (zfind i map_r); [auto|]. cbn. destruct (Z.eqb_spec i k) as [->|]; [|discriminate]. intros E. injection E as <-. right. auto.
    - intros i. unfold look. rewrite zfind_app. destruct (zfind i map_r); [reflexivity|]. cbn. destruct (i =? k)%Z; reflexivity.
    - intros H'. exfalso. apply (H' k); [left; reflexivity | exact Ek]. }
  destruct pr as [tok map_r'] eqn:Ep. cbn [snd] in HG. apply bind_ok in H as (keep & _ & H).
  assert (HX : incl [k] (k :: map snd l) /\ incl (map snd l) (k :: map snd l)) by (split; intros x Hx; cbn in *; tauto).
  destruct (negb keep).
  - apply IH in H. cbn [map snd]. eapply grow_trans; (eapply grow_incl; [|eassumption]); apply HX.
  - apply bind_ok in H as (s' & _ & H). apply bind_ok in H as (e' & _ & H). apply bind_ok in H as ([m1 rest] & H1 & H). injection H as <- _.
    apply IH in H1. cbn [map snd]. eapply grow_trans; (eapply grow_incl; [|eassumption]); apply HX.
Qed.

Lemma raw_ids ids u todo : forall i cur, Forall (fun m => exists t, sfind t ids = Some (snd m)) (raw_matches ids u todo i cur).
Proof.
  induction todo as [|n IH]; intros i cur; cbn [raw_matches].
  - destruct (i =? cur); [constructor|]. destruct (sfind _ ids) as [k|] eqn:E; constructor; [cbn; eauto | constructor].
  - destruct (sfind (to_utf8 (usub u cur (i - cur))) ids) as [k|] eqn:E; [constructor; [cbn; eauto|]|]; apply IH.
Qed.

Lemma find_grow map_r sentence trie m segs : av_find_matches map_r sentence trie = Ok (m, segs) -> grow (map snd trie) map_r m.
Proof.
  intros H. apply resolve_grow in H. eapply grow_incl; [|exact H]. intros k Hk. apply in_map_iff in Hk as (x & <- & Hx).
  destruct (proj1 (Forall_forall _ _) (raw_ids (word_ids trie) _ _ 0 0) x Hx) as (t & Ht). apply word_ids_in in Ht. apply in_map_iff. exists (t, snd x). auto.
Qed.

Lemma normalize_grow E norm trie l : forall ns map_r ending ns' m splits, normalize_splits E norm trie ns map_r ending l = Ok (ns', m, splits) -> grow (map snd trie) map_r m.
Proof.
  induction l as [|s l IH]; intros ns map_r ending ns' m splits H; cbn [normalize_splits] in H; [injection H as <- <- <-; apply grow_refl|].
  destruct (sp_tokens s).
  - apply bind_ok in H as (w & _ & H). apply bind_ok in H as (sub & _ & H). apply bind_ok in H as (ns1 & _ & H). apply bind_ok in H as (sentence & _ & H).
    apply bind_ok in H as ([m1 ms] & H1 & H). apply bind_ok in H as (here & _ & H). apply bind_ok in H as ([[ns2 m2] rest] & H2 & H). injection H as _ <- _.
    eapply grow_trans; [eapply find_grow; exact H1 | eapply IH; exact H2].
  - apply bind_ok in H as ([[ns2 m2] rest] & H2 & H). injection H as _ <- _. eapply IH; exact H2.
Qed.

Lemma extract_grow E av norm s m p : extract_and_normalize E av norm s = Ok (m, p) -> grow (map snd (av_trie_norm av ++ av_trie_raw av)) (av_map_r av) m.
Proof.
  intros H. unfold extract_and_normalize in H. apply bind_ok in H as (p0 & _ & H). apply bind_ok in H as (sentence & _ & H). apply bind_ok in H as ([m1 ms] & H1 & H).
  apply bind_ok in H as (raw & _ & H). apply bind_ok in H as ([[ns m2] splits2] & H2 & H). injection H as <- _.
  eapply grow_trans; [eapply grow_incl; [|eapply find_grow; exact H1] | eapply grow_incl; [|eapply normalize_grow; exact H2]];
    intros k Hk; rewrite map_app; apply in_app_iff; tauto.
Qed.

(** ** The map after a call, successful or not *)
Lemma resolve_map_ok sentence total l : forall start map_r m segs, resolve_matches sentence total start map_r l = Ok (m, segs) -> resolve_map sentence map_r l = m.
Proof.
  induction l as [|[[a b] k] l IH]; intros start map_r m segs H; cbn [resolve_matches] in H; [injection H as <- <-; reflexivity|]. cbn [resolve_map].
  destruct (match zfind k map_r with Some t => _ | None => _ end) as [tok map_r'].
  apply bind_ok in H as (keep & Hk & H). rewrite Hk. cbn [bind]. destruct (negb keep); [eapply IH; exact H|].
  apply bind_ok in H as (s' & H1 & H). apply bind_ok in H as (e' & H2 & H). apply bind_ok in H as ([m1 rest] & H3 & H). injection H as <- _.
  assert (G1 : (if at_lstrip tok then p <- substr_range sentence 0 a ;; Ok 0 else Ok 0) = Ok 0).
  { destruct (at_lstrip tok); [|reflexivity]. apply bind_ok in H1 as (p & -> & _). reflexivity. }
  assert (G2 : (if at_rstrip tok then p <- substr_from sentence b ;; Ok 0 else Ok 0) = Ok 0).
  { destruct (at_rstrip tok); [|reflexivity]. apply bind_ok in H2 as (p & -> & _). reflexivity. }
  rewrite G1. cbn [bind]. rewrite G2. eapply IH; exact H3.
Qed.
Lemma find_map_ok map_r sentence trie m segs : av_find_matches map_r sentence trie = Ok (m, segs) -> find_map map_r sentence trie = m.
Proof. apply resolve_map_ok. Qed.
Lemma normalize_map_ok E norm trie l : forall ns map_r ending ns' m splits, normalize_splits E norm trie ns map_r ending l = Ok (ns', m, splits) -> normalize_map E norm trie ns map_r ending l = m.
Proof.
  induction l as [|s l IH]; intros ns map_r ending ns' m splits H; cbn [normalize_splits] in H; [injection H as <- <- <-; reflexivity|]. cbn [normalize_map].
  destruct (sp_tokens s).
  - apply bind_ok in H as (w & -> & H). cbn [bind]. cbv zeta in H. apply bind_ok in H as (sub & Hs & H). rewrite Hs. cbn [bind]. apply bind_ok in H as (ns1 & -> & H). cbn [bind]. apply bind_ok in H as (sentence & -> & H). cbn [bind].
    apply bind_ok in H as ([m1 ms] & H1 & H). rewrite H1. cbn [bind]. apply bind_ok in H as (here & -> & H). apply bind_ok in H as ([[ns2 m2] rest] & H2 & H). injection H as _ <- _.
    rewrite (find_map_ok _ _ _ _ _ H1). eapply IH; exact H2.
  - apply bind_ok in H as ([[ns2 m2] rest] & H2 & H). injection H as _ <- _. eapply IH; exact H2.
Qed.
Lemma extract_map_ok E av norm s m p : extract_and_normalize E av norm s = Ok (m, p) -> extract_map E av norm s = m.
Proof.
  intros H. unfold extract_and_normalize in H. unfold extract_map. apply bind_ok in H as (p0 & -> & H). cbn [bind]. apply bind_ok in H as (sentence & -> & H). cbn [bind]. apply bind_ok in H as ([m1 ms] & H1 & H).
  rewrite H1. cbn [bind]. apply bind_ok in H as (raw & -> & H). cbv zeta in *. apply bind_ok in H as ([[ns m2] splits2] & H2 & H). injection H as <- _. rewrite (find_map_ok _ _ _ _ _ H1). eapply normalize_map_ok; exact H2.
Qed.

Lemma insert_grow k (map_r : zmap added_token) : grow [k] map_r (snd (match zfind k map_r with Some t => (t, map_r) | None => (default_added_token, map_r ++ [(k, default_added_token)]) end)).
Proof.
  destruct (zfind k map_r) as [t|] eqn:Ek; cbn [snd]; [apply grow_refl|]. constructor.
  - intros i t H'. rewrite zfind_app, H'. reflexivity.
  - intros i t. rewrite zfind_app. destruct (zfind i map_r); [auto|]. cbn. destruct (Z.eqb_spec i k) as [->|]; [|discriminate]. intros E. injection E as <-. right. auto.
  - intros i. unfold look. rewrite zfind_app. destruct (zfind i map_r); [reflexivity|]. cbn. destruct (i =? k)%Z; reflexivity.
  - intros H'. exfalso. apply (H' k); [left; reflexivity | exact Ek].
Qed.
Lemma resolve_map_grow sentence l : forall map_r, grow (map snd l) map_r (resolve_map sentence map_r l).
Proof.
  induction l as [|[[a b] k] l IH]; intros map_r; cbn [resolve_map]; [apply grow_refl|]. pose proof (insert_grow k map_r) as HG.
  destruct (match zfind k map_r with Some t => _ | None => _ end) as [tok map_r']. cbn [snd map] in *.
  assert (HX : incl [k] (k :: map snd l) /\ incl (map snd l) (k :: map snd l)) by (split; intros x Hx; cbn in *; tauto).
  match goal with |- grow _ _ (match ?x with Ok _ => _ | _ => _ end) => destruct x end; [|exact (grow_incl _ _ _ _ (proj1 HX) HG) ..].
  exact (grow_trans _ _ _ _ (grow_incl _ _ _ _ (proj1 HX) HG) (grow_incl _ _ _ _ (proj2 HX) (IH map_r'))).
Qed.
Lemma find_map_grow map_r sentence trie : grow (map snd trie) map_r (find_map map_r sentence trie).
Proof.
  eapply grow_incl; [|apply resolve_map_grow]. intros k Hk. apply in_map_iff in Hk as (x & <- & Hx).
  destruct (proj1 (Forall_forall _ _) (raw_ids (word_ids trie) _ _ 0 0) x Hx) as (t & Ht). apply word_ids_in in Ht. apply in_map_iff. exists (t, snd x). auto.
Qed.
Lemma normalize_map_grow E norm trie l : forall ns map_r ending, grow (map snd trie) map_r (normalize_map E norm trie ns map_r ending l).
Proof.
  induction l as [|s l IH]; intros ns map_r ending; cbn [normalize_map]; [apply grow_refl|]. destruct (sp_tokens s); [|apply IH].
  match goal with |- grow _ _ (match ?x with Ok _ => _ | _ => _ end) => destruct x as [[[sub ns'] sentence]| | |] end; [|apply grow_refl ..].
  match goal with |- grow _ _ (match ?x with Ok _ => _ | _ => _ end) => destruct x end; [|apply find_map_grow ..].
  eapply grow_trans; [apply find_map_grow | apply IH].
Qed.
Lemma extract_map_grow E av norm s : grow (map snd (av_trie_norm av ++ av_trie_raw av)) (av_map_r av) (extract_map E av norm s).
Proof.
  unfold extract_map. destruct (p <- new_pretok (new_nstring s) ;; _) as [[p sentence]| | |]; [|apply grow_refl ..]. cbv zeta.
  assert (H1 : grow (map snd (av_trie_norm av ++ av_trie_raw av)) (av_map_r av) (find_map (av_map_r av) sentence (av_trie_raw av))).
  { eapply grow_incl; [|apply find_map_grow]. intros k Hk. rewrite map_app. apply in_app_iff. tauto. }
  match goal with |- grow _ _ (match ?x with Ok _ => _ | _ => _ end) => destruct x as [raw| | |] end; [|exact H1 ..].
  eapply grow_trans; [exact H1|]. eapply grow_incl; [|apply normalize_map_grow]. intros k Hk. rewrite map_app. apply in_app_iff. tauto.
Qed.

(** ** The invariant of histories *)
Record hist_ok (v : smap Z) (ops : list added_token) (av : added_vocab) : Prop := {
  ho_ids : ids_ok v av;
  ho_assigned : forall t, (exists i, sfind t (av_map av) = Some i) <-> (t <> [] /\ In t (map at_content ops));
  ho_special : forall t, In t (av_special_set av) <-> (t <> [] /\ exists tok, In tok ops /\ at_special tok = true /\ at_content tok = t);
  ho_specials : forall tok, In tok (av_specials av) -> In tok ops /\ at_special tok = true /\ at_content tok <> [];
  ho_added : forall tok, In tok (av_added av) -> In tok ops;
  ho_all : forall tok, In tok ops -> at_content tok <> [] -> exists tok', In tok' (av_specials av ++ av_added av) /\ at_content tok' = at_content tok;
  ho_norm : av_trie_norm av = known_tokens v true (av_specials av ++ av_added av);
  ho_raw : av_trie_raw av = known_tokens v false (av_specials av ++ av_added av) }.

Lemma empty_ids_ok v l : ids_ok v (new_added_vocab l).
Proof. constructor; cbn; try discriminate; try (intros; discriminate). constructor. Qed.

Lemma trie_model v ops av t i : hist_ok v ops av -> In (t, i) (av_trie_norm av ++ av_trie_raw av) -> sfind t v = Some i /\ exists tok, In tok ops /\ at_content tok = t.
Proof.
  intros H Hin. assert (G : sfind t v = Some i /\ exists tok, In tok (av_specials av ++ av_added av) /\ at_content tok = t).
  { apply in_app_iff in Hin as [Hin|Hin]; [rewrite (ho_norm _ _ _ H) in Hin | rewrite (ho_raw _ _ _ H) in Hin]; apply known_in in Hin as (H1 & tok & H2 & H3 & _); eauto. }
  destruct G as (G1 & tok & G2 & G3). split; [exact G1|]. exists tok. split; [|exact G3]. apply in_app_iff in G2 as [G2|G2]; [apply (ho_specials _ _ _ H); exact G2 | apply (ho_added _ _ _ H); exact G2].
Qed.

Lemma construct_iff v l : dense v -> v <> [] -> forall av n, av_add_tokens true (new_added_vocab l) (Some v) l = Ok (av, n) ->
  Forall (fun t => at_content t = [] \/ exists tok, In tok l /\ at_special tok = true /\ at_content tok = at_content t) l.
Proof.
  intros Hd Hne av n H. pose proof (register_ok l (new_added_vocab l)) as HR. cbv zeta in HR. unfold av_add_tokens in H. set (av1 := fold_left register_special l (new_added_vocab l)) in *.
  destruct HR as (_ & _ & _ & _ & _ & A6 & _). cbv zeta in H. apply bind_ok in H as (av2 & H & _). cbn [new_added_vocab av_special_set] in A6.
  assert (G : forall l' av1 av2, assign_ids true av1 (Some v) l' = Ok av2 -> Forall (fun t => at_content t = [] \/ In (at_content t) (av_special_set av1)) l').
  { clear. induction l' as [|tok l' IH]; intros av1 av2 H; [constructor|]. cbn [assign_ids] in H. destruct (is_nil (at_content tok)) eqn:En.
    - apply is_nil_true in En. constructor; [left; exact En | eapply IH; exact H].
    - apply bind_ok in H as (i & _ & H). destruct (smem (at_content tok) (av_special_set av1)) eqn:Es; [|discriminate]. constructor; [right; apply smem_in; exact Es|]. apply IH in H. exact H. }
  apply G in H. eapply Forall_impl; [|exact H]. cbn beta. intros t [Ht|Ht]; [left; exact Ht|]. apply A6 in Ht as [[]|(_ & Ht)]. right. exact Ht.
Qed.

Lemma history_ok v ops av : dense v -> v <> [] -> history v ops av -> hist_ok v ops av.
Proof.
  intros Hd Hne H. induction H as [l av n H | ops av l av' n _ IH H | ops av E norm s _ IH].
  - pose proof (construct_iff v l Hd Hne av n H) as HC. destruct (add_tokens_ok v (new_added_vocab l) l true Hd Hne (empty_ids_ok v l)) as (av' & H1 & H2 & H3 & H4 & H5 & H6 & _ & H7 & H8 & H9 & H10).
    { intros _. eapply Forall_impl; [|exact HC]. cbn beta. intros t [Ht|Ht]; [left; exact Ht | right; right; exact Ht]. }
    rewrite H1 in H. injection H as <- _. cbn [new_added_vocab av_map av_special_set av_specials av_added] in *. constructor; auto.
    + intros t. rewrite H4. cbn. split; [intros [[i Hi]|H]; [discriminate | exact H] | auto].
    + intros t. rewrite H5. cbn. tauto.
    + intros tok Ht. destruct (H7 tok Ht) as [[]|H]. exact H.
    + intros tok Ht. rewrite H8 in Ht. apply in_app_iff in Ht as [Ht|Ht]; [exact Ht | apply filter_In in Ht; apply Ht].
    + intros tok Ht Hn. exists tok. split; [|reflexivity]. apply in_app_iff. right. rewrite H8. apply in_app_iff. left. exact Ht.
  - destruct (add_tokens_ok v av l false Hd Hne (ho_ids _ _ _ IH)) as (av2 & H1 & H2 & H3 & H4 & H5 & H6 & H6' & H7 & H8 & H9 & H10); [discriminate|].
    rewrite H1 in H. injection H as <- _. constructor; auto.
    + intros t. rewrite H4, (ho_assigned _ _ _ IH). rewrite map_app, in_app_iff. tauto.
    + intros t. rewrite H5, (ho_special _ _ _ IH). split.
      * intros [(Hn & tok & Ht & H)|(Hn & tok & Ht & H)]; (split; [exact Hn|]); exists tok; rewrite in_app_iff; tauto.
      * intros (Hn & tok & Ht & H). apply in_app_iff in Ht as [Ht|Ht]; [left | right]; (split; [exact Hn|]); exists tok; auto.
    + intros tok Ht. destruct (H7 tok Ht) as [H|H]; [apply (ho_specials _ _ _ IH) in H|]; rewrite in_app_iff; tauto.
    + intros tok Ht. rewrite H8 in Ht. rewrite in_app_iff. apply in_app_iff in Ht as [Ht|Ht]; [left; apply (ho_added _ _ _ IH); exact Ht | right; apply filter_In in Ht; apply Ht].
    + intros tok Ht Hn. apply in_app_iff in Ht as [Ht|Ht].
      * destruct (ho_all _ _ _ IH tok Ht Hn) as (tok' & Hin & Hc). exists tok'. split; [|exact Hc]. apply in_app_iff in Hin as [Hin|Hin]; apply in_app_iff; [left; apply H6'; exact Hin | right; rewrite H8; apply in_app_iff; left; exact Hin].
      * destruct (smem (at_content tok) (av_special_set av2)) eqn:Es.
        -- apply smem_in in Es. destruct (H6 _ Es) as [H|(tok' & Hin & Hc)].
           ++ apply (ho_special _ _ _ IH) in H as (_ & t0 & Ht0 & _ & Hc0). destruct (ho_all _ _ _ IH t0 Ht0) as (tok' & Hin & Hc); [congruence|]. exists tok'. split; [|congruence].
              apply in_app_iff in Hin as [Hin|Hin]; apply in_app_iff; [left; apply H6'; exact Hin | right; rewrite H8; apply in_app_iff; left; exact Hin].
           ++ exists tok'. split; [apply in_app_iff; left; exact Hin | exact Hc].
        -- exists tok. split; [|reflexivity]. apply in_app_iff. right. rewrite H8. apply in_app_iff. right. apply filter_In. split; [exact Ht|]. rewrite Es. apply is_nil_false in Hn. rewrite Hn. reflexivity.
  - pose proof (extract_map_grow E av norm s) as HG. set (m := extract_map E av norm s) in *.
    assert (HI : ids_ok v (mkAv (av_added av) (av_specials av) (av_special_set av) (av_map av) m (av_trie_norm av) (av_trie_raw av))).
    { pose proof (ho_ids _ _ _ IH) as I. constructor; cbn [av_map av_map_r].
      - exact (io_keys _ _ I).
      - exact (io_model _ _ I).
      - exact (io_inj _ _ I).
      - intros t i Ht. destruct (io_back _ _ I t i Ht) as (tok & H1 & H2). exists tok. split; [apply (gr_keep _ _ _ HG); exact H1 | exact H2].
      - intros i tok Ht. destruct (gr_new _ _ _ HG i tok Ht) as [H1|[-> H1]]; [exact (io_from _ _ I i tok H1)|].
        apply in_map_iff in H1 as ([t k] & <- & H1). cbn [snd]. apply (trie_model v ops av t k IH) in H1 as (H2 & tok & H3 & H4).
        destruct t as [|x t]; [right; auto|]. exfalso.
        assert (Hk : exists j, sfind (x :: t) (av_map av) = Some j). { apply (ho_assigned _ _ _ IH). split; [discriminate|]. apply in_map_iff. exists tok. auto. }
        destruct Hk as (j & Hj). pose proof (io_model _ _ I _ _ Hj) as Hm. rewrite H2 in Hm. subst j. destruct (io_back _ _ I _ _ Hj) as (tok' & H5 & H6).
        cbn [snd] in Ht. pose proof (gr_keep _ _ _ HG _ _ H5) as H7. rewrite Ht in H7. injection H7 as <-. discriminate H6. }
    constructor; cbn [av_map av_special_set av_specials av_added av_trie_norm av_trie_raw].
    + exact HI.
    + exact (ho_assigned _ _ _ IH).
    + exact (ho_special _ _ _ IH).
    + exact (ho_specials _ _ _ IH).
    + exact (ho_added _ _ _ IH).
    + exact (ho_all _ _ _ IH).
    + exact (ho_norm _ _ _ IH).
    + exact (ho_raw _ _ _ IH).
Qed.

(** ** White space around matches (ASCII texts) *)
Lemma right_run s b : b <= length s -> let n := space_rightmost_at_start (skipn b s) in
  b + n <= length s /\ (forall j, b <= j < b + n -> c_space (nth j s 0%N) = true) /\ (b + n < length s -> c_space (nth (b + n) s 0%N) = false).
Proof.
  intros Hb n. unfold n, space_rightmost_at_start. destruct (drop_while_spec is_space_byte (skipn b s)) as (pre & H1 & H2 & H3).
  assert (HL : length s - b = length pre + length (drop_while is_space_byte (skipn b s))) by (rewrite <- app_length, <- H1, skipn_length; reflexivity).
  rewrite skipn_length. replace (length s - b - length (drop_while is_space_byte (skipn b s))) with (length pre) by lia.
  assert (HN : forall j, nth (b + j) s 0%N = nth j (pre ++ drop_while is_space_byte (skipn b s)) 0%N).
  { intros j. rewrite <- H1. rewrite <- (firstn_skipn b s) at 1. rewrite app_nth2 by (rewrite firstn_length; lia). f_equal. rewrite firstn_length. lia. }
  split; [lia|]. split.
  - intros j Hj. replace j with (b + (j - b)) by lia. rewrite HN, app_nth1 by lia. apply (proj1 (Forall_forall _ _) H2). apply nth_In. lia.
  - intros Hlt. rewrite HN, app_nth2, Nat.sub_diag by lia. destruct (drop_while is_space_byte (skipn b s)); [cbn in HL; lia | exact H3].
Qed.
Lemma left_run s a : a <= length s -> let n := space_leftmost_at_end (firstn a s) in
  n <= a /\ (forall j, n <= j < a -> c_space (nth j s 0%N) = true) /\ (0 < n -> c_space (nth (n - 1) s 0%N) = false).
Proof.
  intros Ha n. unfold n, space_leftmost_at_end. destruct (drop_while_spec is_space_byte (rev (firstn a s))) as (pre & H1 & H2 & H3).
  set (d := drop_while is_space_byte (rev (firstn a s))) in *.
  assert (HE : firstn a s = rev d ++ rev pre) by (rewrite <- rev_app_distr, <- H1, rev_involutive; reflexivity).
  assert (HL : a = length d + length pre). { apply (f_equal (@length N)) in HE. rewrite firstn_length, app_length, !rev_length in HE. lia. }
  assert (HN : forall j, j < a -> nth j s 0%N = nth j (rev d ++ rev pre) 0%N). { intros j Hj. rewrite <- HE. rewrite <- (firstn_skipn a s) at 1. rewrite app_nth1 by (rewrite firstn_length; lia). reflexivity. }
  split; [lia|]. split.
  - intros j Hj. rewrite HN, app_nth2 by (rewrite ?rev_length; lia). rewrite rev_length. apply (proj1 (Forall_forall _ _) H2). apply in_rev. apply nth_In. rewrite rev_length. lia.
  - intros Hlt. destruct d as [|x d]; [cbn in Hlt; lia|]. rewrite HN by (cbn [length] in *; lia). cbn [rev length] in *. rewrite <- app_assoc, app_nth2 by (rewrite rev_length; lia). rewrite rev_length. replace (S (length d) - 1 - length d) with 0 by lia. exact H3.
Qed.
Lemma slice_forall (P : N -> Prop) s a b : b <= length s -> (forall j, a <= j < b -> P (nth j s 0%N)) -> Forall P (slice s a b).
Proof.
  intros Hb H. apply Forall_forall. intros x Hx. apply (In_nth _ _ 0%N) in Hx as (j & Hj & <-). unfold slice in *. rewrite firstn_length, skipn_length in Hj.
  assert (Hn : nth j (firstn (b - a) (skipn a s)) 0%N = nth (a + j) s 0%N).
  { assert (E : nth_error (firstn (b - a) (skipn a s)) j = nth_error s (a + j)) by (rewrite nth_error_firstn, nth_error_skipn; replace (j <? b - a) with true by lia; reflexivity).
    rewrite (nth_error_nth' (firstn (b - a) (skipn a s)) 0%N) in E by (rewrite firstn_length, skipn_length; lia). rewrite (nth_error_nth' s 0%N) in E by lia. congruence. }
  rewrite Hn. apply H. lia.
Qed.
Lemma slice_split s a b c : a <= b -> b <= c -> c <= length s -> slice s a c = slice s a b ++ slice s b c.
Proof.
  intros H1 H2 H3. unfold slice. replace (c - a) with ((b - a) + (c - b)) by lia.
  rewrite <- (firstn_skipn (b - a) (firstn (b - a + (c - b)) (skipn a s))). rewrite firstn_firstn. replace (Nat.min (b - a) (b - a + (c - b))) with (b - a) by lia. f_equal.
  rewrite skipn_firstn_comm. replace (b - a + (c - b) - (b - a)) with (c - b) by lia. f_equal. apply list_ext. intros i. rewrite !nth_error_skipn. f_equal. lia.
Qed.
Lemma slice_nil s a : slice s a a = [].
Proof. unfold slice. rewrite Nat.sub_diag. reflexivity. Qed.

Definition strip_ok (fl : Z -> added_token) (known : list (bytes * Z)) (s : bytes) (p : option Z * (nat * nat)) : Prop :=
  match fst p with
  | Some i => exists l core r, slice s (fst (snd p)) (snd (snd p)) = l ++ core ++ r /\ In (core, i) known /\
                Forall (fun b => c_space b = true) l /\ Forall (fun b => c_space b = true) r /\
                (at_lstrip (fl i) = false -> l = []) /\ (at_rstrip (fl i) = false -> r = [])
  | None => fst (snd p) < snd (snd p)
  end.
Definition strip_adj (fl : Z -> added_token) (s : bytes) (p q : option Z * (nat * nat)) : Prop :=
  (fst p = None -> forall i, fst q = Some i -> at_lstrip (fl i) = true -> c_space (nth (snd (snd p) - 1) s 0%N) = false) /\
  (fst q = None -> forall i, fst p = Some i -> at_rstrip (fl i) = true -> c_space (nth (fst (snd q)) s 0%N) = false).

Lemma ordered_past s b e l : ordered b (length s) (map fst l) -> Forall (fun m => fst (fst m) < snd (fst m) /\ c_space (nth (fst (fst m)) s 0%N) = false) l ->
  e <= length s -> (forall j, b <= j < e -> c_space (nth j s 0%N) = true) -> ordered e (length s) (map (@fst _ Z) l).
Proof.
  intros Ho Hf He Hw. destruct l as [|[[a c] k] l]; [exact He|]. cbn [map fst ordered] in *. inversion Hf as [|? ? [H1 H2] _]; subst. cbn [fst snd] in *. destruct Ho as (O1 & O2 & O3 & O4).
  repeat split; try assumption. destruct (Nat.le_gt_cases e a) as [H|H]; [exact H|]. rewrite Hw in H2 by lia. discriminate.
Qed.

Lemma c_word_byte x : is_word_byte x = true <-> c_word x.
Proof. unfold is_word_byte, c_word. lia. Qed.
Lemma ends_word (s : bytes) a : 0 < a <= length s -> ends_with_word (firstn a s) = is_word_byte (nth (a - 1) s 0%N).
Proof.
  intros Ha. unfold ends_with_word. destruct (exists_last (l := firstn a s)) as (l & x & E). { intros E. apply (f_equal (@length N)) in E. rewrite firstn_length in E. cbn in E. lia. }
  rewrite E, rev_app_distr. cbn [rev app]. f_equal. assert (length l = a - 1) by (apply (f_equal (@length N)) in E; rewrite firstn_length, app_length in E; cbn in E; lia).
  rewrite <- (firstn_skipn a s), E, <- app_assoc, app_nth2 by lia. replace (a - 1 - length l) with 0 by lia. reflexivity.
Qed.
Lemma starts_word (s : bytes) b : b < length s -> starts_with_word (skipn b s) = is_word_byte (nth b s 0%N).
Proof.
  intros Hb. unfold starts_with_word. destruct (skipn b s) as [|x r] eqn:E; [apply (f_equal (@length N)) in E; rewrite skipn_length in E; cbn in E; lia|].
  rewrite <- (firstn_skipn b s), E, app_nth2 by (rewrite firstn_length; lia). rewrite firstn_length. replace (b - Nat.min b (length s)) with 0 by lia. reflexivity.
Qed.
Lemma keep_word (s : bytes) a b : a <= b -> b <= length s -> exists keep,
  (b1 <- (if a =? 0 then Ok true else p <- substr_range s 0 a ;; Ok (negb (ends_with_word p))) ;;
   b2 <- (if b =? length s then Ok true else p <- substr_from s b ;; Ok (negb (starts_with_word p))) ;; Ok (b1 && b2)) = Ok keep /\
  (keep = true -> whole_word s a b) /\ (keep = false -> ~ whole_word s a b).
Proof.
  intros Ha Hb. unfold substr_range, substr_from. change (0 <=? length s) with true. change (a <? 0) with false. cbv iota. rewrite Nat.sub_0_r. cbn [skipn]. replace (b <=? length s) with true by lia. unfold whole_word.
  destruct (Nat.eqb_spec a 0), (Nat.eqb_spec b (length s)); cbn [bind andb].
  - exists true. repeat split; try lia; discriminate.
  - rewrite starts_word by lia. eexists. split; [reflexivity|]. pose proof (c_word_byte (nth b s 0%N)). destruct (is_word_byte (nth b s 0%N)); cbn; split; try discriminate; intros _; [intros [_ H1]; apply H1; [lia | tauto] | split; [lia | intuition discriminate]].
  - rewrite ends_word by lia. eexists. split; [reflexivity|]. pose proof (c_word_byte (nth (a - 1) s 0%N)). destruct (is_word_byte (nth (a - 1) s 0%N)); cbn; split; try discriminate; intros _; [intros [H1 _]; apply H1; [lia | tauto] | split; [intuition discriminate | lia]].
  - rewrite ends_word, starts_word by lia. eexists. split; [reflexivity|]. pose proof (c_word_byte (nth b s 0%N)). pose proof (c_word_byte (nth (a - 1) s 0%N)).
    destruct (is_word_byte (nth (a - 1) s 0%N)), (is_word_byte (nth b s 0%N)); cbn; split; try discriminate; intros _;
      [intros [H1 _]; apply H1; [lia | tauto] | intros [H1 _]; apply H1; [lia | tauto] | intros [_ H1]; apply H1; [lia | tauto] | split; intuition discriminate].
Qed.

Lemma resolve_strip fl known s l : forall start map_r, (forall i, flags map_r i = fl i) -> start <= length s -> ordered start (length s) (map fst l) ->
  Forall (fun m => fst (fst m) < snd (fst m) /\ c_space (nth (fst (fst m)) s 0%N) = false) l -> Forall (fun m => In (slice s (fst (fst m)) (snd (fst m)), snd m) known) l ->
  exists m segs, resolve_matches s (length s) start map_r l = Ok (m, segs) /\ chained start (length s) (map snd segs) /\ Forall (strip_ok fl known s) segs /\ adjacent (strip_adj fl s) segs /\ accepted fl s start l (recognised segs).
Proof.
  induction l as [|[[a b] k] l IH]; intros start map_r Hfl Hs Ho Hf Hk; cbn [resolve_matches].
  - do 2 eexists. split; [reflexivity|]. destruct (Nat.eqb_spec start (length s)); cbn; [split; [exact e|]; split; [constructor|]; split; [exact I | constructor]|]. split; [lia|]. split; [constructor; [unfold strip_ok; cbn; lia | constructor]|]. repeat split. constructor.
  - cbn [map fst ordered] in Ho. destruct Ho as (O1 & O2 & O3 & O4). inversion Hf as [|? ? [F1 F2] Hf']; subst. inversion Hk as [|? ? K1 Hk']; subst. cbn [fst snd] in *.
    set (pr := match zfind k map_r with Some t => (t, map_r) | None => (default_added_token, map_r ++ [(k, default_added_token)]) end).
    assert (Hpr : fst pr = fl k /\ forall i, flags (snd pr) i = fl i).
    { unfold pr. pose proof (Hfl k) as Hfk. unfold flags in Hfk. destruct (zfind k map_r) as [t|] eqn:Ek; cbn [fst snd]; [split; [exact Hfk | exact Hfl]|]. split; [exact Hfk|].
      intros i. rewrite <- Hfl. unfold flags. rewrite zfind_app. destruct (zfind i map_r); [reflexivity|]. cbn. destruct (i =? k)%Z; reflexivity. }
    destruct pr as [tok map_r']. cbn [fst snd] in Hpr. destruct Hpr as [-> Hfl'].
    assert (Hkeep : exists keep, (if at_single_word (fl k) then
               b1 <- (if a =? 0 then Ok true else p <- substr_range s 0 a ;; Ok (negb (ends_with_word p))) ;;
               b2 <- (if b =? length s then Ok true else p <- substr_from s b ;; Ok (negb (starts_with_word p))) ;;
               Ok (b1 && b2) else Ok true) = Ok keep /\ (keep = true -> at_single_word (fl k) = true -> whole_word s a b) /\ (keep = false -> at_single_word (fl k) = true /\ ~ whole_word s a b)).
    { destruct (at_single_word (fl k)); [|exists true; repeat split; congruence]. destruct (keep_word s a b O2 O3) as (keep & -> & H1 & H2). exists keep. split; [reflexivity|]. split; [intros H _; exact (H1 H) | intros H; split; [reflexivity | exact (H2 H)]]. }
    destruct Hkeep as (keep & -> & Hk1 & Hk2). cbn [bind]. destruct keep; cbn [negb].
    2:{ destruct (Hk2 eq_refl) as [Hk3 Hk4]. destruct (IH start map_r' Hfl' Hs) as (m & segs & E1 & E2 & E3 & E4 & E5); auto; [eapply ordered_weaken; [|exact O4]; lia|].
        exists m, segs. repeat (split; [assumption|]). constructor; assumption. }
    unfold substr_range, substr_from. change (0 <=? length s) with true. change (a <? 0) with false. replace (b <=? length s) with true by lia. rewrite Nat.sub_0_r. cbv iota. cbn [skipn bind].
    assert (HL : exists st, (if at_lstrip (fl k) then Ok (Nat.max (space_leftmost_at_end (firstn a s)) start) else Ok a) = Ok st /\ start <= st <= a /\
              (forall j, st <= j < a -> c_space (nth j s 0%N) = true) /\ (at_lstrip (fl k) = false -> st = a) /\ (at_lstrip (fl k) = true -> start < st -> c_space (nth (st - 1) s 0%N) = false)).
    { destruct (at_lstrip (fl k)); [|exists a; repeat split; try lia; discriminate]. destruct (left_run s a) as (L1 & L2 & L3); [lia|]. eexists. split; [reflexivity|].
      repeat split; try lia; try discriminate; [intros j Hj; apply L2; lia|]. intros _ Hlt. replace (Nat.max (space_leftmost_at_end (firstn a s)) start) with (space_leftmost_at_end (firstn a s)) by lia. apply L3. lia. }
    destruct HL as (st & HL & L1 & L2 & L3 & L4).
    assert (HR : exists sp, (if at_rstrip (fl k) then Ok (b + space_rightmost_at_start (skipn b s)) else Ok b) = Ok sp /\ b <= sp <= length s /\
              (forall j, b <= j < sp -> c_space (nth j s 0%N) = true) /\ (at_rstrip (fl k) = false -> sp = b) /\ (at_rstrip (fl k) = true -> sp < length s -> c_space (nth sp s 0%N) = false)).
    { destruct (at_rstrip (fl k)); [|exists b; repeat split; try lia; discriminate]. destruct (right_run s b) as (R1 & R2 & R3); [lia|]. eexists. split; [reflexivity|].
      split; [lia|]. split; [exact R2|]. split; [discriminate|]. intros _. exact R3. }
    destruct HR as (sp & HR & R1 & R2 & R3 & R4).
    rewrite HL, HR. cbn [bind].
    destruct (IH sp map_r' Hfl') as (m & segs & E1 & E2 & E3 & E4 & E5); auto; [lia | eapply ordered_past; eauto; lia|]. rewrite E1. cbn [bind]. do 2 eexists. split; [reflexivity|].
    assert (Hhit : strip_ok fl known s (Some k, (st, sp))).
    { unfold strip_ok. cbn [fst snd]. exists (slice s st a), (slice s a b), (slice s b sp). split; [rewrite (slice_split s st a sp), (slice_split s a b sp) by lia; reflexivity|].
      split; [exact K1|]. split; [apply slice_forall; [lia | exact L2]|]. split; [apply slice_forall; [lia | exact R2]|]. split; [intros H; rewrite (L3 H); apply slice_nil | intros H; rewrite (R3 H); apply slice_nil]. }
    assert (Hadj : adjacent (strip_adj fl s) ((Some k, (st, sp)) :: segs)).
    { split; [|exact E4]. destruct segs as [|[o [x y]] segs]; [exact I|]. cbn [map snd chained] in E2. destruct E2 as (-> & E2 & E6). split; [discriminate|]. cbn [fst snd]. intros -> i Hi Hr. injection Hi as <-. apply R4; [exact Hr|].
      inversion E3 as [|? ? Hx _]; subst. unfold strip_ok in Hx. cbn in Hx. apply chained_le in E6. lia. }
    assert (Hacc : accepted fl s start ((a, b, k) :: l) ((st, sp, k) :: recognised segs)).
    { constructor; auto; [intros j [Hj | Hj]; auto | |].
      - destruct (at_lstrip (fl k)); auto.
      - destruct (at_rstrip (fl k)); auto. }
    destruct (Nat.ltb_spec start st); cbn [app map snd chained].
    + split; [repeat split; try lia; exact E2|]. split; [constructor; [unfold strip_ok; cbn; lia|]; constructor; assumption|]. split; [|exact Hacc]. split; [|exact Hadj].
      split; [|discriminate]. cbn [fst snd]. intros _ i Hi Hl. injection Hi as <-. apply L4; [exact Hl | lia].
    + split; [repeat split; try lia; exact E2|]. split; [constructor; assumption|]. split; [exact Hadj | exact Hacc].
Qed.
Lemma slice_all (P : N -> Prop) s a b : Forall P s -> Forall P (slice s a b).
Proof.
  intros H. apply Forall_forall. intros x Hx. apply (proj1 (Forall_forall _ _) H). unfold slice in Hx.
  assert (In x (skipn a s)) by (rewrite <- (firstn_skipn (b - a) (skipn a s)); apply in_app_iff; left; exact Hx). rewrite <- (firstn_skipn a s). apply in_app_iff. right. assumption.
Qed.
