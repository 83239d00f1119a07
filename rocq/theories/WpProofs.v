From Verif Require Import Base BaseFacts Unicode UnicodeProofs Common PreTokenizer WordPiece WpSpec.
From Coq Require Import ZifyBool ZifyNat ZifyN.

Lemma candidate_text w u start k : wp_candidate w u start k = piece_text (wp_prefix w) u start k.
Proof. unfold wp_candidate, piece_text, usub. destruct start; reflexivity. Qed.

Lemma wp_longest_some w u start n i k :
  wp_longest w u start n = Some (i, k) ->
  0 < k <= n /\ sfind (piece_text (wp_prefix w) u start k) (wp_vocab w) = Some i /\
  (forall k', k < k' -> k' <= n -> sfind (piece_text (wp_prefix w) u start k') (wp_vocab w) = None).
Proof.
  induction n as [|n IH]; cbn [wp_longest]; [discriminate|]. rewrite candidate_text. intros H.
  destruct (sfind (piece_text (wp_prefix w) u start (S n)) (wp_vocab w)) as [j|] eqn:E.
  - inversion H; subst. split; [lia|]. split; [exact E|]. intros; lia.
  - destruct (IH H) as (H1 & H2 & H3). split; [lia|]. split; [exact H2|]. intros k' Hk Hn.
    destruct (Nat.eq_dec k' (S n)) as [->|]; [exact E | apply H3; lia].
Qed.

Lemma wp_longest_none w u start n :
  wp_longest w u start n = None -> forall k, 0 < k <= n -> sfind (piece_text (wp_prefix w) u start k) (wp_vocab w) = None.
Proof.
  induction n as [|n IH]; cbn [wp_longest]; intros H k Hk; [lia|]. rewrite candidate_text in H.
  destruct (sfind (piece_text (wp_prefix w) u start (S n)) (wp_vocab w)) as [j|] eqn:E; [discriminate|].
  destruct (Nat.eq_dec k (S n)) as [->|]; [exact E | apply IH; [exact H | lia]].
Qed.

Lemma wp_loop_spec w u fuel start :
  start <= length u -> length u - start < fuel ->
  exists r, wp_loop fuel w u start = Ok r /\
    match r with
    | Some ts => greedy (wp_vocab w) (wp_prefix w) u start ts
    | None => forall ts, ~ greedy (wp_vocab w) (wp_prefix w) u start ts
    end.
Proof.
  revert start; induction fuel as [|f IH]; intros start Hs Hf; [lia|]. cbn [wp_loop].
  destruct (Nat.ltb_spec start (length u)) as [Hlt|Hge].
  - destruct (wp_longest w u start (length u - start)) as [[i k]|] eqn:E.
    + apply wp_longest_some in E as (Hk & Hf1 & Hmax).
      destruct (IH (start + k)) as (r & Hr & Hspec); [lia|lia|]. rewrite Hr. cbn [bind].
      eexists; split; [reflexivity|]. destruct r as [ts|].
      * rewrite candidate_text. apply greedy_step; [lia|lia|exact Hf1| |exact Hspec]. intros k' H1 H2. apply Hmax; lia.
      * intros ts Hg. inversion Hg as [E|start' k' id ts' Hk' Hle Hf' Hmax' Hg']; subst; [lia|].
        assert (k' = k).
        { destruct (Nat.lt_trichotomy k k') as [H|[H|H]]; [|auto|].
          - rewrite Hmax in Hf' by lia. discriminate.
          - rewrite (Hmax' k) in Hf1 by lia. discriminate. }
        subst. eapply Hspec; exact Hg'.
    + exists None. split; [reflexivity|]. intros ts Hg.
      inversion Hg as [E'|start' k' id ts' Hk' Hle Hf' Hmax' Hg']; subst; [lia|].
      rewrite (wp_longest_none _ _ _ _ E k') in Hf' by lia. discriminate.
  - exists (Some []). split; [reflexivity|]. assert (start = length u) by lia. subst. constructor.
Qed.

Lemma greedy_fun vocab prefix u start a b : greedy vocab prefix u start a -> greedy vocab prefix u start b -> a = b.
Proof.
  intros Ha; revert b; induction Ha as [|start k id ts Hk Hle Hf Hmax Hg IH]; intros b Hb.
  - inversion Hb; subst; [reflexivity|lia].
  - inversion Hb as [E|start' k' id' ts' Hk' Hle' Hf' Hmax' Hg']; subst; [lia|].
    assert (k' = k).
    { destruct (Nat.lt_trichotomy k k') as [H|[H|H]]; [|auto|].
      - rewrite Hmax in Hf' by lia. discriminate.
      - rewrite (Hmax' k) in Hf by lia. discriminate. }
    subst. rewrite Hf in Hf'. inversion Hf'; subst. f_equal. apply IH; exact Hg'.
Qed.

Lemma greedy_tiles vocab prefix u start ts :
  greedy vocab prefix u start ts -> tiles start (length u) (map tk_off ts) /\
  Forall (fun t => tk_value t = piece_text prefix u (fst (tk_off t)) (snd (tk_off t) - fst (tk_off t)) /\
                   sfind (tk_value t) vocab = Some (tk_id t)) ts.
Proof.
  induction 1 as [|start k id ts Hk Hle Hf Hmax Hg [IH1 IH2]]; cbn [map tk_off].
  - split; constructor.
  - split; [constructor; [lia | exact IH1]|]. constructor; [|exact IH2]. cbn [tk_off tk_value tk_id fst snd].
    replace (start + k - start) with k by lia. split; [reflexivity | exact Hf].
Qed.

(** the whole word *)
Lemma wp_word_spec w t :
  let u := from_utf8 t in
  exists ts, wp_word w t = Ok ts /\
    (((wp_max w < Z.of_nat (length u))%Z /\ ts = [wp_unk_token w (length u)]) \/
     ((Z.of_nat (length u) <= wp_max w)%Z /\ greedy (wp_vocab w) (wp_prefix w) u 0 ts) \/
     ((Z.of_nat (length u) <= wp_max w)%Z /\ (forall x, ~ greedy (wp_vocab w) (wp_prefix w) u 0 x) /\ ts = [wp_unk_token w (length u)])).
Proof.
  intros u. unfold wp_word. fold u. destruct (Z.ltb_spec (wp_max w) (Z.of_nat (length u))) as [H|H].
  - eexists; split; [reflexivity|]. left. auto.
  - destruct (wp_loop_spec w u (S (length u)) 0) as (r & Hr & Hs); [lia|lia|]. rewrite Hr. cbn [bind].
    eexists; split; [reflexivity|]. right. destruct r as [ts|]; [left | right]; auto.
Qed.

Lemma skipn_skipn' {A} (l : list A) i j : skipn i (skipn j l) = skipn (j + i) l.
Proof. revert l; induction j as [|j IH]; intros [|x l]; cbn; try reflexivity; [destruct i; reflexivity | apply IH]. Qed.

Lemma tiles_le a b l : tiles a b l -> a <= b.
Proof. induction 1; lia. Qed.

(** gluing the covered texts back together *)
Lemma tiles_concat {A} (u : list A) a b l : tiles a b l -> b <= length u ->
  concat (map (fun p => firstn (snd p - fst p) (skipn (fst p) u)) l) = firstn (b - a) (skipn a u).
Proof.
  intros H; induction H as [a|a m b l Ham Ht IH]; intros Hb; cbn [map concat fst snd].
  - rewrite Nat.sub_diag. reflexivity.
  - rewrite IH by exact Hb. pose proof (tiles_le _ _ _ Ht).
    assert (E : skipn m u = skipn (m - a) (skipn a u)).
    { rewrite skipn_skipn'. f_equal. lia. }
    rewrite E. rewrite <- (firstn_skipn (m - a) (firstn (b - a) (skipn a u))).
    rewrite firstn_firstn, skipn_firstn_comm. f_equal; f_equal; lia.
Qed.

Lemma tiles_app a m b l1 l2 : tiles a m l1 -> tiles m b l2 -> tiles a b (l1 ++ l2).
Proof. induction 1; intros H2; cbn; [exact H2 | constructor; auto]. Qed.

Lemma tiles_map_add c a b l : tiles a b l -> tiles (c + a) (c + b) (map (fun p => (c + fst p, c + snd p)) l).
Proof. induction 1; cbn; constructor; [lia | assumption]. Qed.

(** WordPiece::tokenize on a whole pre-tokenized string *)
Lemma wp_tokenize_ok w p : exists l, wp_tokenize w p = Ok (mkPt (pt_norm p) l) /\
  Forall2 (fun s s' => sp_text s' = sp_text s /\ sp_off s' = sp_off s /\ wp_word w (sp_text s) = Ok (sp_tokens s')) (pt_splits p) l.
Proof.
  unfold wp_tokenize. destruct p as [ns splits]. cbn [pt_norm pt_splits].
  induction splits as [|s l IH]; [exists []; split; [reflexivity | constructor]|].
  destruct IH as (l' & H1 & H2). destruct (wp_word_spec w (sp_text s)) as (ts & Hts & _).
  apply bind_ok in H1 as (l'' & Hm & E). inversion E; subst l''. cbn [mapM]. rewrite Hts. cbn [bind]. rewrite Hm. cbn [bind].
  eexists; split; [reflexivity|]. constructor; [|exact H2]. cbn. auto.
Qed.
