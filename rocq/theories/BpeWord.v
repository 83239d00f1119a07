(** Initial symbols, merge table, tokens and cache of the BPE model. *)
From Verif Require Import Base BaseFacts Common PreTokenizer WordPiece WpSpec WpProofs Bpe BpeSpec BpeProofs.
From Coq Require Import Permutation Relations ZifyBool ZifyNat.
From Coq Require QArith_base.

(** ** Initial symbols *)
Definition fb (b : bpe) (p : bytes) : list Z :=
  if b_byte_fallback b
  then flat_map (fun y => match sfind (fallback_key y) (b_vocab b) with Some i => [i] | None => [] end) p
  else [].

Definition flush (unk : option (Z * nat)) : seqn := match unk with Some p => [p] | None => [] end.

Fixpoint items_of (b : bpe) (ps : list bytes) (unk : option (Z * nat)) : seqn :=
  match ps with
  | [] => flush unk
  | p :: r =>
    match sfind p (b_vocab b) with
    | Some i => flush unk ++ (i, 1) :: items_of b r None
    | None =>
      match fb b p with
      | _ :: _ => map (fun i => (i, 1)) (fb b p) ++ items_of b r unk
      | [] =>
        if is_nil (b_unk b) then items_of b r unk
        else match unk with
             | Some (u, n) => if b_fuse_unk b then items_of b r (Some (u, n + 1))
                              else (u, n) :: items_of b r (match sfind (b_unk b) (b_vocab b) with Some i => Some (i, 1) | None => unk end)
             | None => items_of b r (match sfind (b_unk b) (b_vocab b) with Some i => Some (i, 1) | None => None end)
             end
      end
    end
  end.

Fixpoint pieces_rec (b : bpe) (first : bool) (l : bytes) : list bytes :=
  match l with [] => [] | x :: r => bpe_piece b x first (is_nil r) :: pieces_rec b false r end.

Lemma word_of_app x y : word_of (x ++ y) = fold_left (fun w p => word_add w (fst p) (snd p)) y (word_of x).
Proof. unfold word_of. apply fold_left_app. Qed.

Lemma fold_ids l x : fold_left (fun w i => word_add w i 1) l (word_of x) = word_of (x ++ map (fun i => (i, 1)) l).
Proof. rewrite word_of_app. generalize (word_of x) as w. induction l as [|i l IH]; intros w; cbn; [reflexivity | apply IH]. Qed.

Lemma symbols_items b l : forall first x unk,
  (let '(w, u) := bpe_symbols b first l (word_of x) unk in match u with Some (i, n) => word_add w i n | None => w end)
  = word_of (x ++ items_of b (pieces_rec b first l) unk).
Proof.
  induction l as [|c l IH]; intros first x unk; cbn [bpe_symbols pieces_rec items_of].
  - destruct unk as [[u n]|]; cbn [flush]; [rewrite word_of_snoc; reflexivity | rewrite app_nil_r; reflexivity].
  - destruct (sfind (bpe_piece b c first (is_nil l)) (b_vocab b)) as [i|].
    + assert (Hw : match unk with Some (u, n) => word_add (word_of x) u n | None => word_of x end = word_of (x ++ flush unk)).
      { destruct unk as [[u n]|]; cbn [flush]; [rewrite word_of_snoc; reflexivity | rewrite app_nil_r; reflexivity]. }
      rewrite Hw. change (word_add (word_of (x ++ flush unk)) i 1) with (word_add (word_of (x ++ flush unk)) (fst (i, 1)) (snd (i, 1))).
      rewrite <- word_of_snoc, IH, <- !app_assoc. reflexivity.
    + change (if b_byte_fallback b
              then flat_map (fun y => match sfind (fallback_key y) (b_vocab b) with Some i => [i] | None => [] end) (bpe_piece b c first (is_nil l))
              else []) with (fb b (bpe_piece b c first (is_nil l))).
      destruct (fb b (bpe_piece b c first (is_nil l))) as [|f fs] eqn:Ef.
      * destruct (is_nil (b_unk b)); [apply IH|]. destruct unk as [[u n]|]; [|apply IH].
        destruct (b_fuse_unk b); [apply IH|].
        change (word_add (word_of x) u n) with (word_add (word_of x) (fst (u, n)) (snd (u, n))).
        rewrite <- word_of_snoc, IH, <- app_assoc. reflexivity.
      * rewrite fold_ids, IH, <- app_assoc. reflexivity.
Qed.

Lemma pieces_eq b s : pieces_rec b true s = pieces (b_prefix b) (b_suffix b) s.
Proof.
  unfold pieces.
  assert (G : forall l a n, n = a + length l ->
     pieces_rec b (a =? 0) l = map (fun p => piece_at (b_prefix b) (b_suffix b) n (fst p) (snd p)) (combine (seq a (length l)) l)).
  { induction l as [|x l IH]; intros a n Hn; [reflexivity|]. cbn [pieces_rec length seq combine map fst snd]. f_equal.
    - unfold bpe_piece, piece_at. f_equal. f_equal. cbn [length] in Hn.
      destruct l as [|y l]; cbn [is_nil length] in *; [replace (S a =? n) with true by lia | replace (S a =? n) with false by lia]; reflexivity.
    - rewrite <- (IH (S a) n) by (cbn [length] in Hn; lia). reflexivity. }
  apply (G s 0 (length s)). reflexivity.
Qed.

Lemma initial_items b s : initial_symbols b s = word_of (items_of b (pieces (b_prefix b) (b_suffix b) s) None).
Proof. rewrite <- pieces_eq. unfold initial_symbols. exact (symbols_items b s true [] None). Qed.

Lemma contents_word_of l : positive l -> contents (word_of l) = l.
Proof.
  intros Hp. apply list_ext. intros i. unfold contents. rewrite nth_error_map, word_of_nth.
  destruct (nth_error l i) as [[c n]|]; reflexivity.
Qed.

Lemma items_positive b ps : forall unk, (forall u n, unk = Some (u, n) -> 0 < n) -> positive (items_of b ps unk).
Proof.
  unfold positive. induction ps as [|p ps IH]; intros unk Hu; cbn [items_of].
  - destruct unk as [[u n]|]; cbn [flush]; constructor; [|constructor]. cbn. eapply Hu; reflexivity.
  - assert (Hone : forall u n, match sfind (b_unk b) (b_vocab b) with Some i => Some (i, 1) | None => @None (Z * nat) end = Some (u, n) -> 0 < n).
    { intros u n. destruct (sfind (b_unk b) (b_vocab b)); intros H; inversion H; lia. }
    destruct (sfind p (b_vocab b)) as [i|].
    + apply Forall_app. split.
      * destruct unk as [[u n]|]; cbn [flush]; constructor; [|constructor]. cbn. eapply Hu; reflexivity.
      * constructor; [cbn; lia|]. apply IH. discriminate.
    + destruct (fb b p) as [|f fs].
      * destruct (is_nil (b_unk b)); [apply IH; exact Hu|]. destruct unk as [[u n]|]; [|apply IH; exact Hone].
        destruct (b_fuse_unk b).
        -- apply IH. intros u' n' E. inversion E; subst. lia.
        -- constructor; [cbn; eapply Hu; reflexivity|]. apply IH. intros u' n'.
           destruct (sfind (b_unk b) (b_vocab b)); intros H; inversion H; subst; [lia | eapply Hu; reflexivity].
      * apply Forall_app. split; [|apply IH; exact Hu]. apply Forall_forall. intros q Hq. apply in_map_iff in Hq as (i & <- & _). cbn; lia.
Qed.

(** no byte fallback *)
Section NoFallback.
Context (b : bpe) (Hfb : b_byte_fallback b = false).
Let lk := map (fun p => sfind p (b_vocab b)).

Lemma fb_nil p : fb b p = [].
Proof. unfold fb. rewrite Hfb. reflexivity. Qed.

Lemma items_no_unk ps : unk_id b = None -> items_of b ps None = known_only (lk ps).
Proof.
  intros Hu. induction ps as [|p ps IH]; [reflexivity|]. cbn [items_of lk map known_only]. fold lk.
  destruct (sfind p (b_vocab b)) as [i|]; cbn [flush app]; [rewrite IH; reflexivity|]. rewrite fb_nil.
  unfold unk_id in Hu. destruct (is_nil (b_unk b)); [exact IH|]. rewrite Hu. exact IH.
Qed.

Lemma items_fused u ps : unk_id b = Some u -> b_fuse_unk b = true ->
  fused u (lk ps) (items_of b ps None) /\ forall n, 0 < n -> fused u (repeat None n ++ lk ps) (items_of b ps (Some (u, n))).
Proof.
  intros Hu Hf. unfold unk_id in Hu. destruct (is_nil (b_unk b)) eqn:En; [discriminate|].
  induction ps as [|p ps [IH1 IH2]].
  - split; [constructor|]. intros n Hn. cbn [items_of flush lk map]. apply fused_run; [exact Hn | discriminate | constructor].
  - cbn [items_of lk map]. fold lk. destruct (sfind p (b_vocab b)) as [i|]; cbn [flush app].
    + split; [constructor; exact IH1|]. intros n Hn. apply fused_run; [exact Hn | cbn; discriminate | constructor; exact IH1].
    + rewrite fb_nil, En, Hu, Hf. split.
      * exact (IH2 1 ltac:(lia)).
      * intros n Hn. specialize (IH2 (n + 1) ltac:(lia)). rewrite repeat_app in IH2. cbn [repeat] in IH2. rewrite <- app_assoc in IH2. exact IH2.
Qed.

Lemma items_unfused u ps : unk_id b = Some u -> b_fuse_unk b = false ->
  items_of b ps None = unfused u (lk ps) /\ items_of b ps (Some (u, 1)) = (u, 1) :: unfused u (lk ps).
Proof.
  intros Hu Hf. unfold unk_id in Hu. destruct (is_nil (b_unk b)) eqn:En; [discriminate|].
  induction ps as [|p ps [IH1 IH2]]; [split; reflexivity|].
  cbn [items_of lk map unfused]. fold lk. destruct (sfind p (b_vocab b)) as [i|]; cbn [flush app].
  - fold (unfused u (lk ps)). rewrite IH1. split; reflexivity.
  - rewrite fb_nil, En, Hu, Hf. fold (unfused u (lk ps)). rewrite IH2. split; reflexivity.
Qed.
End NoFallback.

(** byte fallback without an unknown token *)
Lemma items_fallback b ps : b_byte_fallback b = true -> unk_id b = None ->
  items_of b ps None = flat_map (fun p => match sfind p (b_vocab b) with
                                          | Some i => [(i, 1)]
                                          | None => flat_map (fun y => match sfind (fallback_key y) (b_vocab b) with Some i => [(i, 1)] | None => [] end) p
                                          end) ps.
Proof.
  intros Hfb Hu. induction ps as [|p ps IH]; [reflexivity|]. cbn [items_of flat_map].
  destruct (sfind p (b_vocab b)) as [i|]; cbn [flush app]; [rewrite IH; reflexivity|].
  assert (Hm : map (fun i : Z => (i, 1)) (fb b p) = flat_map (fun y => match sfind (fallback_key y) (b_vocab b) with Some i => [(i, 1)] | None => [] end) p).
  { unfold fb. rewrite Hfb. clear. induction p as [|y p IHp]; [reflexivity|]. cbn [flat_map]. rewrite map_app, IHp.
    destruct (sfind (fallback_key y) (b_vocab b)); reflexivity. }
  rewrite <- Hm. destruct (fb b p) as [|f fs]; [|rewrite IH; reflexivity]. cbn [map app].
  unfold unk_id in Hu. destruct (is_nil (b_unk b)); [exact IH|]. rewrite Hu. exact IH.
Qed.

(** every initial id is a vocabulary id *)
Definition vocab_id (vocab : smap Z) (i : Z) : Prop := exists k, sfind k vocab = Some i.

Lemma items_vocab b ps : forall unk, (forall u n, unk = Some (u, n) -> vocab_id (b_vocab b) u) ->
  Forall (fun p => vocab_id (b_vocab b) (fst p)) (items_of b ps unk).
Proof.
  induction ps as [|p ps IH]; intros unk Hu; cbn [items_of].
  - destruct unk as [[u n]|]; cbn [flush]; constructor; [|constructor]. cbn. eapply Hu; reflexivity.
  - assert (Hone : forall u n, match sfind (b_unk b) (b_vocab b) with Some i => Some (i, 1) | None => @None (Z * nat) end = Some (u, n) -> vocab_id (b_vocab b) u).
    { intros u n. destruct (sfind (b_unk b) (b_vocab b)) eqn:E; intros H; inversion H; subst. exists (b_unk b); exact E. }
    destruct (sfind p (b_vocab b)) as [i|] eqn:Ep.
    + apply Forall_app. split.
      * destruct unk as [[u n]|]; cbn [flush]; constructor; [|constructor]. cbn. eapply Hu; reflexivity.
      * constructor; [exists p; exact Ep|]. apply IH. discriminate.
    + destruct (fb b p) as [|f fs] eqn:Ef.
      * destruct (is_nil (b_unk b)); [apply IH; exact Hu|]. destruct unk as [[u n]|]; [|apply IH; exact Hone].
        destruct (b_fuse_unk b).
        -- apply IH. intros u' n' E. inversion E; subst. eapply Hu; reflexivity.
        -- constructor; [cbn; eapply Hu; reflexivity|]. apply IH. intros u' n'.
           destruct (sfind (b_unk b) (b_vocab b)) eqn:E; intros H; inversion H; subst; [exists (b_unk b); exact E | eapply Hu; reflexivity].
      * apply Forall_app. split; [|apply IH; exact Hu]. rewrite <- Ef. apply Forall_forall. intros q Hq. apply in_map_iff in Hq as (i & <- & Hi). cbn.
        unfold fb in Hi. destruct (b_byte_fallback b); [|destruct Hi]. apply in_flat_map in Hi as (y & _ & Hi).
        destruct (sfind (fallback_key y) (b_vocab b)) eqn:E; [|destruct Hi]. destruct Hi as [<-|[]]. exists (fallback_key y). exact E.
Qed.

(** ** The merge table *)
Lemma mfind_minsert a b x y v m :
  mfind a b (minsert x y v m) = match mfind a b m with Some w => Some w | None => if ((a =? x) && (b =? y))%Z then Some v else None end.
Proof.
  assert (G : forall m, mfind a b (m ++ [((x, y), v)]) = match mfind a b m with Some w => Some w | None => if ((a =? x) && (b =? y))%Z then Some v else None end).
  { induction m0 as [|[[p q] w] m0 IH]; cbn; [reflexivity|]. destruct ((a =? p) && (b =? q))%Z; [reflexivity | exact IH]. }
  unfold minsert. destruct (mfind x y m) as [w|] eqn:E; [|apply G].
  destruct (mfind a b m) as [w'|] eqn:E'; [reflexivity|].
  destruct ((a =? x) && (b =? y))%Z eqn:Eq; [|reflexivity]. assert (a = x) by lia. assert (b = y) by lia. subst. congruence.
Qed.

Lemma space_white x : is_space_ascii x = true <-> white x.
Proof.
  unfold is_space_ascii, white. cbn [In]. split; intros H.
  - destruct (x =? 32)%N eqn:E; [right; right; right; right; right; left; symmetry; apply N.eqb_eq; exact E|]. cbn [orb] in H. lia.
  - destruct H as [<-|[<-|[<-|[<-|[<-|[<-|[]]]]]]]; reflexivity.
Qed.
Lemma space_black x : is_space_ascii x = false <-> ~ white x.
Proof. rewrite <- space_white. destruct (is_space_ascii x); split; congruence. Qed.

Lemma take_word_field p l : Forall (fun x => ~ white x) p -> (l = [] \/ exists x r, l = x :: r /\ white x) ->
  take_word (p ++ l) = (p, l).
Proof.
  intros Hp Hl. induction Hp as [|x p Hx Hp IH]; cbn [app take_word].
  - destruct Hl as [->|(x & r & -> & Hx)]; [reflexivity|]. apply space_white in Hx. cbn. rewrite Hx. reflexivity.
  - apply space_black in Hx. rewrite Hx, IH. reflexivity.
Qed.

Lemma skip_spaces_field p l : field p -> skip_spaces (p ++ l) = p ++ l.
Proof. intros [Hn Hp]. destruct Hp as [|x p Hx Hp]; [congruence|]. apply space_black in Hx. cbn. rewrite Hx. reflexivity. Qed.

Lemma two_fields_line p : field (fst p) -> field (snd p) -> two_fields (merge_line p) = Some p.
Proof.
  intros H1 H2. destruct p as [p1 p2]. cbn [fst snd] in *. unfold two_fields, merge_line. cbn [fst snd].
  rewrite (skip_spaces_field p1) by exact H1.
  rewrite take_word_field; [|apply H1 | right; exists 32%N, p2; split; [reflexivity | apply space_white; reflexivity]].
  cbn [app skip_spaces]. change (is_space_ascii 32) with true. cbn iota.
  rewrite <- (app_nil_r p2) at 1. rewrite (skip_spaces_field p2) by exact H2.
  rewrite take_word_field; [|apply H2 | auto].
  destruct H1 as [H1 _], H2 as [H2 _]. destruct p1; [congruence|]. destruct p2; [congruence|]. reflexivity.
Qed.

Definition gives (vocab : smap Z) (plen : nat) (line : bytes) (a b n : Z) : Prop :=
  exists p, two_fields line = Some p /\ rule_gives vocab plen p a b n.

Lemma build_merges_spec vocab plen l : forall i m m', build_merges vocab plen i l m = Ok m' -> forall a b r n,
  mfind a b m' = Some (r, n) <->
  mfind a b m = Some (r, n) \/
  (mfind a b m = None /\ exists k line, r = (i + Z.of_nat k)%Z /\ nth_error l k = Some line /\ gives vocab plen line a b n /\
     forall k' line' n', k' < k -> nth_error l k' = Some line' -> ~ gives vocab plen line' a b n').
Proof.
  induction l as [|line l IH]; intros i m m' H a b r n; cbn [build_merges] in H.
  - inversion H; subst. split; [auto|]. intros [H1|(_ & k & x & _ & Hk & _)]; [exact H1 | destruct k; discriminate].
  - apply bind_ok in H as (m1 & Hm1 & H). rewrite (IH _ _ _ H a b r n). clear H IH.
    (* m1 in terms of m *)
    assert (Hcase : mfind a b m1 = mfind a b m /\ (mfind a b m <> None \/ forall n', ~ gives vocab plen line a b n') \/
                    (mfind a b m = None /\ exists n', gives vocab plen line a b n' /\ mfind a b m1 = Some (i, n'))).
    { destruct (two_fields line) as [[p1 p2]|] eqn:Etf.
      2:{ inversion Hm1; subst. left. split; [reflexivity|]. right. intros n' (p & Hp & _). congruence. }
      assert (Hnot : forall o, (forall n', rule_gives vocab plen (p1, p2) a b n' -> o = true) -> o = false -> forall n', ~ gives vocab plen line a b n').
      { intros o Ho Hf n' (p & Hp & Hr). assert (p = (p1, p2)) by congruence. subst p. specialize (Ho n' Hr). congruence. }
      destruct (sfind p1 vocab) as [a'|] eqn:E1.
      2:{ inversion Hm1; subst. left. split; [reflexivity|]. right. intros n' (p & Hp & Hr & _). assert (p = (p1, p2)) by congruence. subst p. cbn in Hr. congruence. }
      destruct (sfind p2 vocab) as [b'|] eqn:E2.
      2:{ inversion Hm1; subst. left. split; [reflexivity|]. right. intros n' (p & Hp & _ & Hr & _). assert (p = (p1, p2)) by congruence. subst p. cbn in Hr. congruence. }
      destruct (length p2 <? plen); [discriminate|].
      destruct (sfind (p1 ++ skipn plen p2) vocab) as [new|] eqn:E3.
      2:{ inversion Hm1; subst. left. split; [reflexivity|]. right. intros n' (p & Hp & _ & _ & Hr). assert (p = (p1, p2)) by congruence. subst p. cbn in Hr. congruence. }
      inversion Hm1; subst m1. rewrite mfind_minsert. destruct (mfind a b m) as [w|] eqn:Em.
      - left. split; [reflexivity|]. left. discriminate.
      - destruct ((a =? a') && (b =? b'))%Z eqn:Eab.
        + right. split; [reflexivity|]. exists new. split; [|reflexivity]. exists (p1, p2). split; [exact Etf|].
          assert (a = a') by lia. assert (b = b') by lia. subst. repeat split; assumption.
        + left. split; [reflexivity|]. right. intros n' (p & Hp & Hr1 & Hr2 & _). assert (p = (p1, p2)) by congruence. subst p. cbn in Hr1, Hr2.
          assert (a = a') by congruence. assert (b = b') by congruence. lia. }
    destruct Hcase as [[E1 Hor]|(Em & n' & Hg & E1)]; rewrite E1.
    + split; (intros [H1|(Hnone & H2)]; [left; exact H1|right; split; [exact Hnone|]]).
      * destruct H2 as (k & ln & Hr & Hk & Hg & Hmin). exists (S k), ln. split; [lia|]. split; [exact Hk|]. split; [exact Hg|].
        intros [|k'] line' n'' Hlt Hnth.
        -- cbn in Hnth. inversion Hnth; subst. destruct Hor as [Hor|Hor]; [congruence | apply Hor].
        -- apply (Hmin k'); [lia | exact Hnth].
      * destruct H2 as (k & ln & Hr & Hk & Hg & Hmin). destruct k as [|k].
        { exfalso. cbn in Hk. inversion Hk; subst. destruct Hor as [Hor|Hor]; [congruence | eapply Hor; exact Hg]. }
        exists k, ln. split; [lia|]. split; [exact Hk|]. split; [exact Hg|]. intros k' line' n'' Hlt Hnth. apply (Hmin (S k')); [lia | exact Hnth].
    + split.
      * intros [H1|(Hnone & _)]; [|discriminate]. right. split; [exact Em|]. inversion H1; subst.
        exists 0, line. split; [lia|]. split; [reflexivity|]. split; [exact Hg|]. intros k' line' n'' Hlt. lia.
      * intros [H1|(_ & k & ln & Hr & Hk & Hg' & Hmin)]; [congruence|]. left. destruct k as [|k].
        -- cbn in Hk. inversion Hk; subst ln. f_equal. f_equal; [lia|]. destruct Hg as (p & Hp & _ & _ & G1), Hg' as (p' & Hp' & _ & _ & G2).
           assert (p = p') by congruence. subst. congruence.
        -- exfalso. eapply (Hmin 0 line); [lia | reflexivity | exact Hg].
Qed.

Lemma new_bpe_vocab vocab merges d unk pre suf fu bf ig b : new_bpe vocab merges d unk pre suf fu bf ig = Ok b ->
  build_merges vocab (length pre) 0 merges [] = Ok (b_merges b) /\ b_vocab b = vocab /\ b_dropout b = d /\ b_unk b = unk /\ b_prefix b = pre /\
  b_suffix b = suf /\ b_fuse_unk b = fu /\ b_byte_fallback b = bf /\ b_ignore_merges b = ig.
Proof. unfold new_bpe. intros H. apply bind_ok in H as (m & Hm & H). inversion H; subst; cbn. repeat split; assumption. Qed.

Definition merges_in_vocab (b : bpe) : Prop := forall x y r n, mfind x y (b_merges b) = Some (r, n) -> vocab_id (b_vocab b) n.

Lemma new_bpe_merges vocab merges d unk pre suf fu bf ig b : new_bpe vocab merges d unk pre suf fu bf ig = Ok b -> merges_in_vocab b.
Proof.
  intros H. apply new_bpe_vocab in H as (Hm & Hv & _). intros x y r n Hf.
  apply (build_merges_spec _ _ _ _ _ _ Hm) in Hf. destruct Hf as [Hf|(_ & k & line & _ & _ & (p & _ & _ & _ & Hn) & _)]; [discriminate|].
  rewrite Hv. eexists; exact Hn.
Qed.

(** ** The reverse vocabulary *)
Lemma vocab_r_fold (vocab : smap Z) : forall (r : zmap bytes) i,
  (forall t, zfind i (fold_left (fun r p => zset (snd p) (fst p) r) vocab r) = Some t -> In (t, i) vocab \/ zfind i r = Some t) /\
  ((exists t, In (t, i) vocab) \/ (exists t, zfind i r = Some t) -> exists t, zfind i (fold_left (fun r p => zset (snd p) (fst p) r) vocab r) = Some t).
Proof.
  induction vocab as [|[k v] vocab IH]; intros r i; cbn [fold_left].
  - split; [auto|]. intros [[t []]|H]; exact H.
  - cbn [fst snd]. destruct (IH (zset v k r) i) as [H1 H2]. split.
    + intros t Ht. destruct (H1 t Ht) as [H|H]; [left; right; exact H|]. rewrite zfind_zset in H.
      destruct (Z.eqb_spec i v) as [->|]; [inversion H; subst; left; left; reflexivity | right; exact H].
    + intros H. apply H2. rewrite zfind_zset. destruct (Z.eqb_spec i v) as [->|Hn]; [right; exists k; reflexivity|].
      destruct H as [[t [E|Hi]]|H]; [inversion E; subst; congruence | left; exists t; exact Hi | right; exact H].
Qed.

Lemma id_to_token_in vocab i t : model_id_to_token vocab i = Some t -> In (t, i) vocab.
Proof. intros H. destruct (vocab_r_fold vocab [] i) as [H1 _]. destruct (H1 t H) as [H'|H']; [exact H' | discriminate]. Qed.

Lemma id_to_token_some vocab i t : In (t, i) vocab -> exists t', model_id_to_token vocab i = Some t'.
Proof. intros H. destruct (vocab_r_fold vocab [] i) as [_ H2]. apply H2. left. exists t; exact H. Qed.

Lemma vocab_id_resolves vocab i : vocab_id vocab i -> exists t, model_id_to_token vocab i = Some t.
Proof. intros [k H]. apply sfind_in in H. eapply id_to_token_some; exact H. Qed.

Lemma id_to_token_unique vocab i t : NoDup (map snd vocab) -> In (t, i) vocab -> model_id_to_token vocab i = Some t.
Proof.
  intros Hn Hi. destruct (id_to_token_some vocab i t Hi) as [t' Ht']. rewrite Ht'. f_equal. apply id_to_token_in in Ht'.
  clear - Hn Hi Ht'. induction vocab as [|[k v] vocab IH]; [destruct Hi|]. cbn in Hn. inversion Hn as [|? ? Hnot Hn']; subst.
  destruct Hi as [E|Hi], Ht' as [E'|Ht'].
  - congruence.
  - inversion E; subst. exfalso. apply Hnot. apply (in_map snd) in Ht'. exact Ht'.
  - inversion E'; subst. exfalso. apply Hnot. apply (in_map snd) in Hi. exact Hi.
  - auto.
Qed.

(** ** Tokens of a word *)
Lemma word_to_tokens_spec vocab w : forall pos ts, word_to_tokens vocab pos w = Ok ts ->
  map tk_id ts = map fst (contents w) /\ token_seq ts = contents w /\
  Forall (fun t => model_id_to_token vocab (tk_id t) = Some (tk_value t)) ts /\
  (positive (contents w) -> tiles pos (pos + total_len (contents w)) (map tk_off ts)).
Proof.
  induction w as [|s w IH]; intros pos ts H; cbn [word_to_tokens] in H.
  - inversion H; subst. cbn. repeat split; try constructor. intros _. rewrite Nat.add_0_r. constructor.
  - destruct (model_id_to_token vocab (s_c s)) as [t|] eqn:E; [|discriminate]. apply bind_ok in H as (rest & Hr & H). inversion H; subst ts.
    destruct (IH _ _ Hr) as (H1 & H2 & H3 & H4). cbn. repeat split.
    + f_equal. exact H1.
    + unfold token_seq in H2. rewrite H2. f_equal. f_equal. lia.
    + constructor; [exact E | exact H3].
    + intros Hp. inversion Hp as [|? ? Hs Hp']; subst. cbn in Hs. constructor; [lia|]. specialize (H4 Hp').
      unfold total_len, contents in H4. rewrite Nat.add_assoc. exact H4.
Qed.

Lemma word_to_tokens_ok vocab w : forall pos, Forall (fun p => vocab_id vocab (fst p)) (contents w) -> exists ts, word_to_tokens vocab pos w = Ok ts.
Proof.
  induction w as [|s w IH]; intros pos H; cbn [word_to_tokens]; [eexists; reflexivity|].
  inversion H as [|? ? Hs Hr]; subst. cbn in Hs. destruct (vocab_id_resolves _ _ Hs) as [t ->].
  destruct (IH (pos + s_len s) Hr) as [ts ->]. eexists; reflexivity.
Qed.

Lemma step_forall_vocab b x y : merges_in_vocab b -> step (b_merges b) x y ->
  Forall (fun p => vocab_id (b_vocab b) (fst p)) x -> Forall (fun p => vocab_id (b_vocab b) (fst p)) y.
Proof.
  intros Hb (rank & H). destruct H as [A a la c lc B n Hm]. rewrite !Forall_app. intros [HA HB]. split; [exact HA|].
  inversion HB as [|? ? _ HB1]; subst. inversion HB1 as [|? ? _ HB2]; subst. constructor; [|exact HB2]. cbn. eapply Hb; exact Hm.
Qed.

Lemma steps_forall_vocab b x y : merges_in_vocab b -> steps (step (b_merges b)) x y ->
  Forall (fun p => vocab_id (b_vocab b) (fst p)) x -> Forall (fun p => vocab_id (b_vocab b) (fst p)) y.
Proof. intros Hb H. induction H as [|x y z Hs _ IH]; [auto|]. intros Hx. apply IH. eapply step_forall_vocab; eassumption. Qed.

Lemma step_positive m x y : step m x y -> positive x -> positive y.
Proof.
  intros (rank & H). destruct H as [A a la c lc B n Hm]. unfold positive. rewrite !Forall_app. intros [HA HB]. split; [exact HA|].
  inversion HB as [|? ? H1 HB1]; subst. inversion HB1 as [|? ? H2 HB2]; subst. constructor; [|exact HB2]. cbn in *. lia.
Qed.
Lemma steps_positive m x y : steps (step m) x y -> positive x -> positive y.
Proof. intros H. induction H as [|x y z Hs _ IH]; [auto|]. intros Hx. apply IH. eapply step_positive; eassumption. Qed.

(** ** The whole word *)

Lemma initial_eq b s : initial b s = items_of b (pieces (b_prefix b) (b_suffix b) s) None /\ positive (initial b s) /\ initial_symbols b s = word_of (initial b s).
Proof.
  unfold initial. rewrite initial_items. assert (Hp : positive (items_of b (pieces (b_prefix b) (b_suffix b) s) None)) by (apply items_positive; discriminate).
  rewrite contents_word_of by exact Hp. auto.
Qed.

Lemma merge_word_spec E b s : pq_ok E ->
  (initial b s = [] /\ merge_word E b s = Undef OobIndex) \/
  (initial b s <> [] /\ exists w, merge_word E b s = Ok w /\ steps (step (b_merges b)) (initial b s) (contents w) /\
    ((forall k, dropped E (b_dropout b) k = false) ->
       (forall rank, ~ applicable (b_merges b) rank (contents w)) /\
       (distinct_results (b_merges b) -> steps (step_highest (b_merges b)) (initial b s) (contents w))) /\
    ((forall k, dropped E (b_dropout b) k = true) -> contents w = initial b s)).
Proof.
  intros Hpq. destruct (initial_eq b s) as (_ & Hp & Hw). unfold merge_word. rewrite Hw.
  destruct (initial b s) as [|p l] eqn:Ei.
  - left. split; reflexivity.
  - right. split; [discriminate|]. apply merge_all_spec; [exact Hpq | exact Hp | discriminate].
Qed.

Lemma dropped_zero E d k : QArith_base.Qeq_bool d (QArith_base.Qmake 0 1) = true -> dropped E d k = false.
Proof. intros H. unfold dropped. rewrite H. reflexivity. Qed.

(** ** Cache *)
Definition cache_ok (E : env) (b : bpe) (c : cache) : Prop := forall s w, sfind s c = Some w -> merge_word E b s = Ok w.

Lemma twc_transparent E b c s : cache_ok E b c ->
  snd (tokenize_with_cache E b c s) = snd (tokenize_with_cache E b [] s) /\ cache_ok E b (fst (tokenize_with_cache E b c s)).
Proof.
  intros Hc. unfold tokenize_with_cache. destruct (if b_ignore_merges b then sfind s (b_vocab b) else None) as [i|]; [split; [reflexivity | exact Hc]|].
  cbn [sfind]. destruct (sfind s c) as [w|] eqn:Ec.
  - rewrite (Hc s w Ec). cbn [fst snd]. split; [destruct (word_to_tokens (b_vocab b) 0 w); reflexivity | exact Hc].
  - destruct (merge_word E b s) as [w| | |] eqn:Em; cbn [fst snd]; try (split; [reflexivity | exact Hc]).
    destruct (word_to_tokens (b_vocab b) 0 w) as [ts| | |]; cbn [fst snd]; try (split; [reflexivity | exact Hc]).
    split; [reflexivity|]. intros s' w' Hf. rewrite sfind_sinsert in Hf. destruct (sfind s' c) eqn:E'; [apply Hc; congruence|].
    destruct (leqb_spec s' s) as [->|]; [congruence | discriminate].
Qed.

Lemma bpe_word_transparent E b c s : cache_ok E b c ->
  snd (bpe_word E b c s) = snd (bpe_word E b [] s) /\ cache_ok E b (fst (bpe_word E b c s)).
Proof.
  intros Hc. unfold bpe_word. destruct (QArith_base.Qeq_bool (b_dropout b) (QArith_base.Qmake 0 1)); [apply twc_transparent; exact Hc|].
  cbn [fst snd]. split; [reflexivity | exact Hc].
Qed.

(** result of a split list without any cache *)
Definition plain_words (E : env) (b : bpe) (l : list split) : res (list split) :=
  mapM (fun s => ts <- snd (bpe_word E b [] (sp_text s)) ;; Ok (mkSplit (sp_text s) (sp_off s) ts)) l.

Lemma bpe_splits_transparent E b l : forall c, cache_ok E b c ->
  snd (bpe_splits E b c l) = plain_words E b l /\ cache_ok E b (fst (bpe_splits E b c l)).
Proof.
  induction l as [|s l IH]; intros c Hc; [split; [reflexivity | exact Hc]|]. cbn [bpe_splits plain_words mapM]. fold (plain_words E b l).
  destruct (bpe_word_transparent E b c (sp_text s) Hc) as [Hs Hc']. rewrite <- Hs.
  destruct (bpe_word E b c (sp_text s)) as [c' [ts| | |]]; cbn [fst snd bind] in *; try (split; [reflexivity | exact Hc']).
  destruct (IH c' Hc') as [H1 H2]. destruct (bpe_splits E b c' l) as [c'' rest]. cbn [fst snd] in *. split; [|exact H2].
  rewrite H1. destruct (plain_words E b l); reflexivity.
Qed.

Lemma bpe_tokenize_transparent E b c p : cache_ok E b c ->
  snd (bpe_tokenize E b c p) = (l <- plain_words E b (pt_splits p) ;; Ok (mkPt (pt_norm p) l)) /\ cache_ok E b (fst (bpe_tokenize E b c p)).
Proof.
  intros Hc. unfold bpe_tokenize. destruct (bpe_splits_transparent E b (pt_splits p) c Hc) as [H1 H2].
  destruct (bpe_splits E b c (pt_splits p)) as [c' r]. cbn [fst snd] in *. rewrite H1. split; [reflexivity | exact H2].
Qed.

Lemma cache_ok_nil E b : cache_ok E b [].
Proof. intros s w H. discriminate. Qed.

Lemma reach_cache_ok E b c : reach_cache E b c -> cache_ok E b c.
Proof.
  induction 1 as [|c p c' r _ IH Hc]; [apply cache_ok_nil|].
  destruct (bpe_tokenize_transparent E b c p IH) as [_ H]. rewrite Hc in H. exact H.
Qed.
