(** General lemmas about Base.v (no model content). *)
From Verif Require Import Base.
From Coq Require Import Permutation.

Lemma leqb_eq a b : leqb a b = true <-> a = b.
Proof.
  revert b; induction a as [|x a IH]; intros [|y b]; cbn; split; intros H; try congruence; try reflexivity.
  - apply andb_prop in H as [H1 H2]. apply N.eqb_eq in H1. apply IH in H2. congruence.
  - inversion H; subst. rewrite N.eqb_refl; cbn. apply IH; reflexivity.
Qed.

Lemma leqb_refl a : leqb a a = true.
Proof. apply leqb_eq; reflexivity. Qed.

Lemma leqb_neq a b : leqb a b = false <-> a <> b.
Proof.
  split; intros H.
  - intros E. apply leqb_eq in E. congruence.
  - destruct (leqb a b) eqn:E; [apply leqb_eq in E; contradiction | reflexivity].
Qed.

Lemma leqb_spec a b : reflect (a = b) (leqb a b).
Proof. destruct (leqb a b) eqn:E; constructor; [apply leqb_eq | apply leqb_neq]; exact E. Qed.

Lemma leqb_sym a b : leqb a b = leqb b a.
Proof.
  destruct (leqb_spec a b) as [->|H]; [symmetry; apply leqb_refl|].
  symmetry; apply leqb_neq; congruence.
Qed.

Lemma is_nil_true {A} (l : list A) : is_nil l = true <-> l = [].
Proof. destruct l; cbn; split; congruence. Qed.
Lemma is_nil_false {A} (l : list A) : is_nil l = false <-> l <> [].
Proof. destruct l; cbn; split; congruence. Qed.

Lemma is_prefix_spec p s : is_prefix p s = true <-> exists r, s = p ++ r.
Proof.
  revert s; induction p as [|x p IH]; intros s; cbn.
  - split; [intros _; exists s; reflexivity | reflexivity].
  - destruct s as [|y s].
    + split; [discriminate | intros [r Hr]; discriminate].
    + rewrite andb_true_iff, IH, N.eqb_eq. split.
      * intros [-> [r ->]]. exists r; reflexivity.
      * intros [r Hr]. inversion Hr; subst. split; [reflexivity | exists r; reflexivity].
Qed.

(** *** bind *)
Lemma bind_ok {A B} (x : res A) (f : A -> res B) b : bind x f = Ok b <-> exists a, x = Ok a /\ f a = Ok b.
Proof.
  destruct x; cbn; split; intros H; try discriminate.
  - exists a; auto.
  - destruct H as [a' [E H]]; inversion E; subst; exact H.
  - destruct H as [a' [E H]]; discriminate.
  - destruct H as [a' [E H]]; discriminate.
  - destruct H as [a' [E H]]; discriminate.
Qed.

(** *** mapM *)
Lemma mapM_ok {A B} (f : A -> res B) l r :
  mapM f l = Ok r <-> Forall2 (fun x y => f x = Ok y) l r.
Proof.
  revert r; induction l as [|x l IH]; intros r; cbn.
  - split; [intros H; inversion H; constructor | intros H; inversion H; reflexivity].
  - split.
    + intros H. apply bind_ok in H as [y [Hy H]]. apply bind_ok in H as [ys [Hys H]]. inversion H; subst.
      constructor; [exact Hy | apply IH; exact Hys].
    + intros H; inversion H as [|? y ? ys Hy Hys]; subst. rewrite Hy; cbn.
      apply IH in Hys. rewrite Hys; reflexivity.
Qed.

Lemma mapM_total {A B} (f : A -> res B) (g : A -> B) l :
  (forall x, In x l -> f x = Ok (g x)) -> mapM f l = Ok (map g l).
Proof.
  induction l as [|x l IH]; intros H; cbn; [reflexivity|].
  rewrite (H x) by (left; reflexivity). cbn. rewrite IH by (intros y Hy; apply H; right; exact Hy). reflexivity.
Qed.

Lemma mapM_length {A B} (f : A -> res B) l r : mapM f l = Ok r -> length r = length l.
Proof. intros H; apply mapM_ok in H. induction H; cbn; lia. Qed.

Lemma foldM_app {A S} (f : S -> A -> res S) s l1 l2 :
  foldM f s (l1 ++ l2) = (s' <- foldM f s l1 ;; foldM f s' l2).
Proof.
  revert s; induction l1 as [|x l1 IH]; intros s; cbn; [reflexivity|].
  destruct (f s x); cbn; auto.
Qed.

(** *** vectors *)
Lemma vat_ok {A} (l : list A) i x : vat l i = Ok x <-> nth_error l i = Some x.
Proof. unfold vat; destruct (nth_error l i); split; intros H; inversion H; reflexivity. Qed.

Lemma vat_in {A} (l : list A) i d : i < length l -> vat l i = Ok (nth i l d).
Proof. intros H. unfold vat. rewrite (nth_error_nth' l d H). reflexivity. Qed.

Lemma vat_oob {A} (l : list A) i : length l <= i -> vat l i = Undef OobIndex.
Proof. intros H. unfold vat. apply nth_error_None in H. rewrite H. reflexivity. Qed.

Lemma vset_ok {A} (l : list A) i x : i < length l -> vset l i x = Ok (firstn i l ++ x :: skipn (S i) l).
Proof. intros H. unfold vset. apply Nat.ltb_lt in H. rewrite H. reflexivity. Qed.

Lemma set_nth_error {A} (l : list A) i x j :
  i < length l ->
  nth_error (firstn i l ++ x :: skipn (S i) l) j = if j =? i then Some x else nth_error l j.
Proof.
  revert i j; induction l as [|y l IH]; intros i j H; cbn in H; [lia|].
  destruct i as [|i]; destruct j as [|j]; cbn; try reflexivity.
  rewrite IH by lia. reflexivity.
Qed.

Lemma set_nth_length {A} (l : list A) i x : i < length l -> length (firstn i l ++ x :: skipn (S i) l) = length l.
Proof. intros H. rewrite app_length, firstn_length; cbn [length]; rewrite skipn_length; lia. Qed.

Lemma vslice_ok {A} (l : list A) a b : a <= b -> b <= length l -> vslice l a b = Ok (firstn (b - a) (skipn a l)).
Proof. intros H1 H2. unfold vslice. apply Nat.leb_le in H1, H2. rewrite H1, H2. reflexivity. Qed.

(** *** maps *)
Lemma sfind_in {V} k (m : smap V) v : sfind k m = Some v -> In (k, v) m.
Proof.
  induction m as [|[k' v'] m IH]; cbn; [discriminate|].
  destruct (leqb_spec k k') as [->|]; intros H; [inversion H; subst; left; reflexivity | right; auto].
Qed.

Lemma sfind_none {V} k (m : smap V) : sfind k m = None <-> ~ In k (map fst m).
Proof.
  induction m as [|[k' v'] m IH]; cbn; [split; [tauto | reflexivity]|].
  destruct (leqb_spec k k') as [->|Hn]; [split; [discriminate | intros H; exfalso; apply H; left; reflexivity]|].
  rewrite IH. split; intros H; [intros [E|E]; [congruence | contradiction] | tauto].
Qed.

Lemma sfind_some_in {V} k (m : smap V) : (exists v, sfind k m = Some v) <-> In k (map fst m).
Proof.
  split.
  - intros [v H]. apply sfind_in in H. apply (in_map fst) in H; exact H.
  - intros H. destruct (sfind k m) as [v|] eqn:E; [exists v; reflexivity|].
    apply sfind_none in E. contradiction.
Qed.

Lemma sfind_nodup {V} k v (m : smap V) : NoDup (map fst m) -> In (k, v) m -> sfind k m = Some v.
Proof.
  induction m as [|[k' v'] m IH]; cbn; [tauto|]. intros Hn [E|Hi].
  - inversion E; subst. rewrite leqb_refl. reflexivity.
  - inversion Hn as [|? ? Hni Hn']; subst.
    destruct (leqb_spec k k') as [->|]; [|apply IH; assumption].
    exfalso; apply Hni. apply (in_map fst) in Hi; exact Hi.
Qed.

Lemma sfind_sset {V} k k' (v : V) m : sfind k (sset k' v m) = if leqb k k' then Some v else sfind k m.
Proof.
  induction m as [|[q w] m IH]; cbn.
  - reflexivity.
  - destruct (leqb_spec k' q) as [->|Hn]; cbn.
    + destruct (leqb k q); reflexivity.
    + rewrite IH. destruct (leqb_spec k q) as [->|]; [|reflexivity].
      destruct (leqb_spec q k') as [->|]; [congruence | reflexivity].
Qed.

Lemma sfind_app {V} k (m1 m2 : smap V) :
  sfind k (m1 ++ m2) = match sfind k m1 with Some v => Some v | None => sfind k m2 end.
Proof.
  induction m1 as [|[q w] m IH]; cbn; [reflexivity|]. destruct (leqb k q); [reflexivity | exact IH].
Qed.

Lemma sfind_sinsert {V} k k' (v : V) m :
  sfind k (sinsert k' v m) = match sfind k m with Some w => Some w | None => if leqb k k' then Some v else None end.
Proof.
  unfold sinsert. destruct (sfind k' m) eqn:E.
  - destruct (sfind k m) eqn:E2; [reflexivity|]. destruct (leqb_spec k k') as [->|]; [congruence | reflexivity].
  - rewrite sfind_app. cbn. reflexivity.
Qed.

Lemma zfind_in {V} k (m : zmap V) v : zfind k m = Some v -> In (k, v) m.
Proof.
  induction m as [|[k' v'] m IH]; cbn; [discriminate|].
  destruct (Z.eqb_spec k k') as [->|]; intros H; [inversion H; subst; left; reflexivity | right; auto].
Qed.

Lemma zfind_none {V} k (m : zmap V) : zfind k m = None <-> ~ In k (map fst m).
Proof.
  induction m as [|[k' v'] m IH]; cbn; [split; [tauto | reflexivity]|].
  destruct (Z.eqb_spec k k') as [->|Hn]; [split; [discriminate | intros H; exfalso; apply H; left; reflexivity]|].
  rewrite IH. split; intros H; [intros [E|E]; [congruence | contradiction] | tauto].
Qed.

Lemma zfind_zset {V} k k' (v : V) m : zfind k (zset k' v m) = if Z.eqb k k' then Some v else zfind k m.
Proof.
  induction m as [|[q w] m IH]; cbn.
  - reflexivity.
  - destruct (Z.eqb_spec k' q) as [->|Hn]; cbn.
    + destruct (Z.eqb k q); reflexivity.
    + rewrite IH. destruct (Z.eqb_spec k q) as [->|]; [|reflexivity].
      destruct (Z.eqb_spec q k') as [->|]; [congruence | reflexivity].
Qed.

Lemma smem_in k s : smem k s = true <-> In k s.
Proof.
  unfold smem. rewrite existsb_exists. split.
  - intros [x [Hx E]]. apply leqb_eq in E. subst; exact Hx.
  - intros H. exists k. split; [exact H | apply leqb_refl].
Qed.

Lemma smem_false k s : smem k s = false <-> ~ In k s.
Proof.
  split; intros H.
  - intros Hi. apply smem_in in Hi. congruence.
  - destruct (smem k s) eqn:E; [apply smem_in in E; contradiction | reflexivity].
Qed.

Lemma existsb_false_iff {A} (f : A -> bool) l : existsb f l = false <-> forall x, In x l -> f x = false.
Proof.
  induction l as [|y l IH]; cbn; [split; [intros _ x [] | reflexivity]|].
  rewrite orb_false_iff, IH. split.
  - intros [H1 H2] x [->|Hx]; auto.
  - intros H; split; [apply H; left; reflexivity | intros x Hx; apply H; right; exact Hx].
Qed.

Lemma nth_error_skipn {A} (l : list A) i j : nth_error (skipn i l) j = nth_error l (i + j).
Proof. revert l; induction i as [|i IH]; intros [|x l]; cbn; try reflexivity; [destruct j; reflexivity | apply IH]. Qed.

Lemma nth_error_firstn {A} (l : list A) i j : nth_error (firstn i l) j = if j <? i then nth_error l j else None.
Proof.
  revert l j; induction i as [|i IH]; intros l j; cbn.
  - destruct j; reflexivity.
  - destruct l as [|x l], j as [|j]; cbn [nth_error]; try reflexivity.
    + match goal with |- context [if ?b then _ else _] => destruct b end; reflexivity.
    + rewrite IH. reflexivity.
Qed.

Lemma list_ext {A} (l1 l2 : list A) : (forall i, nth_error l1 i = nth_error l2 i) -> l1 = l2.
Proof.
  revert l2; induction l1 as [|x l1 IH]; intros [|y l2] H; [reflexivity| | |].
  - specialize (H 0); discriminate.
  - specialize (H 0); discriminate.
  - pose proof (H 0) as H0; inversion H0; subst. f_equal. apply IH. intros i; apply (H (S i)).
Qed.
