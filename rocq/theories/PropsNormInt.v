(** The int arithmetic of text normalization: C145. *)
From Verif Require Import Base BaseFacts Unicode UnicodeProofs Common Normalizer NormIntChecked NormIntSpec OutSpec Env.
From Coq Require Import ZifyBool ZifyNat.

Local Notation lim := 2147483648%Z.
Lemma ckn_ok n : (Z.of_nat n < lim)%Z -> ckn n = Ok n.
Proof. intros H. unfold ckn. change (2 ^ 31)%Z with lim. replace (Z.of_nat n <? lim)%Z with true by lia. reflexivity. Qed.
Lemma ckn_over n : (lim <= Z.of_nat n)%Z -> ckn n = Undef IntOverflow.
Proof. intros H. unfold ckn. change (2 ^ 31)%Z with lim. replace (Z.of_nat n <? lim)%Z with false by lia. reflexivity. Qed.

(** every range, together with the sizes of all later ones and [k] more, ends at or before [T] *)
Fixpoint total (l : list (nat * nat)) : nat := match l with [] => 0 | p :: r => snd p + total r end.
Fixpoint bnd (T k : nat) (l : list (nat * nat)) : Prop := match l with [] => True | p :: r => fst p + snd p + total r + k <= T /\ bnd T k r end.
Lemma total_app a b : total (a ++ b) = total a + total b.
Proof. induction a as [|p a IH]; cbn [app total]; lia. Qed.
Lemma bnd_app T k a b : bnd T k (a ++ b) <-> bnd T (total b + k) a /\ bnd T k b.
Proof. induction a as [|p a IH]; cbn [app bnd]; [tauto|]. rewrite IH, total_app. intuition lia. Qed.
Lemma bnd_mono T k T' k' l : bnd T k l -> T + k' <= T' + k -> bnd T' k' l.
Proof. intros H Hle. induction l as [|p r IH]; cbn [bnd] in *; [trivial|]. destruct H as [H1 H2]. split; [lia | exact (IH H2)]. Qed.
Lemma total_rebase l : forall s, total (rebase_ranges s l) = total l.
Proof. induction l as [|[f n] r IH]; intros s; cbn [rebase_ranges total snd]; [reflexivity|]. rewrite IH. reflexivity. Qed.
Lemma bnd_rebase T k l : forall s, s + total l + k <= T -> bnd T k (rebase_ranges s l).
Proof. induction l as [|[f n] r IH]; intros s H; cbn [rebase_ranges bnd total fst snd] in *; [trivial|]. rewrite total_rebase. split; [lia | apply IH; lia]. Qed.
Lemma refresh_ck_ok l : forall prev, (Z.of_nat (fst prev + snd prev + total l) < lim)%Z -> refresh_ck prev l = Ok (rebase_ranges (pair_end prev) l).
Proof.
  induction l as [|[f n] r IH]; intros [a b] H; cbn [refresh_ck rebase_ranges total fst snd] in *; [reflexivity|].
  rewrite ckn_ok by lia. cbn [bind]. rewrite IH by (cbn [fst snd]; lia). reflexivity.
Qed.

Lemma cut {A} (l : list A) i x : nth_error l i = Some x -> exists a b, l = a ++ x :: b /\ length a = i.
Proof. intros H. destruct (nth_error_split _ _ H) as (a & b & -> & Hl). exists a, b. auto. Qed.
Lemma erase_at {A} (a b : list A) x : verase (a ++ x :: b) (length a) (length a + 1) = Ok (a ++ b).
Proof.
  unfold verase. rewrite app_length. cbn [length]. replace ((length a <=? length a + 1) && (length a + 1 <=? length a + S (length b))) with true by lia.
  rewrite firstn_app, firstn_all, Nat.sub_diag. cbn [firstn]. rewrite app_nil_r. rewrite skipn_app, skipn_all2 by lia. replace (length a + 1 - length a) with 1 by lia. reflexivity.
Qed.
Lemma insert_at {A} (a b xs : list A) : vinsert (a ++ b) (length a) xs = Ok (a ++ xs ++ b).
Proof.
  unfold vinsert. rewrite app_length. replace (length a <=? length a + length b) with true by lia.
  rewrite firstn_app, firstn_all, Nat.sub_diag, skipn_app, skipn_all, Nat.sub_diag. cbn [firstn skipn app]. rewrite app_nil_r. reflexivity.
Qed.
Lemma refresh_at a (xs b : list (nat * nat)) y j : j = length a + length xs + 1 -> refresh_from j (a ++ (xs ++ [y]) ++ b) = a ++ (xs ++ [y]) ++ rebase_ranges (pair_end y) b.
Proof.
  intros ->. unfold refresh_from. replace (length a + length xs + 1) with (S (length a + length xs)) by lia.
  assert (En : nth (length a + length xs) (a ++ (xs ++ [y]) ++ b) (0, 0) = y).
  { rewrite app_nth2 by lia. replace (length a + length xs - length a) with (length xs) by lia. rewrite <- app_assoc, app_nth2 by lia. rewrite Nat.sub_diag. reflexivity. }
  rewrite En. replace (S (length a + length xs)) with (length (a ++ xs ++ [y])) by (rewrite !app_length; cbn [length]; lia).
  rewrite (app_assoc a (xs ++ [y]) b). rewrite firstn_app, firstn_all, Nat.sub_diag, skipn_app, skipn_all, Nat.sub_diag. cbn [firstn skipn app]. rewrite app_nil_r, <- app_assoc. reflexivity.
Qed.
Lemma refresh_ck_at a (xs b : list (nat * nat)) y j : j = length a + length xs + 1 -> (Z.of_nat (fst y + snd y + total b) < lim)%Z ->
  refresh_from_ck j (a ++ (xs ++ [y]) ++ b) = Ok (a ++ (xs ++ [y]) ++ rebase_ranges (pair_end y) b).
Proof.
  intros -> Hb. unfold refresh_from_ck. replace (length a + length xs + 1) with (S (length a + length xs)) by lia.
  assert (En : nth (length a + length xs) (a ++ (xs ++ [y]) ++ b) (0, 0) = y).
  { rewrite app_nth2 by lia. replace (length a + length xs - length a) with (length xs) by lia. rewrite <- app_assoc, app_nth2 by lia. rewrite Nat.sub_diag. reflexivity. }
  rewrite En. replace (S (length a + length xs)) with (length (a ++ xs ++ [y])) by (rewrite !app_length; cbn [length]; lia).
  rewrite (app_assoc a (xs ++ [y]) b). rewrite firstn_app, firstn_all, Nat.sub_diag, skipn_app, skipn_all, Nat.sub_diag. cbn [firstn skipn app]. rewrite app_nil_r.
  rewrite refresh_ck_ok by exact Hb. cbn [bind]. rewrite <- app_assoc. reflexivity.
Qed.

(** how many bytes an operation adds to the tables, and the largest index it computes *)
Definition adds (op : top) : nat := match op with OpErase | OpShrink => 0 | OpPad | OpGrow => 2 | OpAdd n => S n | OpReplace n => n end.
Definition reach (op : top) : nat := match op with OpErase | OpShrink | OpGrow => 0 | OpPad => 3 | OpAdd _ => 2 | OpReplace _ => 1 end.

Lemma transform_bnd ns i op T : bnd T 0 (ns_ranges ns) -> (Z.of_nat (T + adds op) < lim)%Z -> (Z.of_nat (i + reach op) < lim)%Z ->
  transform_ck ns i op = transform ns i op /\ forall ns', transform ns i op = Ok ns' -> bnd (T + adds op) 0 (ns_ranges ns') /\ ns_text ns' = ns_text ns.
Proof.
  intros Hb HT Hi. unfold transform_ck, transform. cbv zeta. destruct (vat (ns_ranges ns) i) as [[start limit]|e|u|] eqn:Ev; cbn [bind]; try (split; [reflexivity | discriminate]).
  assert (Ei : nth_error (ns_ranges ns) i = Some (start, limit)) by (unfold vat in Ev; destruct (nth_error (ns_ranges ns) i); [injection Ev as ->; reflexivity | discriminate]). clear Ev.
  destruct (cut _ _ _ Ei) as (a & b & El & Ha). rewrite El in Hb |- *. subst i. apply bnd_app in Hb as [Hb1 [Hb2 Hb3]]. cbn [bind total fst snd] in *. clear Ei El.
  destruct op as [| | | |n|n]; cbn [adds reach] in *.
  - destruct (verase (ns_offsets ns) start (start + limit)); cbn [bind]; try (split; [reflexivity | discriminate]). rewrite erase_at. cbn [bind]. split; [reflexivity|]. intros ns' [= <-]. cbn [ns_ranges ns_text]. split; [|reflexivity].
    apply bnd_app. split; [refine (bnd_mono _ _ _ _ _ Hb1 _); cbn [total fst snd]; lia | refine (bnd_mono _ _ _ _ _ Hb3 _); cbn [total fst snd]; lia].
  - destruct (vat (ns_offsets ns) start); cbn [bind]; try (split; [reflexivity | discriminate]). destruct (vinsert (ns_offsets ns) start [a0; a0]); cbn [bind]; try (split; [reflexivity | discriminate]).
    rewrite (ckn_ok (start + 1)) by lia. cbn [bind]. rewrite (ckn_ok (start + limit)) by lia. cbn [bind]. rewrite (ckn_ok (start + limit + 1)) by lia. cbn [bind]. rewrite erase_at. cbn [bind]. rewrite insert_at. cbn [bind].
    rewrite ckn_ok by lia. cbn [bind]. change [(start, 1); (start + 1, limit); (start + limit + 1, 1)] with ([(start, 1); (start + 1, limit)] ++ [(start + limit + 1, 1)]).
    rewrite refresh_ck_at by (cbn [length fst snd]; lia). rewrite refresh_at by (cbn [length]; lia). cbn [bind]. split; [reflexivity|]. intros ns' [= <-]. cbn [ns_ranges ns_text]. split; [|reflexivity].
    apply bnd_app. split; [refine (bnd_mono _ _ _ _ _ Hb1 _); cbn [app total fst snd pair_end]; rewrite total_rebase; lia|]. unfold pair_end. cbn [app bnd total fst snd]. rewrite total_rebase. repeat split; try lia. apply bnd_rebase. lia.
  - rewrite (ckn_ok (start + 1)) by lia. cbn [bind]. rewrite erase_at. cbn [bind]. rewrite insert_at. cbn [bind]. split; [reflexivity|]. intros ns' [= <-]. cbn [ns_ranges ns_text]. split; [|reflexivity].
    apply bnd_app. split; [refine (bnd_mono _ _ _ _ _ Hb1 _); cbn [app total fst snd]; lia|]. cbn [app bnd total fst snd]. repeat split; try lia. refine (bnd_mono _ _ _ _ _ Hb3 _); cbn [total fst snd]; lia.
  - rewrite erase_at. cbn [bind]. split; [reflexivity|]. intros ns' [= <-]. cbn [ns_ranges ns_text]. split; [|reflexivity].
    apply bnd_app. split; [refine (bnd_mono _ _ _ _ _ Hb1 _); cbn [total fst snd]; lia | refine (bnd_mono _ _ _ _ _ Hb3 _); cbn [total fst snd]; lia].
  - rewrite (ckn_ok n) by lia. cbn [bind]. rewrite (ckn_ok (start + n)) by lia. cbn [bind]. rewrite erase_at. cbn [bind]. rewrite insert_at. cbn [bind]. rewrite ckn_ok by lia. cbn [bind].
    destruct (vat (ns_offsets ns) start); cbn [bind]; try (split; [reflexivity | discriminate]). destruct (vinsert (ns_offsets ns) start (repeat a0 n)); cbn [bind]; try (split; [reflexivity | discriminate]).
    change [(start, n); (start + n, limit)] with ([(start, n)] ++ [(start + n, limit)]). rewrite refresh_ck_at by (cbn [length fst snd]; lia). rewrite refresh_at by (cbn [length]; lia). cbn [bind].
    split; [reflexivity|]. intros ns' [= <-]. cbn [ns_ranges ns_text]. split; [|reflexivity].
    apply bnd_app. split; [refine (bnd_mono _ _ _ _ _ Hb1 _); cbn [app total fst snd pair_end]; rewrite total_rebase; lia|]. unfold pair_end. cbn [app bnd total fst snd]. rewrite total_rebase. repeat split; try lia. apply bnd_rebase. lia.
  - rewrite (ckn_ok n) by lia. cbn [bind]. rewrite erase_at. cbn [bind]. rewrite insert_at. cbn [bind].
    destruct (vat (ns_offsets ns) start); cbn [bind]; try (split; [reflexivity | discriminate]). destruct n as [|k]; [split; [reflexivity | discriminate]|].
    destruct (vinsert (ns_offsets ns) start (repeat a0 k)); cbn [bind]; try (split; [reflexivity | discriminate]). rewrite ckn_ok by lia. cbn [bind].
    change [(start, S k)] with ([] ++ [(start, S k)]). rewrite refresh_ck_at by (cbn [length fst snd]; lia). rewrite refresh_at by (cbn [length]; lia). cbn [bind].
    split; [reflexivity|]. intros ns' [= <-]. cbn [ns_ranges ns_text]. split; [|reflexivity].
    apply bnd_app. split; [refine (bnd_mono _ _ _ _ _ Hb1 _); cbn [app total fst snd pair_end]; rewrite total_rebase; lia|]. unfold pair_end. cbn [app bnd total fst snd]. rewrite total_rebase. repeat split; try lia. apply bnd_rebase. lia.
Qed.

(** ... and there are at most [T] ranges *)
Definition bd (T : nat) (l : list (nat * nat)) : Prop := bnd T 0 l /\ length l <= T.
Lemma bd_mono T T' l : bd T l -> T <= T' -> bd T' l.
Proof. intros [H1 H2] Hle. split; [refine (bnd_mono _ _ _ _ _ H1 _); lia | lia]. Qed.
Lemma erase_len {A} (l l' : list A) i : verase l i (i + 1) = Ok l' -> length l = S (length l').
Proof. unfold verase. destruct ((i <=? i + 1) && (i + 1 <=? length l)) eqn:Ei; [|discriminate]. intros [= <-]. rewrite app_length, firstn_length, skipn_length. lia. Qed.
Lemma insert_len {A} (l l' : list A) i xs : vinsert l i xs = Ok l' -> length l' = length l + length xs.
Proof. unfold vinsert. destruct (i <=? length l) eqn:Ei; [|discriminate]. intros [= <-]. rewrite !app_length, firstn_length, skipn_length. lia. Qed.
Lemma rebase_len l : forall s, length (rebase_ranges s l) = length l.
Proof. induction l as [|[f n] r IH]; intros s; cbn [rebase_ranges length]; [reflexivity|]. rewrite IH. reflexivity. Qed.
Lemma refresh_len j l : length (refresh_from j l) = length l.
Proof. unfold refresh_from. destruct j as [|p]; [reflexivity|]. rewrite app_length, rebase_len, firstn_length, skipn_length. lia. Qed.
Lemma transform_len ns i op ns' : transform ns i op = Ok ns' -> length (ns_ranges ns') <= length (ns_ranges ns) + adds op.
Proof.
  unfold transform. intros H. apply bind_ok in H as ([start limit] & _ & H). destruct op as [| | | |n|n]; cbn [adds].
  - apply bind_ok in H as (o & _ & H). apply bind_ok in H as (r & Hr & H). injection H as <-. cbn [ns_ranges]. apply erase_len in Hr. lia.
  - apply bind_ok in H as (o & _ & H). apply bind_ok in H as (o' & _ & H). apply bind_ok in H as (r1 & H1 & H). apply bind_ok in H as (r2 & H2 & H). injection H as <-. cbn [ns_ranges]. rewrite refresh_len. apply erase_len in H1. apply insert_len in H2. cbn [length] in H2. lia.
  - apply bind_ok in H as (r1 & H1 & H). apply bind_ok in H as (r2 & H2 & H). injection H as <-. cbn [ns_ranges]. apply erase_len in H1. apply insert_len in H2. cbn [length] in H2. lia.
  - apply bind_ok in H as (r1 & H1 & H). injection H as <-. cbn [ns_ranges]. apply erase_len in H1. lia.
  - apply bind_ok in H as (r1 & H1 & H). apply bind_ok in H as (r2 & H2 & H). apply bind_ok in H as (o & _ & H). apply bind_ok in H as (o' & _ & H). injection H as <-. cbn [ns_ranges]. rewrite refresh_len. apply erase_len in H1. apply insert_len in H2. cbn [length] in H2. lia.
  - apply bind_ok in H as (r1 & H1 & H). apply bind_ok in H as (r2 & H2 & H). apply bind_ok in H as (o & _ & H). destruct n as [|n]; [discriminate|]. apply bind_ok in H as (o' & _ & H). injection H as <-. cbn [ns_ranges]. rewrite refresh_len. apply erase_len in H1. apply insert_len in H2. cbn [length] in H2. lia.
Qed.
Lemma transform_ck_ok ns i op T : bd T (ns_ranges ns) -> (Z.of_nat (T + adds op) < lim)%Z -> (Z.of_nat (i + reach op) < lim)%Z ->
  transform_ck ns i op = transform ns i op /\ forall ns', transform ns i op = Ok ns' -> bd (T + adds op) (ns_ranges ns') /\ ns_text ns' = ns_text ns.
Proof.
  intros [Hb Hl] HT Hi. destruct (transform_bnd ns i op T Hb HT Hi) as [E1 E2]. split; [exact E1|]. intros ns' E. destruct (E2 ns' E) as [B1 B2]. split; [|exact B2]. split; [exact B1|]. apply transform_len in E. lia.
Qed.

(** the loops *)
Lemma grow_ids_ck_ok old new fuel : forall oi ni, (Z.of_nat (2 * length old + 2) < lim)%Z -> ni <= 2 * oi -> grow_ids_ck fuel old new oi ni = Ok (grow_ids fuel old new oi ni).
Proof.
  induction fuel as [|f IH]; intros oi ni HL Hn; cbn [grow_ids_ck grow_ids]; [reflexivity|].
  destruct (nth_error old oi) eqn:Eo; [|reflexivity]. destruct (nth_error new ni); [|reflexivity].
  assert (oi < length old) by (apply nth_error_Some; congruence). rewrite ckn_ok by lia. cbn [bind]. rewrite !Nat.add_1_r. destruct (N.eqb n n0).
  - rewrite ckn_ok by lia. cbn [bind]. apply IH; lia.
  - rewrite ckn_ok by lia. cbn [bind]. rewrite IH by lia. reflexivity.
Qed.
Lemma grow_ids_small old new fuel : forall oi ni, Forall (fun i => i < length old) (grow_ids fuel old new oi ni) /\ length (grow_ids fuel old new oi ni) + oi <= Nat.max oi (length old).
Proof.
  induction fuel as [|f IH]; intros oi ni; cbn [grow_ids]; [split; [constructor | cbn [length]; lia]|].
  destruct (nth_error old oi) eqn:Eo; [|split; [constructor | cbn [length]; lia]]. destruct (nth_error new ni); [|split; [constructor | cbn [length]; lia]].
  assert (oi < length old) by (apply nth_error_Some; congruence). destruct (N.eqb n n0).
  - destruct (IH (S oi) (S ni)) as [H1 H2]. split; [exact H1 | lia].
  - destruct (IH (S oi) (ni + 2)) as [H1 H2]. split; [constructor; [lia | exact H1] | cbn [length]; lia].
Qed.
Lemma apply_grow_ck_ok L l : forall ns multi T, bd T (ns_ranges ns) -> Forall (fun i => i < L) l -> (Z.of_nat (T + 2 * length l) < lim)%Z -> (Z.of_nat (L + multi + length l) < lim)%Z ->
  apply_grow_ck ns l multi = apply_grow ns l multi /\ forall ns', apply_grow ns l multi = Ok ns' -> bd (T + 2 * length l) (ns_ranges ns').
Proof.
  induction l as [|i r IH]; intros ns multi T Hb Hl HT HL; cbn [apply_grow_ck apply_grow length] in *.
  - split; [reflexivity|]. intros ns' [= <-]. refine (bd_mono _ _ _ Hb _). lia.
  - inversion_clear Hl. rewrite ckn_ok by lia. cbn [bind]. destruct (transform_ck_ok ns (i + multi) OpGrow T Hb ltac:(cbn [adds]; lia) ltac:(cbn [reach]; lia)) as [E1 E2]. rewrite E1.
    destruct (transform ns (i + multi) OpGrow) as [ns1| | |]; cbn [bind]; try (split; [reflexivity | discriminate]). destruct (E2 ns1 eq_refl) as [B _]. cbn [adds] in B.
    rewrite ckn_ok by lia. cbn [bind]. rewrite Nat.add_1_r. destruct (IH ns1 (S multi) (T + 2) B H0 ltac:(lia) ltac:(lia)) as [I1 I2]. split; [exact I1|]. intros ns' E. refine (bd_mono _ _ _ (I2 ns' E) _). lia.
Qed.
Lemma nf_ck_ok E f ns T : icu_expansion E -> bd T (ns_ranges ns) -> (Z.of_nat (T + 2 * length (ns_text ns)) < lim)%Z -> (Z.of_nat (2 * length (ns_text ns) + 2) < lim)%Z ->
  normalize_nf_ck E f ns = normalize_nf E f ns /\ forall ns', normalize_nf E f ns = Ok ns' -> bd (T + 2 * length (ns_text ns)) (ns_ranges ns') /\ length (ns_text ns') <= 18 * length (ns_text ns).
Proof.
  intros HE Hb HT HL. unfold normalize_nf_ck, normalize_nf. destruct (e_norm E f (map fix_cp (ns_text ns))) as [res|] eqn:En; [|split; [reflexivity | discriminate]].
  rewrite grow_ids_ck_ok by lia. cbn [bind]. destruct (grow_ids_small (ns_text ns) res (length (ns_text ns)) 0 0) as [S1 S2]. set (ids := grow_ids _ _ _ _ _) in *.
  destruct (apply_grow_ck_ok (length (ns_text ns)) ids ns 0 T Hb S1 ltac:(lia) ltac:(lia)) as [E1 E2]. rewrite E1. destruct (apply_grow ns ids 0) as [ns1| | |]; cbn [bind]; try (split; [reflexivity | discriminate]).
  split; [reflexivity|]. intros ns' [= <-]. unfold set_text. cbn [ns_ranges ns_text]. split; [refine (bd_mono _ _ _ (E2 ns1 eq_refl) _); lia|]. specialize (HE _ _ _ En). rewrite map_length in HE. exact HE.
Qed.

Lemma clean_loop_ck_ok E l : forall ns i T, bd T (ns_ranges ns) -> (Z.of_nat T < lim)%Z -> (Z.of_nat (i + length l) < lim)%Z ->
  clean_loop_ck E ns i l = clean_loop E ns i l /\ forall ns' t, clean_loop E ns i l = Ok (ns', t) -> bd T (ns_ranges ns') /\ length t <= length l.
Proof.
  induction l as [|c r IH]; intros ns i T Hb HT HL; cbn [clean_loop_ck clean_loop length] in *.
  - split; [reflexivity|]. intros ns' t [= <- <-]. auto.
  - destruct (removed_by_clean E c).
    + destruct (transform_ck_ok ns i OpErase T Hb ltac:(cbn [adds]; lia) ltac:(cbn [reach]; lia)) as [E1 E2]. rewrite E1. destruct (transform ns i OpErase) as [ns1| | |]; cbn [bind]; try (split; [reflexivity | discriminate]).
      destruct (E2 ns1 eq_refl) as [B _]. cbn [adds] in B. rewrite Nat.add_0_r in B. rewrite ckn_ok by lia. cbn [bind]. rewrite Nat.add_1_r. destruct (IH ns1 (S i) T B HT ltac:(lia)) as [I1 I2]. split; [exact I1|].
      intros ns' t Ec. destruct (I2 _ _ Ec). split; [assumption | lia].
    + rewrite ckn_ok by lia. cbn [bind]. rewrite Nat.add_1_r. destruct (IH ns (S i) T Hb HT ltac:(lia)) as [I1 I2]. rewrite I1. split; [reflexivity|]. destruct (clean_loop E ns (S i) r) as [[ns1 t1]| | |]; cbn [bind]; try discriminate.
      intros ns' t [= <- <-]. destruct (I2 _ _ eq_refl). cbn [length]. split; [assumption | lia].
Qed.
Lemma chinese_ids_ck_ok l : forall i, (Z.of_nat (i + length l) < lim)%Z -> chinese_ids_ck l i = Ok (chinese_ids l i).
Proof. induction l as [|c r IH]; intros i HL; cbn [chinese_ids_ck chinese_ids length] in *; [reflexivity|]. rewrite ckn_ok by lia. cbn [bind]. rewrite Nat.add_1_r, IH by lia. cbn [bind]. destruct (is_chinese_char c); reflexivity. Qed.
Lemma chinese_ids_small l : forall i, Forall (fun k => k < i + length l) (chinese_ids l i) /\ length (chinese_ids l i) <= length l.
Proof.
  induction l as [|c r IH]; intros i; cbn [chinese_ids length]; [split; [constructor | lia]|]. destruct (IH (S i)) as [I1 I2].
  assert (Forall (fun k => k < i + S (length r)) (chinese_ids r (S i))) by (refine (Forall_impl _ _ I1); intros; lia).
  destruct (is_chinese_char c); [split; [constructor; [lia | assumption] | cbn [length]; lia] | split; [assumption | lia]].
Qed.
Lemma apply_pad_ck_ok L l : forall ns multi T, bd T (ns_ranges ns) -> Forall (fun i => i < L) l -> (Z.of_nat (T + 2 * length l) < lim)%Z -> (Z.of_nat (L + multi + 2 * length l) < lim)%Z ->
  apply_pad_ck ns l multi = apply_pad ns l multi /\ forall ns', apply_pad ns l multi = Ok ns' -> bd (T + 2 * length l) (ns_ranges ns') /\ ns_text ns' = ns_text ns.
Proof.
  induction l as [|i r IH]; intros ns multi T Hb Hl HT HL; cbn [apply_pad_ck apply_pad length] in *.
  - split; [reflexivity|]. intros ns' [= <-]. split; [refine (bd_mono _ _ _ Hb _); lia | reflexivity].
  - inversion_clear Hl. rewrite ckn_ok by lia. cbn [bind]. rewrite (ckn_ok (multi + 2)) by lia. cbn [bind]. destruct (transform_ck_ok ns (i + multi) OpPad T Hb ltac:(cbn [adds]; lia) ltac:(cbn [reach]; lia)) as [E1 E2]. rewrite E1.
    destruct (transform ns (i + multi) OpPad) as [ns1| | |]; cbn [bind]; try (split; [reflexivity | discriminate]). destruct (E2 ns1 eq_refl) as [B Tx]. cbn [adds] in B.
    destruct (IH ns1 (multi + 2) (T + 2) B H0 ltac:(lia) ltac:(lia)) as [I1 I2]. split; [exact I1|]. intros ns' E. destruct (I2 ns' E) as [J1 J2]. split; [refine (bd_mono _ _ _ J1 _); lia | congruence].
Qed.
Lemma chinese_changes_len l : length (chinese_changes l) <= 3 * length l /\ length (filter (fun p => 0 <? snd p) (chinese_changes l)) <= 2 * length l.
Proof. induction l as [|c r IH]; cbn [chinese_changes length]; [cbn; lia|]. rewrite filter_app, !app_length. destruct (is_chinese_char c); cbn; cbn in IH; lia. Qed.
Lemma apply_changes_ck_ok l : forall t i, (Z.of_nat (i + length l) < lim)%Z -> apply_changes_ck t i l = apply_changes t i l.
Proof.
  induction l as [|[c k] r IH]; intros t i HL; cbn [apply_changes_ck apply_changes length] in *; [reflexivity|].
  destruct (if 0 <? k then if i <=? length t then Ok (firstn i t ++ [c] ++ skipn i t) else Throw OutOfRange else vset t i c); cbn [bind]; try reflexivity. rewrite ckn_ok by lia. cbn [bind]. rewrite Nat.add_1_r. apply IH. lia.
Qed.
Lemma apply_changes_len l : forall t i t', apply_changes t i l = Ok t' -> length t' = length t + length (filter (fun p => 0 <? snd p) l).
Proof.
  induction l as [|[c k] r IH]; intros t i t'; cbn [apply_changes filter snd]; [intros [= <-]; cbn [length]; lia|]. destruct (0 <? k).
  - destruct (Nat.leb_spec i (length t)); cbn [bind]; [|discriminate]. intros E. rewrite (IH _ _ _ E). cbn [length]. rewrite !app_length, firstn_length, skipn_length. cbn [length]. lia.
  - unfold vset. destruct (Nat.ltb_spec i (length t)); cbn [bind]; [|discriminate]. intros E. rewrite (IH _ _ _ E). rewrite app_length, firstn_length. cbn [length]. rewrite skipn_length. lia.
Qed.
Lemma chinese_ck_ok ns T : bd T (ns_ranges ns) -> (Z.of_nat (T + 2 * length (ns_text ns)) < lim)%Z -> (Z.of_nat (3 * length (ns_text ns)) < lim)%Z ->
  do_handle_chinese_chars_ck ns = do_handle_chinese_chars ns /\ forall ns', do_handle_chinese_chars ns = Ok ns' -> bd (T + 2 * length (ns_text ns)) (ns_ranges ns') /\ length (ns_text ns') <= 3 * length (ns_text ns).
Proof.
  intros Hb HT HL. unfold do_handle_chinese_chars_ck, do_handle_chinese_chars. rewrite chinese_ids_ck_ok by lia. cbn [bind]. destruct (chinese_ids_small (ns_text ns) 0) as [S1 S2].
  destruct (apply_pad_ck_ok (length (ns_text ns)) (chinese_ids (ns_text ns) 0) ns 0 T Hb S1 ltac:(lia) ltac:(lia)) as [E1 E2]. rewrite E1. destruct (apply_pad ns (chinese_ids (ns_text ns) 0) 0) as [ns1| | |]; cbn [bind]; try (split; [reflexivity | discriminate]).
  destruct (E2 ns1 eq_refl) as [B Tx]. destruct (chinese_changes_len (ns_text ns)) as [C1 C2]. rewrite apply_changes_ck_ok by lia. split; [reflexivity|]. destruct (apply_changes (ns_text ns1) 0 (chinese_changes (ns_text ns))) as [t| | |] eqn:Ec; cbn [bind]; try discriminate.
  intros ns' [= <-]. unfold set_text. cbn [ns_ranges ns_text]. split; [refine (bd_mono _ _ _ B _); lia|]. rewrite (apply_changes_len _ _ _ _ Ec), Tx. lia.
Qed.
Lemma mark_ids_ck_ok E l : forall i, (Z.of_nat (i + length l) < lim)%Z -> mark_ids_ck E l i = Ok (mark_ids E l i).
Proof. induction l as [|c r IH]; intros i HL; cbn [mark_ids_ck mark_ids length] in *; [reflexivity|]. rewrite ckn_ok by lia. cbn [bind]. rewrite Nat.add_1_r, IH by lia. cbn [bind]. destruct (e_is_mn E c); reflexivity. Qed.
Lemma mark_ids_small E l : forall i, Forall (fun k => k < i + length l) (mark_ids E l i) /\ length (mark_ids E l i) <= length l.
Proof.
  induction l as [|c r IH]; intros i; cbn [mark_ids length]; [split; [constructor | lia]|]. destruct (IH (S i)) as [I1 I2].
  assert (Forall (fun k => k < i + S (length r)) (mark_ids E r (S i))) by (refine (Forall_impl _ _ I1); intros; lia).
  destruct (e_is_mn E c); [split; [constructor; [lia | assumption] | cbn [length]; lia] | split; [assumption | lia]].
Qed.
Lemma apply_shrink_ck_ok L l : forall ns multi T, bd T (ns_ranges ns) -> Forall (fun i => i < L) l -> (Z.of_nat T < lim)%Z -> (Z.of_nat L < lim)%Z -> (Z.of_nat (multi + length l) < lim)%Z ->
  apply_shrink_ck ns l multi = apply_shrink ns l multi /\ forall ns', apply_shrink ns l multi = Ok ns' -> bd T (ns_ranges ns').
Proof.
  induction l as [|i r IH]; intros ns multi T Hb Hl HT HL HM; cbn [apply_shrink_ck apply_shrink length] in *.
  - split; [reflexivity|]. intros ns' [= <-]. exact Hb.
  - inversion_clear Hl. destruct (transform_ck_ok ns (i - multi) OpShrink T Hb ltac:(cbn [adds]; lia) ltac:(cbn [reach]; lia)) as [E1 E2]. rewrite E1.
    destruct (transform ns (i - multi) OpShrink) as [ns1| | |]; cbn [bind]; try (split; [reflexivity | discriminate]). destruct (E2 ns1 eq_refl) as [B Tx]. cbn [adds] in B. rewrite Nat.add_0_r in B.
    rewrite ckn_ok by lia. cbn [bind]. rewrite Nat.add_1_r. apply (IH ns1 (S multi) T B H0); lia.
Qed.
Lemma filter_len {A} (f : A -> bool) l : length (filter f l) <= length l.
Proof. induction l as [|x r IH]; cbn [filter]; [auto|]. destruct (f x); cbn [length]; lia. Qed.
Lemma strip_accents_ck_ok E ns T : icu_expansion E -> bd T (ns_ranges ns) -> (Z.of_nat (T + 2 * length (ns_text ns)) < lim)%Z -> (Z.of_nat (18 * length (ns_text ns) + 2) < lim)%Z ->
  do_strip_accents_ck E ns = do_strip_accents E ns /\ forall ns', do_strip_accents E ns = Ok ns' -> bd (T + 2 * length (ns_text ns)) (ns_ranges ns') /\ length (ns_text ns') <= 18 * length (ns_text ns).
Proof.
  intros HE Hb HT HL. unfold do_strip_accents_ck, do_strip_accents. destruct (nf_ck_ok E NFD ns T HE Hb HT ltac:(lia)) as [E1 E2]. rewrite E1. destruct (normalize_nf E NFD ns) as [nfd| | |]; cbn [bind]; try (split; [reflexivity | discriminate]).
  destruct (E2 nfd eq_refl) as [B Tx]. rewrite mark_ids_ck_ok by lia. cbn [bind]. destruct (mark_ids_small E (ns_text nfd) 0) as [S1 S2].
  destruct (apply_shrink_ck_ok (length (ns_text nfd)) (mark_ids E (ns_text nfd) 0) nfd 0 _ B S1 ltac:(lia) ltac:(lia) ltac:(lia)) as [F1 F2]. rewrite F1. split; [reflexivity|].
  destruct (apply_shrink nfd (mark_ids E (ns_text nfd) 0) 0) as [ns1| | |]; cbn [bind]; try discriminate. intros ns' [= <-]. unfold set_text. cbn [ns_ranges ns_text]. split; [exact (F2 _ eq_refl)|].
  pose proof (filter_len (fun c => negb (e_is_mn E c)) (ns_text nfd)). lia.
Qed.

Lemma bert_ck_ok E c h s l ns T : icu_expansion E -> bd T (ns_ranges ns) -> (Z.of_nat (T + 8 * length (ns_text ns)) < lim)%Z -> (Z.of_nat (54 * length (ns_text ns) + 4) < lim)%Z ->
  bert_normalize_ck E c h s l ns = bert_normalize E c h s l ns /\ forall ns', bert_normalize E c h s l ns = Ok ns' -> bd (T + 8 * length (ns_text ns)) (ns_ranges ns') /\ length (ns_text ns') <= 54 * length (ns_text ns).
Proof.
  intros HE Hb HT HL. unfold bert_normalize_ck, bert_normalize. set (L := length (ns_text ns)) in *.
  assert (C : (if c then do_clean_text_ck E ns else Ok ns) = (if c then do_clean_text E ns else Ok ns) /\ forall n1, (if c then do_clean_text E ns else Ok ns) = Ok n1 -> bd T (ns_ranges n1) /\ length (ns_text n1) <= L).
  { destruct c; [|split; [reflexivity|]; intros n1 [= <-]; auto]. unfold do_clean_text_ck, do_clean_text. destruct (clean_loop_ck_ok E (ns_text ns) ns 0 T Hb ltac:(lia) ltac:(fold L; lia)) as [E1 E2]. rewrite E1. split; [reflexivity|].
    destruct (clean_loop E ns 0 (ns_text ns)) as [[ns1 t]| | |]; cbn [bind]; try discriminate. intros n1 [= <-]. unfold set_text. cbn [ns_ranges ns_text]. exact (E2 _ _ eq_refl). }
  destruct C as [C1 C2]. rewrite C1. destruct (if c then do_clean_text E ns else Ok ns) as [n1| | |]; cbn [bind]; try (split; [reflexivity | discriminate]). destruct (C2 n1 eq_refl) as [B1 L1]. clear C1 C2.
  assert (C : (if h then do_handle_chinese_chars_ck n1 else Ok n1) = (if h then do_handle_chinese_chars n1 else Ok n1) /\ forall n2, (if h then do_handle_chinese_chars n1 else Ok n1) = Ok n2 -> bd (T + 2 * L) (ns_ranges n2) /\ length (ns_text n2) <= 3 * L).
  { destruct h; [|split; [reflexivity|]; intros n2 [= <-]; split; [refine (bd_mono _ _ _ B1 _); lia | lia]]. destruct (chinese_ck_ok n1 T B1 ltac:(lia) ltac:(lia)) as [E1 E2]. split; [exact E1|].
    intros n2 En. destruct (E2 n2 En) as [E3 E4]. split; [refine (bd_mono _ _ _ E3 _); lia | lia]. }
  destruct C as [C1 C2]. rewrite C1. destruct (if h then do_handle_chinese_chars n1 else Ok n1) as [n2| | |]; cbn [bind]; try (split; [reflexivity | discriminate]). destruct (C2 n2 eq_refl) as [B2 L2]. clear C1 C2.
  assert (C : (if s || l then do_strip_accents_ck E n2 else Ok n2) = (if s || l then do_strip_accents E n2 else Ok n2) /\ forall n3, (if s || l then do_strip_accents E n2 else Ok n2) = Ok n3 -> bd (T + 8 * L) (ns_ranges n3) /\ length (ns_text n3) <= 54 * L).
  { destruct (s || l); [|split; [reflexivity|]; intros n3 [= <-]; split; [refine (bd_mono _ _ _ B2 _); lia | lia]]. destruct (strip_accents_ck_ok E n2 (T + 2 * L) HE B2 ltac:(lia) ltac:(lia)) as [E1 E2]. split; [exact E1|].
    intros n3 En. destruct (E2 n3 En) as [E3 E4]. split; [refine (bd_mono _ _ _ E3 _); lia | lia]. }
  destruct C as [C1 C2]. rewrite C1. destruct (if s || l then do_strip_accents E n2 else Ok n2) as [n3| | |]; cbn [bind]; try (split; [reflexivity | discriminate]). destruct (C2 n3 eq_refl) as [B3 L3].
  split; [reflexivity|]. intros ns' En. destruct l; [|injection En as <-; auto]. unfold do_lowercase in En. injection En as <-. unfold set_text. cbn [ns_ranges ns_text]. rewrite map_length. auto.
Qed.

Lemma prepend_ck_ok p ns T : bd T (ns_ranges ns) -> (Z.of_nat (T + S (length p)) < lim)%Z ->
  prepend_normalize_ck p ns = prepend_normalize p ns /\ forall ns', prepend_normalize p ns = Ok ns' -> bd (T + S (length p)) (ns_ranges ns') /\ exists w, convert_from_string p = Ok w /\ ns_text ns' = w ++ ns_text ns.
Proof.
  intros Hb HT. unfold prepend_normalize_ck, prepend_normalize. destruct (convert_from_string p) as [w| | |]; cbn [bind]; try (split; [reflexivity | discriminate]).
  destruct (transform_ck_ok ns 0 (OpAdd (length p)) T Hb ltac:(cbn [adds]; lia) ltac:(cbn [reach]; lia)) as [E1 E2]. rewrite E1. destruct (transform ns 0 (OpAdd (length p))) as [n1| | |]; cbn [bind]; try (split; [reflexivity | discriminate]).
  split; [reflexivity|]. intros ns' [= <-]. unfold set_text. cbn [ns_ranges ns_text]. split; [exact (proj1 (E2 _ eq_refl)) | eauto].
Qed.

Lemma replace_matches_ck_ok E fuel : regex_progress E -> forall pat c t from b, (Z.of_nat (length t) < lim)%Z ->
  replace_matches_ck E fuel pat c t from b = replace_matches E fuel pat c t from b /\
  forall t' ids, replace_matches E fuel pat c t from b = Ok (t', ids) -> length t' = length t /\ Forall (fun i => i < length t) ids /\ length ids <= fuel /\ (ids <> [] -> length c = 1).
Proof.
  intros HR. induction fuel as [|f IH]; intros pat c t from b HL; cbn [replace_matches_ck replace_matches]; [split; [reflexivity | discriminate]|].
  destruct (e_wregex_next E pat t from b) as [[pos len]|] eqn:Er; [|split; [reflexivity|]; intros t' ids [= <- <-]; cbn [length]; repeat split; [constructor | lia | congruence]].
  destruct (HR _ _ _ _ _ _ Er) as (_ & Hp & _). rewrite ckn_ok by lia. cbn [bind]. unfold verase. destruct ((pos <=? pos + 1) && (pos + 1 <=? length t)) eqn:Ev; cbn [bind]; [|split; [reflexivity | discriminate]].
  unfold vinsert. destruct (pos <=? length (firstn pos t ++ skipn (pos + 1) t)); cbn [bind]; [|split; [reflexivity | discriminate]].
  destruct (e_inplace E && (length c =? 1)) eqn:Ei; [|split; [reflexivity | discriminate]]. apply andb_prop in Ei as [_ Ec]. apply Nat.eqb_eq in Ec. set (t2 := firstn pos (firstn pos t ++ skipn (pos + 1) t) ++ c ++ skipn pos (firstn pos t ++ skipn (pos + 1) t)).
  assert (H2 : length t2 = length t). { unfold t2. rewrite !app_length, firstn_length, skipn_length, !app_length, firstn_length, !skipn_length. lia. }
  destruct (IH pat c t2 (pos + len) (len =? 0) ltac:(lia)) as [I1 I2]. rewrite I1. split; [reflexivity|]. destruct (replace_matches E f pat c t2 (pos + len) (len =? 0)) as [[t3 ids3]| | |]; cbn [bind]; try discriminate.
  intros t' ids [= <- <-]. destruct (I2 _ _ eq_refl) as (J1 & J2 & J3 & _). rewrite H2 in *. cbn [length]. repeat split; [lia | constructor; [lia | assumption] | lia | auto].
Qed.
Lemma apply_replace_ck_ok L n l : forall ns multi T, bd T (ns_ranges ns) -> Forall (fun i => i < L) l -> (Z.of_nat (T + n * length l) < lim)%Z -> (Z.of_nat (L + multi + length l) < lim)%Z ->
  apply_replace_ck ns l n 1 multi = apply_replace ns l n 1 multi /\ forall ns', apply_replace ns l n 1 multi = Ok ns' -> bd (T + n * length l) (ns_ranges ns').
Proof.
  induction l as [|i r IH]; intros ns multi T Hb Hl HT HL; cbn [apply_replace_ck apply_replace length] in *.
  - split; [reflexivity|]. intros ns' [= <-]. refine (bd_mono _ _ _ Hb _). lia.
  - inversion_clear Hl. rewrite Nat.mul_succ_r in *. rewrite ckn_ok by lia. cbn [bind]. destruct (transform_ck_ok ns (i + multi) (OpReplace n) T Hb ltac:(cbn [adds]; lia) ltac:(cbn [reach]; lia)) as [E1 E2]. rewrite E1.
    destruct (transform ns (i + multi) (OpReplace n)) as [ns1| | |]; cbn [bind]; try (split; [reflexivity | discriminate]). destruct (E2 ns1 eq_refl) as [B _]. cbn [adds] in B.
    rewrite ckn_ok by lia. cbn [bind]. destruct (IH ns1 (multi + 1) (T + n) B H0 ltac:(lia) ltac:(lia)) as [I1 I2]. split; [exact I1|]. intros ns' E. refine (bd_mono _ _ _ (I2 ns' E) _). lia.
Qed.
Lemma replace_ck_ok E p c ns T : regex_progress E -> bd T (ns_ranges ns) -> (Z.of_nat (T + (2 * length (ns_text ns) + 3) * length c) < lim)%Z -> (Z.of_nat (3 * length (ns_text ns) + 6) < lim)%Z ->
  replace_normalize_ck E p c ns = replace_normalize E p c ns /\ forall ns', replace_normalize E p c ns = Ok ns' -> bd (T + (2 * length (ns_text ns) + 3) * length c) (ns_ranges ns') /\ length (ns_text ns') = length (ns_text ns).
Proof.
  intros HR Hb HT HL. unfold replace_normalize_ck, replace_normalize. destruct (convert_from_string p) as [pat| | |]; cbn [bind]; try (split; [reflexivity | discriminate]).
  destruct (negb (e_wregex_ok E pat)); [split; [reflexivity | discriminate]|]. destruct (convert_from_string c) as [w| | |]; cbn [bind]; try (split; [reflexivity | discriminate]).
  set (fuel := 2 * length (ns_text ns) + 3) in *. destruct (replace_matches_ck_ok E fuel HR pat w (ns_text ns) 0 false ltac:(lia)) as [E1 E2]. rewrite E1. destruct (replace_matches E fuel pat w (ns_text ns) 0 false) as [[t ids]| | |]; cbn [bind]; try (split; [reflexivity | discriminate]).
  destruct (E2 _ _ eq_refl) as (H1 & H2 & H3 & H4). assert (HM : T + length c * length ids <= T + fuel * length c) by nia.
  assert (G : apply_replace_ck ns ids (length c) (length w) 0 = apply_replace ns ids (length c) (length w) 0 /\ forall ns', apply_replace ns ids (length c) (length w) 0 = Ok ns' -> bd (T + length c * length ids) (ns_ranges ns')).
  { destruct ids as [|i0 ids0] eqn:Ei; [cbn [apply_replace_ck apply_replace]; split; [reflexivity|]; intros ns' [= <-]; refine (bd_mono _ _ _ Hb _); lia|]. rewrite <- Ei in *. rewrite H4 by (rewrite Ei; discriminate).
    apply apply_replace_ck_ok with (L := length (ns_text ns)); [exact Hb | exact H2 | lia | unfold fuel in *; lia]. }
  destruct G as [G1 G2]. rewrite G1. destruct (apply_replace ns ids (length c) (length w) 0) as [n1| | |]; cbn [bind]; try (split; [reflexivity | discriminate]). split; [reflexivity|]. intros ns' [= <-]. unfold set_text. cbn [ns_ranges ns_text].
  split; [refine (bd_mono _ _ _ (G2 _ eq_refl) _); lia | exact H1].
Qed.

Lemma drop_len f l : length (drop_while f l) <= length l.
Proof. induction l as [|x r IH]; cbn [drop_while]; [auto|]. destruct (f x); cbn [length]; lia. Qed.
Lemma encs_len w : length w <= length (utf8_encs w).
Proof. induction w as [|c w IH]; cbn [utf8_encs flat_map length]; [lia|]. rewrite app_length. fold (utf8_encs w). assert (1 <= length (utf8_enc c)) by (unfold utf8_enc; destruct (c <? 128)%N, (c <? 2048)%N, (c <? 65536)%N; cbn; lia). lia. Qed.

Lemma sizes_up n : forall L T L' T' M, sizes n L T = (L', T', M) -> (0 <= L -> 0 <= T -> 0 <= L' /\ 0 <= T')%Z.
Proof.
  revert n. fix self 1. intros [c h s l|f|p|p c|a b| |l] L T L' T' M; cbn [sizes]; try (rewrite !pair_equal_spec; intros [[<- <-] _] HL HT; split; nia).
  generalize 0%Z at 1. revert L T. induction l as [|q r IH]; intros L T M0; [intros [= <- <- <-] HL HT; lia|]. destruct (sizes q L T) as [[L1 T1] M1] eqn:Eq. intros E HL HT. destruct (self q _ _ _ _ _ Eq HL HT). exact (IH _ _ _ E H H0).
Qed.
Lemma norm_ck_ok E : icu_expansion E -> regex_progress E -> forall n ns L T L' T' M, (0 <= T)%Z -> bd (Z.to_nat T) (ns_ranges ns) -> (Z.of_nat (length (ns_text ns)) <= L)%Z -> sizes n L T = (L', T', M) -> (M < lim)%Z ->
  normalize_ck E n ns = normalize E n ns /\ forall ns', normalize E n ns = Ok ns' -> bd (Z.to_nat T') (ns_ranges ns') /\ (Z.of_nat (length (ns_text ns')) <= L')%Z.
Proof.
  intros HE HR. fix self 1. intros [c h s l|f|p|p c|a b| |l] ns L T L' T' M H0 Hb HL; cbn [sizes normalize_ck normalize].
  - rewrite !pair_equal_spec. intros [[<- <-] <-] HM. destruct (bert_ck_ok E c h s l ns (Z.to_nat T) HE Hb ltac:(lia) ltac:(lia)) as [E1 E2]. split; [exact E1|]. intros ns' En. destruct (E2 ns' En) as [B1 B2]. split; [refine (bd_mono _ _ _ B1 _); lia | lia].
  - rewrite !pair_equal_spec. intros [[<- <-] <-] HM. destruct (nf_ck_ok E f ns (Z.to_nat T) HE Hb ltac:(lia) ltac:(lia)) as [E1 E2]. split; [exact E1|]. intros ns' En. destruct (E2 ns' En) as [B1 B2]. split; [refine (bd_mono _ _ _ B1 _); lia | lia].
  - rewrite !pair_equal_spec. intros [[<- <-] <-] HM. destruct (prepend_ck_ok p ns (Z.to_nat T) Hb ltac:(lia)) as [E1 E2]. split; [exact E1|]. intros ns' En. destruct (E2 ns' En) as (B1 & w & Hw & B2). split; [refine (bd_mono _ _ _ B1 _); lia|].
    rewrite B2, app_length. apply convert_from_string_iff in Hw as [-> _]. pose proof (encs_len w). lia.
  - rewrite !pair_equal_spec. intros [[<- <-] <-] HM. assert (HQ : (Z.of_nat ((2 * length (ns_text ns) + 3) * length c) <= (2 * L + 3) * Z.of_nat (length c))%Z) by nia.
    destruct (replace_ck_ok E p c ns (Z.to_nat T) HR Hb ltac:(lia) ltac:(lia)) as [E1 E2]. split; [exact E1|]. intros ns' En. destruct (E2 ns' En) as [B1 B2]. split; [refine (bd_mono _ _ _ B1 _); lia | lia].
  - rewrite !pair_equal_spec. intros [[<- <-] <-] HM. unfold strip_normalize_ck. rewrite ckn_ok by lia. cbn [bind]. split; [reflexivity|]. unfold strip_normalize. cbv zeta. intros ns' [= <-]. unfold set_text. cbn [ns_ranges ns_text]. split; [exact Hb|].
    assert (G : forall t, length t <= length (ns_text ns) -> length (if b then rev (drop_while strip_space (rev t)) else t) <= length (ns_text ns)) by (intros t Ht; destruct b; [rewrite rev_length; pose proof (drop_len strip_space (rev t)) as D; rewrite rev_length in D; lia | exact Ht]).
    specialize (G (if a then drop_while strip_space (ns_text ns) else ns_text ns)). assert (length (if a then drop_while strip_space (ns_text ns) else ns_text ns) <= length (ns_text ns)) by (destruct a; [apply drop_len | auto]). specialize (G H). lia.
  - rewrite !pair_equal_spec. intros [[<- <-] <-] HM. split; [reflexivity|]. unfold strip_accents_normalize. intros ns' [= <-]. unfold set_text. cbn [ns_ranges ns_text]. split; [exact Hb|]. pose proof (filter_len (fun c => negb (is_combining_mark c)) (ns_text ns)). lia.
  - generalize 0%Z. revert ns L T H0 Hb HL. induction l as [|q r IH]; intros ns L T H0 Hb HL M0.
    + intros [= <- <- <-] HM. split; [reflexivity|]. intros ns' [= <-]. auto.
    + destruct (sizes q L T) as [[L1 T1] M1] eqn:Eq. intros Es HM.
      assert (HMM : forall l L T M0 L' T' M, (fix go (l : list normalizer) (L T M : Z) {struct l} : Z * Z * Z := match l with [] => (L, T, M) | q :: r => let '(L', T', M') := sizes q L T in go r L' T' (Z.max M M') end) l L T M0 = (L', T', M) -> (M0 <= M)%Z).
      { clear. induction l as [|q r IH]; intros L T M0 L' T' M; [intros [= <- <- <-]; lia|]. destruct (sizes q L T) as [[L1 T1] M1]. intros E. apply IH in E. lia. }
      pose proof (HMM _ _ _ _ _ _ _ Es) as HM1. destruct (self q ns L T L1 T1 M1 H0 Hb HL Eq ltac:(lia)) as [E1 E2]. rewrite E1. destruct (normalize E q ns) as [n1| | |]; cbn [bind]; try (split; [reflexivity | discriminate]).
      destruct (E2 n1 eq_refl) as [B1 B2]. refine (IH n1 L1 T1 _ B1 B2 _ Es HM). apply (sizes_up _ _ _ _ _ _ Eq); lia.
Qed.

Lemma cp_len c : length (utf8_of_cp c) <= 4.
Proof. unfold utf8_of_cp, utf8_enc. destruct (is_surrogate c); [cbn; lia|]. destruct (c <? 128)%N, (c <? 2048)%N, (c <? 65536)%N; cbn; lia. Qed.
Lemma tables_ck_ok u todo : forall i idx, (Z.of_nat (idx + 4 * todo) < lim)%Z -> (Z.of_nat (i + todo) < lim)%Z ->
  ns_tables_ck u todo i idx = Ok (ns_tables u todo i idx) /\ (total (fst (ns_tables u todo i idx)) <= 4 * todo /\ length (fst (ns_tables u todo i idx)) <= todo) /\ bnd (idx + 4 * todo) 0 (fst (ns_tables u todo i idx)).
Proof.
  induction todo as [|k IH]; intros i idx H1 H2; cbn [ns_tables_ck ns_tables]; [split; [reflexivity|]; split; [cbn; lia | exact I]|]. set (n := length (utf8_of_cp (char32_at u i))). assert (n <= 4) by apply cp_len.
  rewrite (ckn_ok (idx + n)) by lia. cbn [bind]. rewrite (ckn_ok (i + 1)) by lia. cbn [bind]. rewrite Nat.add_1_r. destruct (IH (S i) (idx + n) ltac:(lia) ltac:(lia)) as (E & [Ht Hn] & Hb). rewrite E. destruct (ns_tables u k (S i) (idx + n)) as [r o]. cbn [bind fst total snd bnd length] in *.
  split; [reflexivity|]. split; [lia|]. split; [lia | refine (bnd_mono _ _ _ _ _ Hb _); lia].
Qed.
Lemma units_len s : length (from_utf32 s) <= 2 * length s.
Proof. unfold from_utf32. induction s as [|c s IH]; cbn [flat_map length]; [lia|]. rewrite app_length. assert (length (if valid_cp c then utf16_enc c else [0xFFFD%N]) <= 2) by (destruct (valid_cp c); [unfold utf16_enc; destruct (c <? 65536)%N; cbn; lia | cbn; lia]). lia. Qed.
Lemma fresh_ck_ok s : (Z.of_nat (8 * length s) < lim)%Z -> new_nstring_ck s = Ok (new_nstring s) /\ bd (8 * length s) (ns_ranges (new_nstring s)) /\ ns_text (new_nstring s) = s.
Proof.
  intros H. pose proof (units_len s). unfold new_nstring_ck, new_nstring. destruct (tables_ck_ok (from_utf32 s) (length (from_utf32 s)) 0 0 ltac:(lia) ltac:(lia)) as (E & [_ Hn] & Hb). rewrite E. destruct (ns_tables (from_utf32 s) (length (from_utf32 s)) 0 0) as [r o]. cbn [bind fst ns_ranges ns_text] in *.
  split; [reflexivity|]. split; [|reflexivity]. split; [refine (bnd_mono _ _ _ _ _ Hb _); lia | lia].
Qed.

(** ** C145 *)
(** As long as the largest number given by the configuration and the length of the text fits an int, nothing overflows: the normalizer with its int arithmetic is the one of the other theorems. *)
Theorem C145_normalizers : forall E n s, icu_expansion E -> regex_progress E -> (largest n (Z.of_nat (length s)) < 2 ^ 31)%Z ->
  (ns <- new_nstring_ck s ;; normalize_ck E n ns) = normalize E n (new_nstring s).
Proof.
  intros E n s HE HR H. change (2 ^ 31)%Z with lim in H. unfold largest in H. destruct (sizes n (Z.of_nat (length s)) (8 * Z.of_nat (length s))) as [[L' T'] M] eqn:Es. destruct (fresh_ck_ok s ltac:(lia)) as (F1 & F2 & F3). rewrite F1. cbn [bind].
  refine (proj1 (norm_ck_ok E HE HR n (new_nstring s) _ _ L' T' M _ _ _ Es _)); [lia | | rewrite F3; lia | lia]. replace (Z.to_nat (8 * Z.of_nat (length s))) with (8 * length s) by lia. exact F2.
Qed.
Print Assumptions C145_normalizers.

(** A text of at most 2^25 characters never overflows a BERT normalizer, whatever its flags. *)
Theorem C145_bert : forall E c h st lo s, icu_expansion E -> regex_progress E -> (Z.of_nat (length s) <= 2 ^ 25)%Z ->
  (ns <- new_nstring_ck s ;; normalize_ck E (NBert c h st lo) ns) = normalize E (NBert c h st lo) (new_nstring s).
Proof. intros E c h st lo s HE HR H. apply C145_normalizers; try assumption. unfold largest. cbn [sizes]. change (2 ^ 25)%Z with 33554432%Z in H. change (2 ^ 31)%Z with lim. lia. Qed.
Print Assumptions C145_bert.

Lemma even_units n k : k < n -> nth_error (from_utf32 (repeat 0x1F600%N n)) (2 * k) = Some 0xD83D%N /\ nth_error (from_utf32 (repeat 0x1F600%N n)) (2 * k + 1) = Some 0xDE00%N.
Proof.
  revert k. induction n as [|n IH]; intros k Hk; [lia|]. change (from_utf32 (repeat 0x1F600%N (S n))) with (0xD83D%N :: 0xDE00%N :: from_utf32 (repeat 0x1F600%N n)). destruct k as [|k]; [split; reflexivity|].
  replace (2 * S k) with (S (S (2 * k))) by lia. replace (S (S (2 * k)) + 1) with (S (S (2 * k + 1))) by lia. cbn [nth_error]. apply IH. lia.
Qed.
Lemma emoji_at n i : i < 2 * n -> char32_at (from_utf32 (repeat 0x1F600%N n)) i = 0x1F600%N.
Proof.
  intros Hi. destruct (Nat.Even_or_Odd i) as [[k Hk]|[k Hk]]; subst i; destruct (even_units n k ltac:(lia)) as [H1 H2]; unfold char32_at.
  - rewrite H1. change (is_lead 0xD83D) with true. cbv iota. replace (S (2 * k)) with (2 * k + 1) by lia. rewrite H2. reflexivity.
  - rewrite H2. change (is_lead 0xDE00) with false. change (is_trail 0xDE00) with true. cbv iota. rewrite Nat.add_1_r. rewrite H1. reflexivity.
Qed.
Lemma emoji_units n : length (from_utf32 (repeat 0x1F600%N n)) = 2 * n.
Proof. induction n as [|n IH]; [reflexivity|]. change (from_utf32 (repeat 0x1F600%N (S n))) with (0xD83D%N :: 0xDE00%N :: from_utf32 (repeat 0x1F600%N n)). cbn [length]. lia. Qed.
Lemma tables_over u todo : forall i idx, (forall j, j < i + todo -> char32_at u j = 0x1F600%N) -> (Z.of_nat idx < lim)%Z -> (lim <= Z.of_nat (idx + 4 * todo))%Z -> ns_tables_ck u todo i idx = Undef IntOverflow.
Proof.
  induction todo as [|k IH]; intros i idx Hc H1 H2; cbn [ns_tables_ck]; [lia|]. rewrite (Hc i) by lia. change (length (utf8_of_cp 0x1F600%N)) with 4.
  destruct (Z.lt_ge_cases (Z.of_nat (idx + 4)) lim) as [Hl|Hg]; [rewrite (ckn_ok _ Hl) | rewrite (ckn_over _ Hg); reflexivity]. cbn [bind].
  destruct (Z.lt_ge_cases (Z.of_nat (i + 1)) lim) as [Hl'|Hg']; [rewrite (ckn_ok _ Hl') | rewrite (ckn_over _ Hg'); reflexivity]. cbn [bind]. rewrite IH; [reflexivity | intros j Hj; apply Hc; lia | exact Hl | lia].
Qed.
(** The factor 8 is exact: the tables of a text of supplementary characters overflow from 2^28 characters on, before any normalizer has run. *)
Theorem C145_exact_on_emoji : forall n, let s := repeat 0x1F600%N n in
  ((Z.of_nat n < 2 ^ 28)%Z -> new_nstring_ck s = Ok (new_nstring s)) /\ ((2 ^ 28 <= Z.of_nat n)%Z -> new_nstring_ck s = Undef IntOverflow).
Proof.
  intros n s. change (2 ^ 28)%Z with 268435456%Z. split; intros H.
  - apply fresh_ck_ok. unfold s. rewrite repeat_length. lia.
  - unfold new_nstring_ck, s. rewrite emoji_units. rewrite tables_over; [reflexivity | intros j Hj; apply emoji_at; lia | lia | lia].
Qed.
Print Assumptions C145_exact_on_emoji.

(** Without the bound it is false: a prefix of 2^31 - 1 ASCII bytes before any two ASCII characters overflows. *)
Theorem C145_prepend_refuted : exists p, forall E, (ns <- new_nstring_ck [97; 98]%N ;; normalize_ck E (NPrepend p) ns) = Undef IntOverflow /\ exists ns, normalize E (NPrepend p) (new_nstring [97; 98]%N) = Ok ns.
Proof.
  assert (En : exists n, Z.of_nat n = 2147483647%Z) by (exists (Z.to_nat 2147483647); apply Z2Nat.id; discriminate). destruct En as [n Hn]. exists (repeat 97%N n). intros E.
  assert (Hc : convert_from_string (repeat 97%N n) = Ok (repeat 97%N n)). { apply ascii_convert_from. unfold ascii. apply Forall_forall. intros x Hx. apply repeat_spec in Hx. subst x. reflexivity. }
  split.
  - change (new_nstring_ck [97; 98]%N) with (Ok (mkNs [97; 98]%N [(0, 1); (1, 1)] [(0, 1); (1, 2)])). cbn [bind normalize_ck]. unfold prepend_normalize_ck. rewrite Hc. cbn [bind]. rewrite repeat_length.
    unfold transform_ck. cbn [ns_ranges ns_offsets ns_text vat nth_error bind]. rewrite ckn_ok by lia. cbn [bind]. rewrite ckn_ok by lia. cbn -[ckn repeat]. rewrite ckn_ok by (cbn; lia). cbn -[ckn repeat]. rewrite ckn_over by lia. reflexivity.
  - change (new_nstring [97; 98]%N) with (mkNs [97; 98]%N [(0, 1); (1, 1)] [(0, 1); (1, 2)]). cbn [normalize]. unfold prepend_normalize. rewrite Hc. cbn -[repeat]. eexists. reflexivity.
Qed.
Print Assumptions C145_prepend_refuted.

(** Test data that satisfies the hypotheses: a sequence of five normalizers on a text with accents, Chinese and supplementary characters; the bound allows five million characters. *)
Theorem C145_case : icu_expansion test_env /\
  (let n := NSequence [NForm NFKC; NPrepend (str "_"); NReplace (str " ") (str "_"); NBert true true true true; NStrip true true] in
   (largest n 2000000 < 2 ^ 31)%Z /\
   forall s, s = [233; 32; 0x4E2D; 65; 0x1F600; 0xAC01]%N -> (ns <- new_nstring_ck s ;; normalize_ck test_env n ns) = normalize test_env n (new_nstring s) /\ exists ns, normalize test_env n (new_nstring s) = Ok ns).
Proof.
  split.
  - assert (D : forall s, length (flat_map decompose1 s) <= 18 * length s).
    { induction s as [|c s IH]; cbn [flat_map length]; [lia|]. rewrite app_length. assert (length (decompose1 c) <= 3); [|lia]. unfold decompose1, hangul. repeat match goal with |- context [if ?b then _ else _] => destruct b end; cbn; lia. }
    intros [] s r [= <-]; try apply D; lia.
  - split; [vm_compute; reflexivity|]. intros s ->. split; [vm_compute; reflexivity | eexists; vm_compute; reflexivity].
Qed.
Print Assumptions C145_case.
