From Verif Require Import Base BaseFacts Common Utils Spec.
From Coq Require Import ZifyBool ZifyNat.

Arguments Z.pow : simpl never.
Arguments size_t_of_int : simpl never.
Ltac unpow := change (2 ^ 31)%Z with 2147483648%Z in *; change (2 ^ 64)%Z with 18446744073709551616%Z in *.

Lemma size_t_id z : (0 <= z < 2 ^ 64)%Z -> size_t_of_int z = z.
Proof. intros H. unfold size_t_of_int. apply Z.mod_small; exact H. Qed.

Lemma size_t_neg z : (- 2 ^ 64 <= z < 0)%Z -> size_t_of_int z = (z + 2 ^ 64)%Z.
Proof.
  intros H. unfold size_t_of_int. rewrite <- (Z_mod_plus_full z 1 (2 ^ 64)). apply Z.mod_small. unpow; lia.
Qed.

(** ** slices *)
Lemma zslice_ok {A} (l : list A) a b :
  a <= b -> b <= length l -> zslice l (Z.of_nat a) (Z.of_nat b) = Ok (cut l a b).
Proof.
  intros H1 H2. unfold zslice. replace (0 <=? Z.of_nat a)%Z with true by (symmetry; apply Z.leb_le; lia).
  rewrite !Nat2Z.id. unfold cut. apply vslice_ok; assumption.
Qed.

Lemma slice_enc_ok e a b :
  flat_parallel e -> a <= b -> b <= length (en_ids e) ->
  slice_enc e (Z.of_nat a, Z.of_nat b) = Ok (window e a b).
Proof.
  intros (H1 & H2 & H3 & H4 & H5 & H6) Hab Hb. unfold slice_enc.
  rewrite !zslice_ok by lia. reflexivity.
Qed.

Lemma slice_enc_map e (f : nat -> nat * nat) l :
  flat_parallel e ->
  (forall k, In k l -> fst (f k) <= snd (f k) /\ snd (f k) <= length (en_ids e)) ->
  mapM (slice_enc e) (map (fun k => (Z.of_nat (fst (f k)), Z.of_nat (snd (f k)))) l)
  = Ok (map (fun k => window e (fst (f k)) (snd (f k))) l).
Proof.
  intros Hp; induction l as [|k l IH]; intros H; cbn [map mapM]; [reflexivity|].
  rewrite slice_enc_ok; [|exact Hp | apply H; left; reflexivity | apply H; left; reflexivity].
  cbn [bind]. rewrite IH by (intros j Hj; apply H; right; exact Hj). reflexivity.
Qed.

(** ** Right *)
Ltac unpow ::= change (2 ^ 31)%Z with 2147483648%Z in *; change (2 ^ 64)%Z with 18446744073709551616%Z in *;
               change (2 ^ 33)%Z with 8589934592%Z in *.

Lemma right_true fuel n maxl o start :
  (0 <= start <= n + o)%Z -> (0 < o < 2 ^ 33)%Z -> (0 <= n < 2 ^ 31)%Z ->
  0 < fuel -> (n - start < Z.of_nat fuel)%Z ->
  right_ranges fuel n maxl o start true = Ok [].
Proof.
  revert start; induction fuel as [|f IH]; intros start Hs Ho Hn H0 Hf; cbn [right_ranges]; [lia|].
  rewrite size_t_id by (unpow; lia). destruct (Z.ltb_spec start n); [|reflexivity].
  apply IH; lia.
Qed.

(** the ranges produced from window number [k] on *)
Lemma right_false fuel n maxl o start :
  (0 <= start < n)%Z -> (0 < o < 2 ^ 33)%Z -> (o <= maxl)%Z -> (0 <= n < 2 ^ 31)%Z ->
  (n - start + 1 < Z.of_nat fuel)%Z ->
  exists m : nat,
    right_ranges fuel n maxl o start false
    = Ok (map (fun j => (start + Z.of_nat j * o, Z.min (start + Z.of_nat j * o + maxl) n)%Z) (seq 0 (S m)))
    /\ (forall j : nat, j < m -> (start + Z.of_nat j * o + maxl < n)%Z)
    /\ (n <= start + Z.of_nat m * o + maxl)%Z.
Proof.
  revert start; induction fuel as [|f IH]; intros start Hs Ho Hm Hn Hf; [lia|].
  cbn [right_ranges]. rewrite size_t_id by (unpow; lia).
  replace (start <? n)%Z with true by lia.
  destruct (Z.min_spec (start + maxl) n) as [[Hlt Hmin]|[Hge Hmin]].
  - assert (Hs' : (0 <= start + o < n)%Z) by lia.
    rewrite Hmin. replace (start + maxl =? n)%Z with false by lia.
    destruct (IH (start + o)%Z) as (m & Hr & Hall & Hlast); try lia.
    exists (S m). rewrite Hr. cbn [bind]. split; [|split].
    + f_equal. change (seq 0 (S (S m))) with (0 :: seq 1 (S m)). rewrite <- seq_shift. cbn [map].
      rewrite map_map. f_equal.
      * replace (start + Z.of_nat 0 * o)%Z with start by lia. rewrite Hmin. reflexivity.
      * apply map_ext. intros j. replace (start + Z.of_nat (S j) * o)%Z with (start + o + Z.of_nat j * o)%Z by lia.
        reflexivity.
    + intros [|j] Hj; [lia|]. specialize (Hall j ltac:(lia)). lia.
    + lia.
  - rewrite Hmin, Z.eqb_refl. rewrite right_true; try lia. cbn [bind].
    exists 0. split; [|split].
    + cbn. replace (start + 0)%Z with start by lia. rewrite Hmin. reflexivity.
    + lia.
    + lia.
Qed.

Lemma right_diverges fuel n maxl b : (0 < n)%Z -> (0 < maxl)%Z -> right_ranges fuel n maxl 0 0 b = Diverge.
Proof.
  intros Hn Hm; revert b; induction fuel as [|f IH]; intros b; cbn [right_ranges]; [reflexivity|].
  rewrite size_t_id by (unpow; lia). replace (0 <? n)%Z with true by lia.
  replace (0 + 0)%Z with 0%Z by lia. destruct b; rewrite IH; reflexivity.
Qed.

Lemma right_negative fuel n maxl o :
  (0 < n < 2 ^ 31)%Z -> (0 < maxl < n)%Z -> (- 2 ^ 33 < o < 0)%Z -> 1 < fuel ->
  right_ranges fuel n maxl o 0 false = Ok [(0, maxl)%Z].
Proof.
  intros Hn Hm Ho Hf. destruct fuel as [|[|f]]; [lia|lia|]. cbn [right_ranges].
  rewrite size_t_id by (unpow; lia). replace (0 <? n)%Z with true by lia.
  rewrite size_t_neg by (unpow; lia).
  replace (0 + o + 2 ^ 64 <? n)%Z with false by (unpow; lia). cbn [bind].
  replace (Z.min (0 + maxl) n) with maxl by lia. reflexivity.
Qed.

(** when the stride is negative windows leave gaps; still terminates *)
Lemma right_terminates fuel n maxl o start b :
  (0 <= start <= n + o)%Z -> (0 < o < 2 ^ 33)%Z -> (0 <= n < 2 ^ 31)%Z -> 0 < fuel -> (n - start < Z.of_nat fuel)%Z ->
  exists l, right_ranges fuel n maxl o start b = Ok l.
Proof.
  revert start b; induction fuel as [|f IH]; intros start b Hs Ho Hn H0 Hf; cbn [right_ranges]; [lia|].
  rewrite size_t_id by (unpow; lia). destruct (Z.ltb_spec start n); [|eexists; reflexivity].
  destruct b.
  - apply IH; lia.
  - destruct (IH (start + o)%Z (Z.min (start + maxl) n =? n)%Z) as [l Hl]; try lia.
    rewrite Hl. eexists; reflexivity.
Qed.

(** ** Left *)
Lemma left_true fuel maxl o stop :
  (2 <= o)%Z -> 0 < fuel -> (stop + 1 < Z.of_nat fuel)%Z -> left_ranges fuel maxl o stop true = Ok [].
Proof.
  revert stop; induction fuel as [|f IH]; intros stop Ho H0 Hf; cbn [left_ranges]; [lia|].
  destruct (Z.leb_spec 0 stop); [|reflexivity]. cbn [negb]. rewrite andb_false_r. apply IH; lia.
Qed.

Lemma left_false fuel maxl o stop :
  (0 < maxl)%Z -> (2 <= o <= maxl)%Z -> (0 <= stop)%Z -> (stop + 1 < Z.of_nat fuel)%Z ->
  exists m : nat,
    left_ranges fuel maxl o stop false
    = Ok (map (fun j => (Z.max 0 (stop + 1 - Z.of_nat j * (o - 1) - maxl), stop + 1 - Z.of_nat j * (o - 1))%Z)
              (seq 0 (S m)))
    /\ (forall j : nat, j < m -> (maxl < stop + 1 - Z.of_nat j * (o - 1))%Z)
    /\ (0 < stop + 1 - Z.of_nat m * (o - 1) <= maxl)%Z.
Proof.
  revert stop; induction fuel as [|f IH]; intros stop Hm Ho Hs Hf; [lia|].
  cbn [left_ranges]. replace (0 <=? stop)%Z with true by lia.
  destruct (Z.leb_spec (stop + 1) maxl) as [Hle|Hgt].
  - assert (Hst : (if stop + 1 <? maxl then 0 else stop + 1 - maxl)%Z = 0%Z) by (destruct (Z.ltb_spec (stop + 1) maxl); lia).
    rewrite Hst. replace (0 <? stop + 1)%Z with true by lia. cbn [negb andb].
    rewrite left_true by lia. cbn [bind]. exists 0. split; [|split]; [|lia|lia].
    cbn [seq map]. do 2 f_equal. replace (stop + 1 - Z.of_nat 0 * (o - 1))%Z with (stop + 1)%Z by lia. f_equal. lia.
  - replace (stop + 1 <? maxl)%Z with false by lia.
    replace (stop + 1 - maxl <? stop + 1)%Z with true by lia. cbn [negb andb].
    replace (stop + 1 - maxl =? 0)%Z with false by lia.
    destruct (IH (stop + 1 - o)%Z) as (m & Hr & Hall & Hlast); try lia.
    rewrite Hr. cbn [bind]. exists (S m). split; [|split].
    + f_equal. change (seq 0 (S (S m))) with (0 :: seq 1 (S m)). rewrite <- seq_shift. cbn [map].
      rewrite map_map. f_equal; [f_equal; lia|].
      apply map_ext. intros j. f_equal; lia.
    + intros [|j] Hj; [lia|]. specialize (Hall j ltac:(lia)). lia.
    + lia.
Qed.

Lemma left_terminates fuel maxl o stop b :
  (2 <= o)%Z -> 0 < fuel -> (stop + 1 < Z.of_nat fuel)%Z -> exists l, left_ranges fuel maxl o stop b = Ok l.
Proof.
  revert stop b; induction fuel as [|f IH]; intros stop b Ho H0 Hf; cbn [left_ranges]; [lia|].
  destruct (Z.leb_spec 0 stop); [|eexists; reflexivity].
  generalize (if (stop + 1 <? maxl)%Z then 0%Z else (stop + 1 - maxl)%Z); intros st.
  destruct ((st <? stop + 1)%Z && negb b).
  - destruct (IH (stop + 1 - o)%Z (st =? 0)%Z) as [l Hl]; try lia. rewrite Hl. eexists; reflexivity.
  - apply IH; lia.
Qed.

Lemma left_diverges fuel maxl o stop b :
  (o <= 1)%Z -> (0 <= stop)%Z -> left_ranges fuel maxl o stop b = Diverge.
Proof.
  intros Ho; revert stop b; induction fuel as [|f IH]; intros stop b Hs; cbn [left_ranges]; [reflexivity|].
  replace (0 <=? stop)%Z with true by lia.
  generalize (if (stop + 1 <? maxl)%Z then 0%Z else (stop + 1 - maxl)%Z); intros st.
  destruct ((st <? stop + 1)%Z && negb b).
  all: rewrite IH by lia; reflexivity.
Qed.

(** ** truncate_encoding reduces to truncate *)
Definition truncating (s : tstrat) : Prop := s = LongestFirst \/ s = OnlyFirst.

Lemma truncate_encoding_active fuel t e :
  truncating (t_strat t) -> (0 < t_max t < Z.of_nat (length (en_ids e)))%Z -> (Z.of_nat (length (en_ids e)) < 2 ^ 31)%Z ->
  truncate_encoding fuel t e = truncate fuel e (t_max t) (t_stride t) (t_dir t).
Proof.
  intros Hs Hm Hn. unfold truncate_encoding. replace (t_max t =? 0)%Z with false by lia.
  rewrite size_t_id by (unpow; lia).
  replace (Z.of_nat (length (en_ids e)) <=? t_max t)%Z with false by lia.
  destruct Hs as [-> | ->].
  - f_equal. lia.
  - replace (Z.of_nat (length (en_ids e)) - t_max t <? Z.of_nat (length (en_ids e)))%Z with true by lia. reflexivity.
Qed.

Lemma truncate_unfold fuel e maxl stride d :
  (0 < maxl < Z.of_nat (length (en_ids e)))%Z ->
  truncate fuel e maxl stride d =
  (ranges <- match d with
             | TRight => right_ranges fuel (Z.of_nat (length (en_ids e))) maxl (maxl - stride) 0 false
             | TLeft => left_ranges fuel maxl (maxl - stride) (Z.of_nat (length (en_ids e)) - 1) false
             | TUnknown => Ok []
             end ;;
   match ranges with
   | [] => Undef OobIndex
   | first :: others => e0 <- slice_enc e first ;; ov <- mapM (slice_enc e) others ;; Ok (set_overflowing e0 ov)
   end).
Proof.
  intros H. unfold truncate. replace (Z.of_nat (length (en_ids e)) <=? maxl)%Z with false by lia.
  replace (maxl =? 0)%Z with false by lia. reflexivity.
Qed.

Theorem right_windows t e (maxl stride : nat) :
  t_dir t = TRight -> truncating (t_strat t) ->
  t_max t = Z.of_nat maxl -> t_stride t = Z.of_nat stride ->
  stride < maxl -> maxl < length (en_ids e) -> (Z.of_nat (length (en_ids e)) < 2 ^ 31)%Z -> flat_parallel e ->
  let n := length (en_ids e) in
  exists K : nat,
    (forall fuel, n + 2 <= fuel ->
       truncate_encoding fuel t e
       = Ok (with_overflow (window e 0 maxl)
               (map (fun k => window e (k * (maxl - stride)) (Nat.min (k * (maxl - stride) + maxl) n)) (seq 1 K))))
    /\ 1 <= K
    /\ (forall k, k < K -> k * (maxl - stride) + maxl < n)
    /\ n <= K * (maxl - stride) + maxl.
Proof.
  intros Hd Hs Hm Hst Hlt Hmn Hn Hp n.
  set (o := maxl - stride).
  destruct (right_false (n + 2) (Z.of_nat n) (Z.of_nat maxl) (Z.of_nat o) 0) as (K & Hr & Hall & Hlast);
    try (unpow; subst n o; lia).
  exists K. split; [|split; [|split]].
  - intros fuel Hf.
    destruct (right_false fuel (Z.of_nat n) (Z.of_nat maxl) (Z.of_nat o) 0) as (K' & Hr' & Hall' & Hlast');
      try (unpow; subst n o; lia).
    assert (K' = K) as ->.
    { destruct (Nat.lt_trichotomy K K') as [H|[H|H]]; [|congruence|].
      - specialize (Hall' _ H). lia.
      - specialize (Hall _ H). lia. }
    rewrite truncate_encoding_active by (rewrite ?Hm; subst n; try assumption; lia).
    rewrite truncate_unfold by (rewrite ?Hm; lia). rewrite Hd, Hm, Hst.
    replace (Z.of_nat maxl - Z.of_nat stride)%Z with (Z.of_nat o) by (subst o; lia).
    fold n. rewrite Hr'. cbn [bind]. cbn [seq map].
    replace (0 + Z.of_nat 0 * Z.of_nat o, Z.min (0 + Z.of_nat 0 * Z.of_nat o + Z.of_nat maxl) (Z.of_nat n))%Z
      with (Z.of_nat 0, Z.of_nat maxl) by (f_equal; lia).
    rewrite slice_enc_ok by (try assumption; subst n; lia). cbn [bind].
    rewrite (map_ext _ (fun k => (Z.of_nat (fst ((fun k => (k * o, Nat.min (k * o + maxl) n)) k)),
                                  Z.of_nat (snd ((fun k => (k * o, Nat.min (k * o + maxl) n)) k)))))
      by (intros k; cbn [fst snd]; f_equal; lia).
    rewrite slice_enc_map; [cbn [bind]; reflexivity | exact Hp |].
    intros k Hk. apply in_seq in Hk. cbn [fst snd]. fold n.
    specialize (Hall' (k - 1) ltac:(lia)). split; nia.
  - destruct K; [|lia]. unfold n in *. nia.
  - intros k Hk. specialize (Hall k Hk). lia.
  - lia.
Qed.

Theorem left_windows t e (maxl stride : nat) :
  t_dir t = TLeft -> truncating (t_strat t) ->
  t_max t = Z.of_nat maxl -> t_stride t = Z.of_nat stride ->
  stride + 2 <= maxl -> maxl < length (en_ids e) -> (Z.of_nat (length (en_ids e)) < 2 ^ 31)%Z -> flat_parallel e ->
  let n := length (en_ids e) in
  let stop k := n - k * (maxl - stride - 1) in
  exists K : nat,
    (forall fuel, n + 2 <= fuel ->
       truncate_encoding fuel t e
       = Ok (with_overflow (window e (n - maxl) n) (map (fun k => window e (stop k - maxl) (stop k)) (seq 1 K))))
    /\ 1 <= K
    /\ (forall k, k < K -> k * (maxl - stride - 1) + maxl < n)
    /\ K * (maxl - stride - 1) < n <= K * (maxl - stride - 1) + maxl.
Proof.
  intros Hd Hs Hm Hst Hlt Hmn Hn Hp n stop.
  set (o := maxl - stride).
  destruct (left_false (n + 2) (Z.of_nat maxl) (Z.of_nat o) (Z.of_nat n - 1)) as (K & Hr & Hall & Hlast);
    try (unpow; subst n o; lia).
  exists K. split; [|split; [|split]].
  - intros fuel Hf.
    destruct (left_false fuel (Z.of_nat maxl) (Z.of_nat o) (Z.of_nat n - 1)) as (K' & Hr' & Hall' & Hlast');
      try (unpow; subst n o; lia).
    assert (K' = K) as ->.
    { destruct (Nat.lt_trichotomy K K') as [H|[H|H]]; [|congruence|].
      - specialize (Hall' _ H). lia.
      - specialize (Hall _ H). lia. }
    rewrite truncate_encoding_active by (rewrite ?Hm; subst n; try assumption; lia).
    rewrite truncate_unfold by (rewrite ?Hm; lia). rewrite Hd, Hm, Hst.
    replace (Z.of_nat maxl - Z.of_nat stride)%Z with (Z.of_nat o) by (subst o; lia).
    fold n. rewrite Hr'. cbn [bind].
    erewrite (map_ext_in _ (fun k => (Z.of_nat (fst ((fun k => (stop k - maxl, stop k)) k)),
                                     Z.of_nat (snd ((fun k => (stop k - maxl, stop k)) k))))).
    2:{ intros k Hk. apply in_seq in Hk. unfold stop. cbn [fst snd]. fold o.
        assert (k * (o - 1) <= K * (o - 1)) by (apply Nat.mul_le_mono_r; lia).
        assert (Z.of_nat n - 1 + 1 - Z.of_nat k * (Z.of_nat o - 1) = Z.of_nat (n - k * (o - 1)))%Z as ->.
        { replace (Z.of_nat o - 1)%Z with (Z.of_nat (o - 1)) by (subst o; lia). nia. }
        f_equal; lia. }
    cbn [seq map]. cbn [fst snd].
    replace (stop 0) with n by (unfold stop; lia).
    rewrite slice_enc_ok by (try assumption; subst n; lia). cbn [bind].
    rewrite (slice_enc_map e (fun k => (stop k - maxl, stop k))); [cbn [bind]; reflexivity | exact Hp |].
    intros k Hk. apply in_seq in Hk. cbn [fst snd]. unfold stop. fold n. lia.
  - destruct K; [|lia]. unfold n in *. lia.
  - intros k Hk. specialize (Hall k Hk). fold o. replace (Z.of_nat o - 1)%Z with (Z.of_nat (o - 1)) in Hall by (subst o; lia).
    lia.
  - fold o. replace (Z.of_nat o - 1)%Z with (Z.of_nat (o - 1)) in Hlast by (subst o; lia). nia.
Qed.
