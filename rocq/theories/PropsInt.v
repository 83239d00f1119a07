(** Integer overflow: C96, C97. *)
From Verif Require Import Base BaseFacts Common Utils PostProcessor Decoder Normalizer PreTokenizer WordPiece Bpe AddedVocab Tokenizer IntChecked Spec IntSpec EncFacts UtilsProofs PadProofs TzSpec TzProofs RefSpec PropsReference PropsEncode Env Sample.
From Coq Require Import ZifyBool ZifyNat.

Lemma ck_ok z : int32 z -> ck z = Ok z.
Proof. intros H. unfold ck. replace ((- 2 ^ 31 <=? z) && (z <? 2 ^ 31))%Z with true; [reflexivity|]. unfold int32 in H. symmetry. apply andb_true_intro. split; [apply Z.leb_le | apply Z.ltb_lt]; lia. Qed.
Lemma ck_over z : ~ int32 z -> ck z = Undef IntOverflow.
Proof. intros H. unfold ck. destruct ((- 2 ^ 31 <=? z) && (z <? 2 ^ 31))%Z eqn:Eq; [|reflexivity]. exfalso. apply H. apply andb_prop in Eq as [E1 E2]. apply Z.leb_le in E1. apply Z.ltb_lt in E2. unfold int32. lia. Qed.

Lemma right_ck n maxl o : (0 <= n < 2 ^ 31)%Z -> (0 < maxl < n)%Z -> (- 2 ^ 31 <= o <= 0)%Z -> forall fuel start b, int32 start -> (start <= 0)%Z -> (b = true \/ start = 0 \/ start = o)%Z ->
  right_ranges_ck fuel n maxl o start b = right_ranges fuel n maxl o start b.
Proof.
  intros Hn Hm Ho. unfold int32 in *. induction fuel as [|f IH]; intros start b Hs Hi Hb; [reflexivity|]. cbn [right_ranges right_ranges_ck].
  destruct (Z.ltb_spec (size_t_of_int start) n) as [Hlt|Hge]; [|reflexivity].
  assert (H0 : (start = 0)%Z). { destruct (Z.lt_ge_cases start 0) as [Hneg|Hp]; [|lia]. rewrite size_t_neg in Hlt by (unpow; lia). unpow; lia. }
  subst start. rewrite !ck_ok by (unfold int32; unpow; lia). cbn [bind]. destruct b; rewrite IH by (unpow; lia); reflexivity.
Qed.
Lemma windows_ck n maxl o : (0 <= n < 2 ^ 31)%Z -> (0 < maxl < n)%Z -> (0 < o < 2 ^ 31)%Z ->
  (forall k, (0 <= k)%Z -> (k * o < n)%Z -> ((k + 1) * o < 2 ^ 31)%Z /\ ((k - 1) * o + maxl < n -> k * o + maxl < 2 ^ 31)%Z) ->
  forall fuel k, (0 <= k)%Z -> (k * o < 2 ^ 31)%Z ->
  right_ranges_ck fuel n maxl o (k * o) (n <=? (k - 1) * o + maxl)%Z = right_ranges fuel n maxl o (k * o) (n <=? (k - 1) * o + maxl)%Z.
Proof.
  intros Hn Hm Ho Hok. induction fuel as [|f IH]; intros k Hk Hs; [reflexivity|]. cbn [right_ranges right_ranges_ck].
  assert (K0 : (0 <= k * o)%Z) by nia. rewrite size_t_id by (unpow; lia). destruct (Z.ltb_spec (k * o) n) as [Hlt|Hge]; [|reflexivity].
  destruct (Hok k Hk Hlt) as [H1 H2]. assert (E : (k * o + o = (k + 1) * o)%Z) by lia. rewrite (ck_ok (k * o + o)) by (unfold int32; unpow; lia). cbn [bind].
  destruct (Z.leb_spec n ((k - 1) * o + maxl)) as [Hb|Hb].
  - pose proof (IH (k + 1)%Z ltac:(lia) ltac:(lia)) as I. replace (n <=? (k + 1 - 1) * o + maxl)%Z with true in I by (symmetry; apply Z.leb_le; nia). rewrite E. exact I.
  - specialize (H2 Hb). rewrite (ck_ok (k * o + maxl)) by (unfold int32; unpow; lia). cbn [bind].
    pose proof (IH (k + 1)%Z ltac:(lia) ltac:(lia)) as I. replace (n <=? (k + 1 - 1) * o + maxl)%Z with (Z.min (k * o + maxl) n =? n)%Z in I by (replace (k + 1 - 1)%Z with k by lia; lia). rewrite E, I. reflexivity.
Qed.
Lemma windows_over n maxl o k0 : (0 <= n < 2 ^ 31)%Z -> (0 < maxl < n)%Z -> (0 < o < 2 ^ 31)%Z -> (0 <= k0)%Z -> (k0 * o < n)%Z ->
  (2 ^ 31 <= (k0 + 1) * o \/ (k0 - 1) * o + maxl < n /\ 2 ^ 31 <= k0 * o + maxl)%Z ->
  forall m k fuel, (0 <= k)%Z -> (k + Z.of_nat m = k0)%Z -> m < fuel -> right_ranges_ck fuel n maxl o (k * o) (n <=? (k - 1) * o + maxl)%Z = Undef IntOverflow.
Proof.
  intros Hn Hm Ho Hk0 Hlt Hbad. induction m as [|m IH]; intros k fuel Hk HK Hf; (destruct fuel as [|fuel]; [lia|]); cbn [right_ranges_ck];
    assert (K0 : (0 <= k * o)%Z) by nia; assert (K1 : (k * o <= k0 * o)%Z) by nia; rewrite size_t_id by (unpow; lia); (replace (k * o <? n)%Z with true by lia);
    assert (E : (k * o + o = (k + 1) * o)%Z) by lia; rewrite E.
  - assert (k = k0) by lia. subst k. destruct (Z.leb_spec n ((k0 - 1) * o + maxl)) as [Hb|Hb].
    + rewrite ck_over by (unfold int32; lia). reflexivity.
    + destruct (Z.lt_ge_cases (k0 * o + maxl) (2 ^ 31)) as [Hl|Hg]; [|rewrite ck_over by (unfold int32; lia); reflexivity].
      rewrite ck_ok by (unfold int32; unpow; lia). cbn [bind]. rewrite ck_over by (unfold int32; lia). reflexivity.
  - pose proof (IH (k + 1)%Z fuel ltac:(lia) ltac:(lia) ltac:(lia)) as I.
    assert (K2 : ((k + 1) * o <= k0 * o)%Z) by nia. rewrite (ck_ok ((k + 1) * o)) by (unfold int32; unpow; lia).
    destruct (Z.leb_spec n ((k - 1) * o + maxl)) as [Hb|Hb].
    + cbn [bind]. replace (n <=? (k + 1 - 1) * o + maxl)%Z with true in I by (symmetry; apply Z.leb_le; nia). exact I.
    + destruct (Z.lt_ge_cases (k * o + maxl) (2 ^ 31)) as [Hl|Hg]; [|rewrite ck_over by (unfold int32; lia); reflexivity].
      rewrite ck_ok by (unfold int32; unpow; lia). cbn [bind]. replace (n <=? (k + 1 - 1) * o + maxl)%Z with (Z.min (k * o + maxl) n =? n)%Z in I by (replace (k + 1 - 1)%Z with k by lia; lia). rewrite I. reflexivity.
Qed.
Lemma left_ck n maxl o : (0 <= n < 2 ^ 31)%Z -> (0 < maxl < n)%Z -> (1 <= o < 2 ^ 31)%Z -> forall fuel stop b, int32 stop -> (stop < n)%Z ->
  left_ranges_ck fuel maxl o stop b = left_ranges fuel maxl o stop b.
Proof.
  intros Hn Hm Ho. unfold int32 in *. induction fuel as [|f IH]; intros stop b Hs Hi; [reflexivity|]. cbn [left_ranges left_ranges_ck]. destruct (Z.leb_spec 0 stop) as [H0|H0]; [|reflexivity].
  rewrite (ck_ok (stop + 1)) by (unfold int32; unpow; lia). cbn [bind]. cbv zeta.
  replace (if (stop + 1 <? maxl)%Z then Ok 0%Z else ck (stop + 1 - maxl)) with (Ok (if (stop + 1 <? maxl) then 0 else stop + 1 - maxl)%Z) by (destruct (Z.ltb_spec (stop + 1) maxl); [reflexivity | rewrite ck_ok by (unfold int32; unpow; lia); reflexivity]).
  cbn [bind]. rewrite !ck_ok by (unfold int32; unpow; lia). cbn [bind]. rewrite !IH by (unpow; lia). reflexivity.
Qed.
Lemma left_over maxl o : (0 < maxl < 2 ^ 31)%Z -> (- 2 ^ 31 <= o <= 0)%Z -> forall m stop b fuel, (0 <= stop < 2 ^ 31)%Z -> (2 ^ 31 - stop <= Z.of_nat m)%Z -> m < fuel ->
  left_ranges_ck fuel maxl o stop b = Undef IntOverflow.
Proof.
  intros Hm Ho. induction m as [|m IH]; intros stop b fuel Hs Hk Hf; [lia|]. destruct fuel as [|fuel]; [lia|]. cbn [left_ranges_ck]. replace (0 <=? stop)%Z with true by lia.
  destruct (Z.lt_ge_cases (stop + 1) (2 ^ 31)) as [Hlt|Hge]; [|rewrite ck_over by (unfold int32; lia); reflexivity]. rewrite (ck_ok (stop + 1)) by (unfold int32; unpow; lia). cbn [bind].
  replace (if (stop + 1 <? maxl)%Z then Ok 0%Z else ck (stop + 1 - maxl)) with (Ok (if (stop + 1 <? maxl) then 0 else stop + 1 - maxl)%Z) by (destruct (Z.ltb_spec (stop + 1) maxl); [reflexivity | rewrite ck_ok by (unfold int32; unpow; lia); reflexivity]).
  cbn [bind]. destruct (Z.lt_ge_cases (stop + 1 - o) (2 ^ 31)) as [Hlt2|Hge2].
  - rewrite !(ck_ok (stop + 1 - o)) by (unfold int32; unpow; lia). cbn [bind]. rewrite !IH by lia. destruct (_ && _); reflexivity.
  - rewrite !(ck_over (stop + 1 - o)) by (unfold int32; lia). destruct (_ && _); reflexivity.
Qed.

Lemma active_dec t n : truncation_active t n \/ ~ truncation_active t n.
Proof. unfold truncation_active. destruct (t_strat t); try (right; intros [[H|H] _]; discriminate); (destruct (Z.lt_ge_cases 0 (t_max t)); [destruct (Z.lt_ge_cases (t_max t) (Z.of_nat n)); [left | right; lia] | right; lia]); auto. Qed.
Lemma active_both fuel t e : (Z.of_nat (length (en_ids e)) < 2 ^ 31)%Z -> truncation_active t (length (en_ids e)) ->
  truncate_encoding fuel t e = truncate fuel e (t_max t) (t_stride t) (t_dir t) /\ truncate_encoding_ck fuel t e = truncate_ck fuel e (t_max t) (t_stride t) (t_dir t).
Proof.
  intros Hn [Hs Hm]. unfold truncate_encoding, truncate_encoding_ck. cbv zeta. replace (t_max t =? 0)%Z with false by lia. rewrite size_t_id by (unpow; lia).
  replace (Z.of_nat (length (en_ids e)) <=? t_max t)%Z with false by lia. replace (Z.of_nat (length (en_ids e)) - (Z.of_nat (length (en_ids e)) - t_max t))%Z with (t_max t) by lia.
  replace (Z.of_nat (length (en_ids e)) - t_max t <? Z.of_nat (length (en_ids e)))%Z with true by lia. destruct Hs as [-> | ->]; split; reflexivity.
Qed.
Lemma inactive_both fuel t e : (Z.of_nat (length (en_ids e)) < 2 ^ 31)%Z -> int32 (t_max t) -> ~ truncation_active t (length (en_ids e)) -> truncate_encoding_ck fuel t e = truncate_encoding fuel t e.
Proof.
  intros Hn Hm Ha. unfold truncation_active in Ha. unfold int32 in Hm. unfold truncate_encoding, truncate_encoding_ck. cbv zeta. destruct (Z.eqb_spec (t_max t) 0) as [H0|H0].
  - unfold truncate_ck, truncate. cbv zeta. destruct (_ <=? _)%Z; reflexivity.
  - destruct (Z.leb_spec (Z.of_nat (length (en_ids e))) (size_t_of_int (t_max t))) as [Hle|Hgt]; [reflexivity|]. assert (Hpos : (0 < t_max t)%Z). { destruct (Z.lt_ge_cases (t_max t) 0); [rewrite size_t_neg in Hgt by (unpow; lia); unpow; lia | lia]. }
    rewrite size_t_id in Hgt by (unpow; lia). destruct (t_strat t) eqn:Es; try reflexivity; exfalso; apply Ha; (split; [auto | lia]).
Qed.

(** Truncation: the int arithmetic overflows exactly for the configurations [truncation_overflows] describes (then the call is undefined behaviour); in all other cases
    the results are those of unbounded arithmetic. *)
Theorem C96_truncation : forall t e, (Z.of_nat (length (en_ids e)) < 2 ^ 31)%Z -> int32 (t_max t) -> int32 (t_stride t) ->
  (truncation_overflows t (length (en_ids e)) -> exists k, forall fuel, k <= fuel -> truncate_encoding_ck fuel t e = Undef IntOverflow) /\
  (~ truncation_overflows t (length (en_ids e)) -> forall fuel, truncate_encoding_ck fuel t e = truncate_encoding fuel t e).
Proof.
  intros t e Hn' Hm Hs. split.
  - intros [Ha Ho]. assert (K : exists k, forall fuel, k <= fuel -> truncate_ck fuel e (t_max t) (t_stride t) (t_dir t) = Undef IntOverflow).
    { unfold truncation_active in Ha. unfold int32 in *. unfold truncate_ck. cbv zeta. replace (Z.of_nat (length (en_ids e)) <=? t_max t)%Z with false by lia. replace (t_max t =? 0)%Z with false by lia.
      destruct (Z.lt_ge_cases (t_max t - t_stride t) (2 ^ 31)) as [Hlt|Hge]; [|exists 0; intros fuel _; rewrite ck_over by (unfold int32; lia); reflexivity].
      rewrite ck_ok by (unfold int32; unpow; lia). cbn [bind]. destruct Ho as [Ho|[[Hd Ho]|[Hd [_ Ho]]]]; [lia| |]; rewrite Hd.
      - exists (S (Z.to_nat (2 ^ 31))). intros fuel Hf.
        rewrite (left_over (t_max t) (t_max t - t_stride t) ltac:(unpow; lia) ltac:(unpow; lia) (Z.to_nat (2 ^ 31))); [reflexivity | unpow; lia | unpow; lia | lia].
      - destruct Ho as (Ho & k0 & K0 & K1 & K2). exists (S (Z.to_nat k0)). intros fuel Hf.
        pose proof (windows_over (Z.of_nat (length (en_ids e))) (t_max t) (t_max t - t_stride t) k0 ltac:(lia) ltac:(lia) ltac:(lia) K0 K1 K2 (Z.to_nat k0) 0%Z fuel ltac:(lia) ltac:(lia) ltac:(lia)) as W.
        replace (Z.of_nat (length (en_ids e)) <=? (0 - 1) * (t_max t - t_stride t) + t_max t)%Z with false in W by lia. change (0 * (t_max t - t_stride t))%Z with 0%Z in W. rewrite W. reflexivity. }
    destruct K as (k & K). exists k. intros fuel Hf. rewrite (proj2 (active_both fuel t e Hn' Ha)). apply K. exact Hf.
  - intros Ho fuel. destruct (active_dec t (length (en_ids e))) as [Ha|Ha]; [|apply inactive_both; assumption].
    destruct (active_both fuel t e Hn' Ha) as [-> ->]. pose proof Ha as Ha'. unfold truncation_overflows in Ho. unfold truncation_active in Ha'. unfold int32 in *. unfold truncate_ck, truncate. cbv zeta. replace (Z.of_nat (length (en_ids e)) <=? t_max t)%Z with false by lia. replace (t_max t =? 0)%Z with false by lia.
    assert (H1 : (t_max t - t_stride t < 2 ^ 31)%Z) by (destruct (Z.lt_ge_cases (t_max t - t_stride t) (2 ^ 31)); [assumption | exfalso; apply Ho; auto]).
    rewrite ck_ok by (unfold int32; unpow; lia). cbn [bind]. destruct (t_dir t) eqn:Ed.
    + destruct (Z.lt_ge_cases 0 (t_max t - t_stride t)) as [Hpos|Hneg].
      * pose proof (windows_ck (Z.of_nat (length (en_ids e))) (t_max t) (t_max t - t_stride t) ltac:(lia) ltac:(lia) ltac:(lia)) as W.
        assert (Hw : ~ windows_overflow (Z.of_nat (length (en_ids e))) (t_max t) (t_max t - t_stride t)) by (intros Hw; apply Ho; split; [exact Ha|]; right; right; auto).
        assert (W' := W ltac:(intros k Hk Hkn; split; [|intros Hb]; match goal with |- (?a < ?b)%Z => destruct (Z.lt_ge_cases a b) as [|Hge]; [assumption|] end; exfalso; apply Hw; (split; [exact Hpos|]); exists k; (split; [exact Hk|]); (split; [exact Hkn|]); auto) fuel 0%Z ltac:(lia) ltac:(unpow; lia)). clear W.
        replace (Z.of_nat (length (en_ids e)) <=? (0 - 1) * (t_max t - t_stride t) + t_max t)%Z with false in W' by lia. change (0 * (t_max t - t_stride t))%Z with 0%Z in W'. rewrite W'. reflexivity.
      * rewrite right_ck; [reflexivity | lia | lia | unpow; lia | unfold int32; unpow; lia | lia | auto].
    + assert (H2 : (t_stride t < t_max t)%Z) by (destruct (Z.lt_ge_cases (t_stride t) (t_max t)); [assumption | exfalso; apply Ho; auto]).
      rewrite (left_ck (Z.of_nat (length (en_ids e)))); [reflexivity | lia | lia | lia | unfold int32; unpow; lia | lia].
    + reflexivity.
Qed.
Print Assumptions C96_truncation.

(** Padding: overflow exactly when the length is not a multiple of pad_to_multiple_of and the next multiple is not an int. *)
Lemma rem_pos l m : (0 < m)%Z -> (0 < Z.rem l m)%Z -> (0 < l)%Z /\ Z.rem l m = (l mod m)%Z.
Proof.
  intros Hm Hr. assert (Hl : (0 < l)%Z). { destruct (Z.lt_ge_cases 0 l) as [H|H]; [exact H|]. pose proof (Z.rem_nonpos l m ltac:(lia) H). lia. }
  split; [exact Hl|]. apply Z.rem_mod_nonneg; lia.
Qed.
Lemma pad_ck_unfold target p e : pad_ck target p e = (ov <- mapM (pad_ck target p) (en_overflowing e) ;; pad_one_ck target p (set_overflowing e ov)).
Proof.
  destruct e as [i t k w o s m ov]. cbn [pad_ck en_overflowing set_overflowing].
  assert (E : (fix go (l : list encoding) : res (list encoding) := match l with [] => Ok [] | x :: r => y <- pad_ck target p x ;; ys <- go r ;; Ok (y :: ys) end) ov = mapM (pad_ck target p) ov).
  { induction ov as [|x ov IH]; [reflexivity|]. cbn [mapM]. rewrite IH. reflexivity. }
  rewrite E. reflexivity.
Qed.
Lemma pad_missing_exact a b : (- 2 ^ 31 <= a - b < 2 ^ 31)%Z -> pad_missing a b = (a - b)%Z.
Proof. intros H. unfold pad_missing. change (2 ^ 31)%Z with 2147483648%Z in H. rewrite Z.mod_small by lia. lia. Qed.
Lemma pad_ck_exact target p : int32 target -> forall e, ((target < 0)%Z -> forall x, part e x -> (- 2 ^ 31 <= target - Z.of_nat (length (en_ids x)))%Z) -> pad_ck target p e = pad target p e.
Proof.
  intros Ht. unfold int32 in Ht. apply (encoding_induction (fun e => ((target < 0)%Z -> forall x, part e x -> (- 2 ^ 31 <= target - Z.of_nat (length (en_ids x)))%Z) -> pad_ck target p e = pad target p e)).
  intros e IH H. rewrite pad_ck_unfold, pad_unfold.
  assert (E : mapM (pad_ck target p) (en_overflowing e) = mapM (pad target p) (en_overflowing e)).
  { assert (H' : forall y, In y (en_overflowing e) -> (target < 0)%Z -> forall x, part y x -> (- 2 ^ 31 <= target - Z.of_nat (length (en_ids x)))%Z) by (intros y Hy H0 x Hx; apply (H H0); eapply part_over; eassumption).
    clear H. induction IH as [|y l Hy _ IHl]; [reflexivity|]. cbn [mapM]. rewrite Hy by (apply H'; left; reflexivity). rewrite IHl by (intros z Hz; apply H'; right; exact Hz). reflexivity. }
  rewrite E. destruct (mapM (pad target p) (en_overflowing e)) as [ov| | |]; cbn [bind]; try reflexivity.
  unfold pad_one_ck, pad_one. cbv zeta. change (en_ids (set_overflowing e ov)) with (en_ids e). set (n := Z.of_nat (length (en_ids e))) in *. destruct (Z.leb_spec (size_t_of_int target) n) as [Hle|Hgt]; [reflexivity|].
  assert (Hk : pad_missing target n = (target - n)%Z).
  { apply pad_missing_exact. destruct (Z.lt_ge_cases target 0) as [Hneg|Hpos]; [split; [apply (H Hneg e (part_self e)) | subst n; lia]|].
    assert (size_t_of_int target = target) by (unfold size_t_of_int; apply Z.mod_small; unpow; lia). subst n. unpow; lia. }
  rewrite Hk. reflexivity.
Qed.
(** Padding: rounding up overflows exactly when [rounding_overflows] says; otherwise the result is that of unbounded arithmetic, unless a fixed size below zero [size_wraps]. *)
Theorem C96_padding : forall p e, (Z.of_nat (length (en_ids e)) < 2 ^ 31)%Z -> int32 (p_fixed p) -> int32 (p_multiple p) ->
  (rounding_overflows p (length (en_ids e)) -> pad_encoding_ck p e = Undef IntOverflow) /\
  (~ rounding_overflows p (length (en_ids e)) -> ~ size_wraps p e -> pad_encoding_ck p e = pad_encoding p e).
Proof.
  intros p e Hn Hf Hm.
  assert (HP : forall target, int32 target -> ((target < 0)%Z -> p_strat p = Fixed /\ target = p_fixed p) -> ~ size_wraps p e -> pad_ck target p e = pad target p e).
  { intros target Hi Ht Hw. apply pad_ck_exact; [exact Hi|]. intros H0 x Hx. destruct (Ht H0) as [H1 ->]. destruct (Z.lt_ge_cases (p_fixed p - Z.of_nat (length (en_ids x))) (- 2 ^ 31)) as [Hl|Hl]; [|exact Hl]. exfalso. apply Hw. split; [exact H1|]. split; [exact H0|]. exists x. auto. }
  unfold rounding_overflows, pad_encoding_ck, pad_encoding, pad_target_ck, pad_target. cbv zeta. set (l := match p_strat p with Fixed => p_fixed p | _ => Z.of_nat (length (en_ids e)) end).
  assert (Hl : int32 l) by (unfold l; destruct (p_strat p); try exact Hf; unfold int32; lia). unfold int32 in *.
  destruct ((0 <? p_multiple p) && (0 <? Z.rem l (p_multiple p)))%Z eqn:Ec.
  - apply andb_prop in Ec as [E1 E2]. apply Z.ltb_lt in E1. apply Z.ltb_lt in E2. destruct (rem_pos _ _ E1 E2) as [L R]. rewrite R in *. pose proof (Z.mod_pos_bound l (p_multiple p) E1). pose proof (Z.div_mod l (p_multiple p) ltac:(lia)) as HD.
    rewrite (ck_ok (p_multiple p - l mod p_multiple p)) by (unfold int32; unpow; lia). cbn [bind].
    assert (HX : (l + (p_multiple p - l mod p_multiple p) = p_multiple p * (l / p_multiple p + 1))%Z) by lia. split.
    + intros (_ & _ & Hno). rewrite ck_over; [reflexivity|]. intros [_ H2]. apply (Hno (l / p_multiple p + 1)%Z). lia.
    + intros Hno Hw. enough (HI : int32 (l + (p_multiple p - l mod p_multiple p))) by (rewrite ck_ok by exact HI; cbn [bind]; apply HP; [exact HI | intros Hneg; exfalso; lia | exact Hw]). unfold int32. split; [unpow; lia|]. destruct (Z.lt_ge_cases (l + (p_multiple p - l mod p_multiple p)) (2 ^ 31)) as [Hlt|Hge]; [exact Hlt|]. exfalso. apply Hno. split; [exact E1|]. split; [exact L|]. intros k [K1 K2].
      assert (k <= l / p_multiple p \/ l / p_multiple p + 1 <= k)%Z as [Hk|Hk] by lia; nia.
  - split; [|intros _ Hw; cbn [bind]; apply HP; [exact Hl | intros Hneg; split; [subst l; destruct (p_strat p); (reflexivity || lia) | subst l; destruct (p_strat p); (reflexivity || lia)] | exact Hw]]. intros (M & L & Hno). exfalso. apply andb_false_iff in Ec as [E1|E1]; apply Z.ltb_ge in E1; [lia|]. assert (Z.rem l (p_multiple p) = 0)%Z by (pose proof (Z.rem_nonneg l (p_multiple p) ltac:(lia) ltac:(lia)); lia).
    apply (Hno (Z.quot l (p_multiple p))). pose proof (Z.quot_rem l (p_multiple p) ltac:(lia)). lia.
Qed.
Print Assumptions C96_padding.

(** Otherwise the length asked for comes out positive: instead of the exception for a negative size, more than two thousand million pad tokens are added. *)
Theorem C96_padding_wraps : forall p e, (Z.of_nat (length (en_ids e)) < 2 ^ 31)%Z -> int32 (p_fixed p) -> p_strat p = Fixed -> en_overflowing e = [] ->
  (p_fixed p - Z.of_nat (length (en_ids e)) < - 2 ^ 31)%Z ->
  let k := Z.to_nat (2 ^ 32 + p_fixed p - Z.of_nat (length (en_ids e))) in
  (p_dir p = PRight -> pad_encoding_ck p e = Ok (pad_right k p e)) /\ (p_dir p = PLeft -> pad_encoding_ck p e = Ok (pad_left k p e)) /\
  (2 ^ 31 <= Z.of_nat k + Z.of_nat (length (en_ids e)) < 2 ^ 32)%Z.
Proof.
  intros p e Hn Hf Hs Ho Hw. cbv zeta. unfold int32 in Hf. set (n := Z.of_nat (length (en_ids e))) in *. assert (H0 : (0 <= n)%Z) by (unfold n; lia).
  assert (HT : pad_target_ck p e = Ok (p_fixed p)).
  { unfold pad_target_ck. rewrite Hs. cbv zeta. destruct (Z.ltb_spec 0 (p_multiple p)); [|reflexivity]. cbn [andb]. pose proof (Z.rem_nonpos (p_fixed p) (p_multiple p) ltac:(lia) ltac:(unpow; lia)).
    destruct (Z.ltb_spec 0 (Z.rem (p_fixed p) (p_multiple p))); [lia | reflexivity]. }
  assert (HK : pad_missing (p_fixed p) n = (2 ^ 32 + p_fixed p - n)%Z).
  { unfold pad_missing. change (2 ^ 32)%Z with 4294967296%Z. change (2 ^ 31)%Z with 2147483648%Z in *. rewrite <- (Z.mod_unique (p_fixed p - n + 2147483648) 4294967296 (-1) (p_fixed p - n + 2147483648 + 4294967296)); lia. }
  assert (HE : set_overflowing e [] = e) by (destruct e; cbn in Ho |- *; subst; reflexivity).
  assert (HG : forall d, p_dir p = d -> pad_encoding_ck p e = match d with PUnknown => Ok e | PLeft => Ok (pad_left (Z.to_nat (2 ^ 32 + p_fixed p - n)) p e) | PRight => Ok (pad_right (Z.to_nat (2 ^ 32 + p_fixed p - n)) p e) end).
  { intros d Hd. unfold pad_encoding_ck. rewrite HT. cbn [bind]. rewrite pad_ck_unfold, Ho. cbn [mapM bind]. rewrite HE. unfold pad_one_ck. cbv zeta. fold n. rewrite HK, Hd.
    replace (size_t_of_int (p_fixed p) <=? n)%Z with false; [|symmetry; apply Z.leb_gt; rewrite size_t_neg by (unpow; lia); unpow; lia].
    replace (2 ^ 32 + p_fixed p - n <? 0)%Z with false; [reflexivity|]. symmetry. apply Z.ltb_ge. change (2 ^ 32)%Z with 4294967296%Z. unpow; lia. }
  split; [intros Hd; apply (HG _ Hd)|]. split; [intros Hd; apply (HG _ Hd)|]. change (2 ^ 32)%Z with 4294967296%Z. change (2 ^ 31)%Z with 2147483648%Z in *. lia.
Qed.
Print Assumptions C96_padding_wraps.

(** encode as a whole: with a stride from 0 up to below max_length, sizes up to 2^30 and no more than 2^30 tokens, its int arithmetic never overflows, and the result is that
    of unbounded arithmetic. *)
Definition unpadded (t : tokenizer) : tokenizer := mkTz (tz_trunc t) None (tz_av t) (tz_norm t) (tz_pre t) (tz_model t) (tz_dec t) (tz_post t).
Lemma encode_ck_text E fuel t s add : snd (encode_ck E fuel t s add) = (e <- text_encoding E t s ;; do_post_process_ck fuel t e add).
Proof.
  unfold encode_ck, text_encoding. destruct (prepare E t s) as [[av p]| | |] eqn:Ep; try reflexivity. cbn [bind]. unfold set_av. cbn [tz_model].
  destruct (tz_model t) as [m|]; [|cbn [snd bind]; destruct (into_encoding p 0); reflexivity].
  destruct (model_tokenize E m p) as [m' r]. cbn [snd]. destruct r as [p'| | |]; [|reflexivity..]. cbn [bind]. destruct (into_encoding p' 0); reflexivity.
Qed.
Lemma windows_small n maxl o : (n <= 2 ^ 30)%Z -> (0 < maxl < n)%Z -> (o < 2 ^ 31)%Z -> ~ windows_overflow n maxl o.
Proof.
  intros Hn Hm Ho (H0 & k & K0 & K1 & K2). change (2 ^ 30)%Z with 1073741824%Z in *. change (2 ^ 31)%Z with 2147483648%Z in *.
  destruct K2 as [K2|[_ K2]]; [|lia]. destruct (Z.eq_dec k 0) as [->|]; [lia|]. assert (o <= k * o)%Z by nia. lia.
Qed.
Theorem C96_encode : forall E fuel t s add,
  (forall tr, tz_trunc t = Some tr -> int32 (t_max tr) /\ (0 <= t_stride tr)%Z /\ int32 (t_stride tr) /\ (t_dir tr = TLeft -> (t_stride tr < t_max tr)%Z)) ->
  (forall p, tz_pad t = Some p -> int32 (p_fixed p) /\ (p_strat p = Fixed -> 0 <= p_fixed p <= 2 ^ 30)%Z /\ int32 (p_multiple p) /\ (p_multiple p <= 2 ^ 30)%Z) ->
  (forall r, snd (encode E fuel (bare t) s add) = Ok r -> (Z.of_nat (length (en_ids r)) <= 2 ^ 30)%Z) ->
  (forall r, snd (encode E fuel (unpadded t) s add) = Ok r -> (Z.of_nat (length (en_ids r)) <= 2 ^ 30)%Z) ->
  encode_ck E fuel t s add = encode E fuel t s add.
Proof.
  intros E fuel t s add Ht Hp H1 H2. assert (K : snd (encode_ck E fuel t s add) = snd (encode E fuel t s add)).
  { rewrite encode_ck_text, encode_text. rewrite encode_bare in H1. rewrite encode_text in H2. change (text_encoding E (unpadded t) s) with (text_encoding E t s) in H2.
    destruct (text_encoding E t s) as [e| | |]; try reflexivity. cbn [bind] in *. specialize (H1 e eq_refl). unfold do_post_process_ck, do_post_process in *. cbn [unpadded tz_trunc tz_post tz_pad] in H2.
    assert (K1 : match tz_trunc t with Some tr => truncate_encoding_ck fuel tr e | None => Ok e end = match tz_trunc t with Some tr => truncate_encoding fuel tr e | None => Ok e end).
    { destruct (tz_trunc t) as [tr|]; [|reflexivity]. destruct (Ht tr eq_refl) as (A & B & C & D). apply C96_truncation; try assumption; [change (2 ^ 30)%Z with 1073741824%Z in *; change (2 ^ 31)%Z with 2147483648%Z in *; lia|]. intros [(_ & Ha) [Ho|[[Hd Ho]|[Hd [Ho Hw]]]]]; [unfold int32 in *; lia | specialize (D Hd); lia|]. exact (windows_small _ _ _ H1 Ha Ho Hw). }
    rewrite K1. destruct (match tz_trunc t with Some tr => truncate_encoding fuel tr e | None => Ok e end) as [e1| | |]; try reflexivity. cbn [bind] in *.
    destruct (match tz_post t with Some pp => process pp e1 add | None => Ok e1 end) as [e2| | |]; try reflexivity. cbn [bind] in *. destruct (tz_pad t) as [p|]; [|reflexivity].
    destruct (Hp p eq_refl) as (A & B & C & D). specialize (H2 e2 eq_refl). apply C96_padding; try assumption; [clear - H2; change (2 ^ 30)%Z with 1073741824%Z in *; change (2 ^ 31)%Z with 2147483648%Z in *; lia| |intros (W1 & W2 & _); specialize (B W1); lia]. intros (M & L & Hno). cbv zeta in *. set (l := match p_strat p with Fixed => p_fixed p | _ => Z.of_nat (length (en_ids e2)) end) in *.
    assert (Hl : (l <= 2 ^ 30)%Z) by (unfold l; destruct (p_strat p); try specialize (B eq_refl); lia). pose proof (Z.mod_pos_bound l (p_multiple p) M). pose proof (Z.div_mod l (p_multiple p) ltac:(lia)) as HD.
    clear H1 H2 A C. change (2 ^ 30)%Z with 1073741824%Z in *. change (2 ^ 31)%Z with 2147483648%Z in *. destruct (Z.eq_dec (l mod p_multiple p) 0) as [Hz|Hz]; [apply (Hno (l / p_multiple p)%Z); lia | apply (Hno (l / p_multiple p + 1)%Z); rewrite Z.mul_add_distr_l, Z.mul_1_r; lia]. }
  unfold encode_ck, encode in *. destruct (prepare E t s) as [[av p]| | |]; try reflexivity. destruct (match tz_model (set_av t av) with Some m => _ | None => _ end) as [t2 r]. cbn [snd] in K. rewrite K. reflexivity.
Qed.
Print Assumptions C96_encode.

(** Cases: both failures happen; a harmless configuration meets the hypotheses of [C96_encode]. *)
Example C96_truncation_case : truncation_overflows (mkTrunc TLeft LongestFirst 2 2) 5 /\ truncation_overflows (mkTrunc TRight OnlyFirst 2 (- 2 ^ 31)) 5 /\ ~ truncation_overflows (mkTrunc TLeft LongestFirst 2 1) 5 /\
  truncate_encoding_ck 1 (mkTrunc TRight OnlyFirst 2 (- 2 ^ 31)) (sample 5) = Undef IntOverflow.
Proof.
  split; [split; [split; [left; reflexivity | cbn; lia] | right; left; cbn; split; [reflexivity | lia]]|]. split; [split; [split; [right; reflexivity | cbn [t_max]; lia] | left; cbn [t_max t_stride]; lia]|].
  split; [intros (_ & [H|[[_ H]|[H _]]]); cbn in H; (lia || discriminate) | vm_compute; reflexivity].
Qed.
(** 1500000000 tokens in windows of 1250000000 that share 100000000: the second window would end beyond the ints; with 2^31 - 1 tokens and windows of 2^30 + 1 the third would begin there. *)
Example C96_windows_case : truncation_overflows (mkTrunc TRight LongestFirst 1250000000 100000000) (Z.to_nat 1500000000) /\
  windows_overflow (2 ^ 31 - 1) (2 ^ 30 + 1) (2 ^ 30 + 1) /\ ~ windows_overflow 1500000000 1000000000 900000000.
Proof.
  split; [|split].
  - split; [split; [left; reflexivity | cbn [t_max]; lia]|]. right; right. split; [reflexivity|]. cbn [t_max t_stride]. split; [lia|]. split; [lia|]. exists 1%Z. lia.
  - split; [lia|]. exists 1%Z. lia.
  - intros (_ & k & K0 & K1 & K2). assert (k = 0 \/ k = 1)%Z as [-> | ->] by lia; lia.
Qed.
Example C96_padding_case : rounding_overflows (mkPad PRight Fixed (2 ^ 31 - 1) 0 0 (str "[PAD]") 8) 5 /\ pad_encoding_ck (mkPad PRight Fixed (2 ^ 31 - 1) 0 0 (str "[PAD]") 8) (sample 5) = Undef IntOverflow /\
  ~ rounding_overflows (mkPad PRight Fixed 10 0 0 (str "[PAD]") 8) 5.
Proof.
  split; [|split; [vm_compute; reflexivity|]].
  - unfold rounding_overflows. cbn [p_strat p_fixed p_multiple]. split; [lia|]. split; [lia|]. intros k. lia.
  - intros (_ & _ & H). apply (H 2%Z). cbn. lia.
Qed.

(** ** C97 *)
Lemma max_value_spec m : match max_value m with Some mx => (exists c, In (c, mx) m) /\ (forall c i, In (c, i) m -> (i <= mx)%Z) | None => m = [] end.
Proof.
  induction m as [|[k v] m IH]; [reflexivity|]. cbn [max_value]. destruct (max_value m) as [w|].
  - destruct IH as [(c & Hc) Hb]. split.
    + destruct (Z.max_spec v w) as [[_ ->]|[_ ->]]; [exists c; right; exact Hc | exists k; left; reflexivity].
    + intros c' i [H|H]; [injection H as <- <-; lia | specialize (Hb c' i H); lia].
  - subst m. split; [exists k; left; reflexivity|]. intros c i [H|[]]. injection H as <- <-. lia.
Qed.
Lemma sset_in (k : list N) (v : Z) m : forall c i, In (c, i) (sset k v m) -> In (c, i) m \/ i = v.
Proof.
  induction m as [|[k' v'] m IH]; intros c i H; cbn [sset] in H.
  - destruct H as [H|[]]. injection H as <- <-. auto.
  - destruct (leqb k k'); destruct H as [H|H]; [injection H as <- <-; auto | left; right; exact H | left; left; exact H | destruct (IH c i H) as [H'|H']; [left; right; exact H' | auto]].
Qed.
Lemma register_map l : forall av, av_map (fold_left register_special l av) = av_map av.
Proof. induction l as [|x l IH]; intros av; [reflexivity|]. cbn [fold_left]. rewrite IH. unfold register_special. destruct (_ && _); reflexivity. Qed.
Lemma sfind_in (c : list N) (m : smap Z) i : sfind c m = Some i -> exists c', In (c', i) m.
Proof. induction m as [|[k v] m IH]; cbn [sfind]; [discriminate|]. destruct (leqb c k); [intros H; injection H as <-; exists k; left; reflexivity | intros H; destruct (IH H) as (c' & Hc); exists c'; right; exact Hc]. Qed.
Lemma choose_ck av vocab c M : ids_up_to M (av_map av) -> (forall v, vocab = Some v -> ids_up_to M v /\ (Z.of_nat (length v) <= M + 1)%Z) -> (0 <= M)%Z -> (M + 1 < 2 ^ 31)%Z ->
  (forall i, choose_id av vocab c = Ok i -> (- 2 ^ 31 <= i <= M + 1)%Z) /\ choose_id_ck av vocab c = choose_id av vocab c.
Proof.
  intros Hm Hv HM HM1. unfold choose_id, choose_id_ck. destruct (sfind c (av_map av)) as [i|] eqn:Ef.
  - split; [|reflexivity]. intros i' H. injection H as <-. apply sfind_in in Ef as (c' & Ef). specialize (Hm _ _ Ef). lia.
  - destruct vocab as [v|]; [|split; [discriminate | reflexivity]]. destruct (Hv v eq_refl) as [Hv1 Hv2]. destruct (token_to_id v c) as [i|] eqn:Et.
    + split; [|reflexivity]. intros i' H. injection H as <-. unfold token_to_id in Et. apply sfind_in in Et as (c' & Et). specialize (Hv1 _ _ Et). lia.
    + pose proof (max_value_spec (av_map av)) as HS. unfold vocab_size in *. destruct (max_value (av_map av)) as [mx|].
      * destruct HS as [(c' & Hc) _]. specialize (Hm _ _ Hc). destruct (_ || _); [|split; [intros i H; injection H as <-; lia | reflexivity]]. split; [intros i H; injection H as <-; lia|]. apply ck_ok. unfold int32. lia.
      * destruct (_ =? _)%Z; (split; [|reflexivity]); intros i H; [discriminate | injection H as <-; lia].
Qed.
Lemma assign_ck alias vocab l : forall av M, ids_up_to M (av_map av) -> (forall v, vocab = Some v -> ids_up_to M v /\ (Z.of_nat (length v) <= M + 1)%Z) -> (0 <= M)%Z -> (M + Z.of_nat (length l) < 2 ^ 31)%Z ->
  assign_ids_ck alias av vocab l = assign_ids alias av vocab l.
Proof.
  induction l as [|x l IH]; intros av M Hm Hv HM HL; [reflexivity|]. cbn [assign_ids assign_ids_ck length] in *. destruct (is_nil (at_content x)); [apply (IH av M); auto; lia|].
  destruct (choose_ck av vocab (at_content x) M Hm Hv HM ltac:(lia)) as [C1 ->]. destruct (choose_id av vocab (at_content x)) as [i| | |]; try reflexivity. cbn [bind]. specialize (C1 i eq_refl).
  assert (W : forall m, ids_up_to M m -> ids_up_to (M + 1) m) by (intros m H c j Hj; specialize (H c j Hj); lia).
  assert (Hm' : ids_up_to (M + 1) (sset (at_content x) i (av_map av))) by (intros c j Hj; apply sset_in in Hj as [Hj| ->]; [specialize (Hm c j Hj); lia | lia]).
  assert (Hv' : forall v, vocab = Some v -> ids_up_to (M + 1) v /\ (Z.of_nat (length v) <= M + 1 + 1)%Z) by (intros v E; destruct (Hv v E); split; [auto | lia]).
  destruct (smem _ _); [apply (IH _ (M + 1)%Z); auto; lia|]. destruct alias; [reflexivity|]. apply (IH _ (M + 1)%Z); auto; lia.
Qed.

(** Adding tokens never overflows as long as the largest id in use (and the size of the vocabulary) leaves room for them. *)
Theorem C97_room : forall alias t l M, (0 <= M)%Z -> (M + Z.of_nat (length l) < 2 ^ 31)%Z ->
  (forall av, tz_av t = Some av -> ids_up_to M (av_map av)) -> (forall m, tz_model t = Some m -> ids_up_to M (model_vocab m) /\ (Z.of_nat (length (model_vocab m)) <= M + 1)%Z) ->
  add_tokens_ck alias t l = add_tokens alias t l.
Proof.
  intros alias t l M HM HL Ha Hm. unfold add_tokens_ck, add_tokens. destruct (tz_av t) as [av|]; [|reflexivity]. unfold av_add_tokens_ck, av_add_tokens. cbv zeta.
  rewrite (assign_ck alias _ l _ M); [reflexivity | rewrite register_map; apply Ha; reflexivity | | exact HM | exact HL].
  intros v Hv. destruct (tz_model t) as [m|]; [|discriminate]. injection Hv as <-. apply Hm. reflexivity.
Qed.
Print Assumptions C97_room.
(** One new token: adding it overflows exactly when its text is neither an added token nor in the vocabulary, and 2^31 - 1 is the id of an added token. *)
Theorem C97_overflow : forall t av m x, tz_av t = Some av -> tz_model t = Some m -> (forall c i, In (c, i) (av_map av) -> int32 i) -> (Z.of_nat (length (model_vocab m)) < 2 ^ 31)%Z -> at_content x <> [] ->
  (add_tokens_ck false t [x] = Undef IntOverflow <->
   sfind (at_content x) (av_map av) = None /\ sfind (at_content x) (model_vocab m) = None /\ exists c, In (c, 2 ^ 31 - 1)%Z (av_map av)).
Proof.
  intros t av m x Ha Hm Hi Hn Hx. unfold add_tokens_ck. rewrite Ha, Hm. cbn [option_map]. unfold av_add_tokens_ck. cbn [fold_left assign_ids_ck]. destruct (at_content x) as [|b r] eqn:Ex; [congruence|]. cbn [is_nil].
  unfold choose_id_ck, token_to_id. replace (av_map (register_special av x)) with (av_map av) by (unfold register_special; destruct (_ && _); reflexivity).
  assert (NO : forall i, ~ (z <- (a <- Ok i ;; (let map' := sset (b :: r) a (av_map av) in let map_r' := zset a x (av_map_r (register_special av x)) in
     if smem (b :: r) (av_special_set (register_special av x)) then Ok (mkAv (av_added (register_special av x)) (av_specials (register_special av x)) (av_special_set (register_special av x)) map' map_r' (av_trie_norm (register_special av x)) (av_trie_raw (register_special av x)))
     else Ok (mkAv (av_added (register_special av x) ++ [x]) (av_specials (register_special av x)) (av_special_set (register_special av x)) map' map_r' (av_trie_norm (register_special av x)) (av_trie_raw (register_special av x))))) ;;
     refresh_added_tokens z (Some (model_vocab m))) = Undef IntOverflow).
  { intros i. cbn [bind]. cbv zeta. destruct (smem _ _); cbn [bind refresh_added_tokens]; discriminate. }
  set (reg := register_special av x) in *.
  destruct (sfind (b :: r) (av_map av)) as [i|].
  - split; [|intros (H & _); discriminate]. intros H. exfalso. apply (NO i). cbn [bind] in H |- *. cbv zeta in *. destruct (smem (b :: r) (av_special_set reg)); cbn [bind refresh_added_tokens] in *; discriminate H.
  - destruct (sfind (b :: r) (model_vocab m)) as [i|].
    + split; [|intros (_ & H & _); discriminate]. intros H. exfalso. cbn [bind] in H. cbv zeta in *. destruct (smem (b :: r) (av_special_set reg)); cbn [bind refresh_added_tokens] in *; discriminate H.
    + pose proof (max_value_spec (av_map av)) as HS. unfold vocab_size. destruct (max_value (av_map av)) as [mx|].
      * destruct HS as [(c & Hc) Hb]. pose proof (Hi c mx Hc) as Hr. unfold int32 in Hr. destruct (Z.eq_dec mx (2 ^ 31 - 1)) as [->|Hne].
        -- replace ((Z.of_nat (length (model_vocab m)) =? 0) || (Z.of_nat (length (model_vocab m)) <=? 2 ^ 31 - 1))%Z%bool with true by (unpow; lia). rewrite ck_over by (unfold int32; lia). split; [eauto 6 | reflexivity].
        -- assert (HE : ck (mx + 1) = Ok (mx + 1)%Z) by (apply ck_ok; unfold int32; lia). split.
           ++ intros H. exfalso. rewrite HE in H. destruct (_ || _); cbn [bind] in H; cbv zeta in *; destruct (smem (b :: r) (av_special_set reg)); cbn [bind refresh_added_tokens] in *; discriminate H.
           ++ intros (_ & _ & c' & Hc'). specialize (Hb c' _ Hc'). lia.
      * split; [|intros (_ & _ & c & Hc); rewrite HS in Hc; destruct Hc]. intros H. exfalso. destruct (_ =? _)%Z; [discriminate H|]. cbn [bind] in H; cbv zeta in *; destruct (smem (b :: r) (av_special_set reg)); cbn [bind refresh_added_tokens] in *; discriminate H.
Qed.
Print Assumptions C97_overflow.

(** Cases: an ordinary configuration meets the hypotheses of [C96_encode], and encoding with it gives a result. *)
Example C96_encode_case : let t := demo (Some (mkTrunc TRight LongestFirst 2 1)) (Some (mkPad PRight Fixed 6 9 0 (str "[PAD]") 4)) None in
  (exists r, snd (encode_ck test_env 10 t (str "playing, chess") true) = Ok r /\ length (en_ids r) = 8) /\
  encode_ck test_env 10 t (str "playing, chess") true = encode test_env 10 t (str "playing, chess") true.
Proof.
  cbv zeta. split; [eexists; split; vm_compute; reflexivity|]. apply C96_encode.
  - intros tr H. injection H as <-. unfold int32. cbn [t_max t_stride t_dir]. repeat split; try lia; try discriminate.
  - intros p H. injection H as <-. unfold int32. cbn [p_fixed p_multiple]. repeat split; lia.
  - intros r H. vm_compute in H. injection H as <-. vm_compute. discriminate.
  - intros r H. vm_compute in H. injection H as <-. vm_compute. discriminate.
Qed.
(** A vocabulary that gives a token the largest int as its id: that token can be added, and then no unknown token can. *)
Definition top_tz : tokenizer := mkTz None None (Some (new_added_vocab [])) None None (Some (MWordPiece (mkWp [(str "[UNK]", 0%Z); (str "top", (2 ^ 31 - 1)%Z)] (str "[UNK]") 100 (str "##")))) None None.
Definition plain (s : bytes) : added_token := mkAt 0 s false false false false false.
Example C97_case : exists t, add_tokens_ck false top_tz [plain (str "top")] = Ok (t, 1%Z) /\ add_tokens_ck false t [plain (str "new")] = Undef IntOverflow /\
  add_tokens_ck false t [plain (str "[UNK]")] <> Undef IntOverflow /\ (exists t', add_tokens_ck false top_tz [plain (str "new")] = Ok (t', 1%Z)).
Proof.
  eexists. split; [vm_compute; reflexivity|]. split; [vm_compute; reflexivity|]. split; [vm_compute; discriminate|]. eexists. vm_compute. reflexivity.
Qed.
Example C97_room_case : let t := demo None None None in
  add_tokens_ck false t [plain (str "new"); plain (str "newer")] = add_tokens false t [plain (str "new"); plain (str "newer")] /\ exists t', add_tokens false t [plain (str "new"); plain (str "newer")] = Ok (t', 2%Z).
Proof.
  cbv zeta. split; [|eexists; vm_compute; reflexivity]. apply (C97_room _ _ _ 1000%Z); [lia | vm_compute; reflexivity | |].
  - intros av H. injection H as <-. intros c i Hi. vm_compute in Hi. repeat (destruct Hi as [Hi|Hi]; [injection Hi as <- <-; lia|]). destruct Hi.
  - intros m H. injection H as <-. split; [|vm_compute; discriminate]. intros c i Hi. vm_compute in Hi. repeat (destruct Hi as [Hi|Hi]; [injection Hi as <- <-; lia|]). destruct Hi.
Qed.
(** The smallest fixed size wraps for any text with a token; without rounding or wrapping the size -1 of a configuration does not. *)
Example C96_wraps_case : let p := mkPad PRight Fixed (- 2 ^ 31) 0 0 (str "[PAD]") 0 in
  size_wraps p (sample 5) /\ en_overflowing (sample 5) = [] /\ (p_fixed p - Z.of_nat (length (en_ids (sample 5))) < - 2 ^ 31)%Z /\
  pad_encoding p (sample 5) = Throw LengthError /\ ~ size_wraps (mkPad PRight Fixed (-1) 0 0 (str "[PAD]") 0) (sample 5).
Proof.
  cbv zeta. assert (HL : length (en_ids (sample 5)) = 5) by reflexivity. assert (HO : en_overflowing (sample 5) = []) by reflexivity. cbn [p_fixed].
  split; [split; [reflexivity|]; split; [cbn [p_fixed]; lia|]; exists (sample 5); split; [constructor | cbn [p_fixed]; rewrite HL; lia]|]. split; [exact HO|]. split; [rewrite HL; lia|]. split; [vm_compute; reflexivity|].
  intros (_ & _ & x & Hx & Hw). cbn [p_fixed] in Hw. inversion Hx as [|o y Ho Hp]; subst; [rewrite HL in Hw; lia | rewrite HO in Ho; destruct Ho].
Qed.
