(** C01-C09: truncation and padding. *)
From Verif Require Import Base Common Utils Spec Sample UtilsProofs PadProofs EncFacts.

(** C01. With 0 <= stride < max_length < n, direction Right: the result holds window 0 and its overflowing list the
    windows [k*(max-stride), min(k*(max-stride)+max, n)) for k = 1 .. K, where K is the first window reaching n. *)
Theorem C01_right_truncation_windows : forall t e (maxl stride : nat),
  t_dir t = TRight -> (t_strat t = LongestFirst \/ t_strat t = OnlyFirst) ->
  t_max t = Z.of_nat maxl -> t_stride t = Z.of_nat stride ->
  stride < maxl -> maxl < length (en_ids e) -> (Z.of_nat (length (en_ids e)) < 2 ^ 31)%Z -> flat_parallel e ->
  let n := length (en_ids e) in
  exists K : nat,
    (forall fuel, n + 2 <= fuel ->
       truncate_encoding fuel t e
       = Ok (with_overflow (window e 0 maxl)
               (map (fun k => window e (k * (maxl - stride)) (Nat.min (k * (maxl - stride) + maxl) n)) (seq 1 K))))
    /\ 1 <= K
    /\ (forall k, k < K -> k * (maxl - stride) + maxl < n)
    /\ n <= K * (maxl - stride) + maxl.
Proof. exact right_windows. Qed.
Print Assumptions C01_right_truncation_windows.

Example C01_witness :
  flat_parallel (sample 10) /\
  exists r, truncate_encoding 12 (mkTrunc TRight LongestFirst 4 1) (sample 10) = Ok r /\
    en_ids r = [100; 101; 102; 103]%Z /\ map en_ids (en_overflowing r) = [[103; 104; 105; 106]; [106; 107; 108; 109]]%Z.
Proof. split; [repeat split | eexists; split; [vm_compute; reflexivity | split; reflexivity]]. Qed.

(** C02. Direction Left, as the code does it: the last max_length tokens, then windows ending at
    n - k*(max-stride-1): consecutive full windows overlap by stride + 1 tokens, not stride. *)
Theorem C02_left_truncation_windows : forall t e (maxl stride : nat),
  t_dir t = TLeft -> (t_strat t = LongestFirst \/ t_strat t = OnlyFirst) ->
  t_max t = Z.of_nat maxl -> t_stride t = Z.of_nat stride ->
  stride + 2 <= maxl -> maxl < length (en_ids e) -> (Z.of_nat (length (en_ids e)) < 2 ^ 31)%Z -> flat_parallel e ->
  let n := length (en_ids e) in
  let stop k := n - k * (maxl - stride - 1) in
  exists K : nat,
    (forall fuel, n + 2 <= fuel ->
       truncate_encoding fuel t e
       = Ok (with_overflow (window e (n - maxl) n) (map (fun k => window e (stop k - maxl) (stop k)) (seq 1 K))))
    /\ 1 <= K
    /\ (forall k, k < K -> k * (maxl - stride - 1) + maxl < n)
    /\ K * (maxl - stride - 1) < n <= K * (maxl - stride - 1) + maxl.
Proof. exact left_windows. Qed.
Print Assumptions C02_left_truncation_windows.

Example C02_witness :
  exists r, truncate_encoding 12 (mkTrunc TLeft LongestFirst 4 1) (sample 10) = Ok r /\
    en_ids r = [106; 107; 108; 109]%Z /\
    map en_ids (en_overflowing r) = [[104; 105; 106; 107]; [102; 103; 104; 105]; [100; 101; 102; 103]]%Z.
Proof. eexists; split; [vm_compute; reflexivity | split; reflexivity]. Qed.

(** The stated overlap (exactly [stride] tokens: the next window ends at n - (max - stride)) is false. *)
Theorem C02_left_overlap_refuted :
  ~ (forall t e (maxl stride : nat) r fuel,
       t_dir t = TLeft -> (t_strat t = LongestFirst \/ t_strat t = OnlyFirst) ->
       t_max t = Z.of_nat maxl -> t_stride t = Z.of_nat stride ->
       stride < maxl -> maxl < length (en_ids e) -> parallel e ->
       truncate_encoding fuel t e = Ok r ->
       forall w, nth_error (en_overflowing r) 0 = Some w ->
         let n := length (en_ids e) in
         w = window e (n - (maxl - stride) - maxl) (n - (maxl - stride))).
Proof.
  intros H.
  specialize (H (mkTrunc TLeft LongestFirst 4 1) (sample 10) 4 1).
  assert (Hp : parallel (sample 10)) by (constructor; [repeat split | constructor]).
  assert (H5 : 1 < 4) by lia. assert (H6 : 4 < length (en_ids (sample 10))) by (cbn; lia).
  pose proof (H _ 12 eq_refl (or_introl eq_refl) eq_refl eq_refl H5 H6 Hp
                 ltac:(vm_compute; reflexivity) _ ltac:(vm_compute; reflexivity)) as E.
  vm_compute in E. discriminate E.
Qed.
Print Assumptions C02_left_overlap_refuted.

(** C03. Exact termination condition. [truncation_loops] (Spec.v): truncation is active and either Right with
    stride = max_length, or Left with max_length - stride <= 1. *)
Theorem C03_truncation_terminates : forall t e,
  (Z.of_nat (length (en_ids e)) < 2 ^ 31)%Z -> int32 (t_max t) -> int32 (t_stride t) ->
  ((exists fuel, truncate_encoding fuel t e <> Diverge) <-> ~ truncation_loops t (length (en_ids e))) /\
  (forall fuel, ~ truncation_loops t (length (en_ids e)) -> length (en_ids e) + 2 <= fuel ->
                truncate_encoding fuel t e <> Diverge).
Proof.
  intros t e Hn Hm Hs. split; [split|].
  - intros [fuel H] Hl. apply H. apply truncation_diverges; assumption.
  - intros Hl. exists (length (en_ids e) + 2). apply truncation_terminates; auto.
  - intros fuel Hl Hf. apply truncation_terminates; assumption.
Qed.
Print Assumptions C03_truncation_terminates.

(** The unrestricted claim is false: max_length 1, stride 0 (the natural "keep the last token"), direction Left. *)
Theorem C03_truncation_terminates_refuted :
  exists t e, parallel e /\ (0 <= t_stride t < t_max t)%Z /\ forall fuel, truncate_encoding fuel t e = Diverge.
Proof.
  exists (mkTrunc TLeft LongestFirst 1 0), (sample 3). split; [constructor; [repeat split | constructor]|]. split; [cbn; lia|].
  apply truncation_diverges; [cbn; lia|]. split; [split; [left; reflexivity | cbn; lia] | right; cbn; split; [reflexivity | lia]].
Qed.
Print Assumptions C03_truncation_terminates_refuted.

(** C04. When truncation is active (strategy LongestFirst/OnlyFirst, 0 < max_length < n) every produced encoding has
    at most max_length ids; otherwise the encoding is returned as it is (only max_length = 0 clears its overflowing
    list). *)
Theorem C04_truncation_bound : forall fuel t e,
  (Z.of_nat (length (en_ids e)) < 2 ^ 31)%Z -> int32 (t_max t) ->
  (truncation_active t (length (en_ids e)) -> forall r, truncate_encoding fuel t e = Ok r ->
     (Z.of_nat (length (en_ids r)) <= t_max t)%Z /\
     Forall (fun o => (Z.of_nat (length (en_ids o)) <= t_max t)%Z /\ en_overflowing o = []) (en_overflowing r)) /\
  (~ truncation_active t (length (en_ids e)) ->
     truncate_encoding fuel t e = Ok (if (t_max t =? 0)%Z && negb (is_nil (en_ids e)) then with_overflow e [] else e)).
Proof.
  intros fuel t e Hn Hi. split.
  - intros Ha r Hr. eapply truncation_bound; eassumption.
  - intros Ha. apply truncation_inactive; assumption.
Qed.
Print Assumptions C04_truncation_bound.

Example C04_witness : truncation_active (mkTrunc TRight OnlyFirst 2 0) 5 /\ ~ truncation_active (mkTrunc TRight OnlyFirst 5 0) 5.
Proof. split; [split; [right; reflexivity | cbn; lia] | intros [_ H]; cbn in H; lia]. Qed.

(** The length bound fails for max_length = 0 and for strategy OnlySecond. *)
Theorem C04_truncation_bound_refuted :
  (exists fuel t e r, t_strat t = LongestFirst /\ t_max t = 0%Z /\ truncate_encoding fuel t e = Ok r /\ length (en_ids r) = 3) /\
  (exists fuel t e r, t_strat t = OnlySecond /\ t_max t = 1%Z /\ truncate_encoding fuel t e = Ok r /\ length (en_ids r) = 3).
Proof.
  split.
  - exists 9, (mkTrunc TRight LongestFirst 0 0), (sample 3). eexists. repeat split; vm_compute; reflexivity.
  - exists 9, (mkTrunc TRight OnlySecond 1 0), (sample 3). eexists. repeat split; vm_compute; reflexivity.
Qed.
Print Assumptions C04_truncation_bound_refuted.

(** C05. An unrecognised direction string is undefined behaviour on every encoding that needs truncation, and
    harmless on every other one. *)
Theorem C05_unknown_direction : forall fuel d t e,
  d <> str "Right" -> d <> str "Left" -> t_dir t = get_truncation_direction d ->
  (Z.of_nat (length (en_ids e)) < 2 ^ 31)%Z -> int32 (t_max t) ->
  (truncation_active t (length (en_ids e)) -> truncate_encoding fuel t e = Undef OobIndex) /\
  (~ truncation_active t (length (en_ids e)) -> exists r, truncate_encoding fuel t e = Ok r).
Proof.
  intros fuel d t e H1 H2 Hd Hn Hi. unfold get_truncation_direction in Hd.
  rewrite (proj2 (BaseFacts.leqb_neq _ _) H1), (proj2 (BaseFacts.leqb_neq _ _) H2) in Hd.
  split; intros Ha; [apply truncation_unknown_direction; assumption|].
  rewrite truncation_inactive by assumption. eexists; reflexivity.
Qed.
Print Assumptions C05_unknown_direction.

Theorem C05_unknown_direction_refuted :
  exists t e, parallel e /\ t_dir t = get_truncation_direction (str "right") /\
              forall fuel, truncate_encoding fuel t e = Undef OobIndex.
Proof.
  exists (mkTrunc (get_truncation_direction (str "right")) LongestFirst 2 0), (sample 3).
  split; [constructor; [repeat split | constructor]|]. split; [reflexivity|].
  intros fuel. apply truncation_unknown_direction; [cbn; lia | | reflexivity].
  split; [left; reflexivity | cbn; lia].
Qed.
Print Assumptions C05_unknown_direction_refuted.

(** C06. [is_pad_target] and [padded] are in Spec.v. *)
Theorem C06_padding_shape : forall p e,
  int32 (p_multiple p) -> int32 (p_fixed p) -> (Z.of_nat (length (en_ids e)) < 2 ^ 31)%Z ->
  (0 <= match p_strat p with Fixed => p_fixed p | _ => Z.of_nat (length (en_ids e)) end)%Z ->
  exists target r, is_pad_target p (length (en_ids e)) target /\ pad_encoding p e = Ok r /\ padded target p e r.
Proof. exact pad_encoding_spec. Qed.
Print Assumptions C06_padding_shape.

(** The target is unique, so C06 determines the result. *)
Theorem C06_target_unique : forall p n t1 t2, is_pad_target p n t1 -> is_pad_target p n t2 -> t1 = t2.
Proof.
  intros p n t1 t2 (A1 & A2 & A3) (B1 & B2 & B3).
  destruct (Z.ltb_spec 0 (p_multiple p)) as [Hm|Hm].
  - specialize (A2 Hm) as [[q Hq] Hx]. specialize (B2 Hm) as [[q' Hq'] Hx'].
    set (l := match p_strat p with Fixed => p_fixed p | _ => Z.of_nat n end) in *.
    assert (q = q') by nia. subst. lia.
  - specialize (A3 Hm). specialize (B3 Hm). lia.
Qed.
Print Assumptions C06_target_unique.

Theorem C06_padded_length : forall target p e r,
  p_dir p <> PUnknown -> padded target p e r -> length (en_ids r) = Nat.max (length (en_ids e)) target.
Proof.
  intros target p e r Hd H. inversion H as [? ? ? A1 A2 A3 A4 A5 A6 A7 AO]; subst. rewrite A1, padded_col_length.
  destruct (p_dir p); [lia|lia|contradiction].
Qed.
Print Assumptions C06_padded_length.

Example C06_witness :
  exists r, pad_encoding (mkPad PLeft Fixed 5 7 9 (str "[PAD]") 4) (sample 3) = Ok r /\
            en_ids r = [7; 7; 7; 7; 7; 100; 101; 102]%Z /\ en_amask r = [0; 0; 0; 0; 0; 1; 1; 1]%Z.
Proof. eexists; split; [vm_compute; reflexivity | split; reflexivity]. Qed.

(** C07. *)
Theorem C07_padding_idempotent : forall p e r,
  int32 (p_multiple p) -> int32 (p_fixed p) -> (Z.of_nat (length (en_ids e)) < 2 ^ 31)%Z -> p_dir p <> PUnknown ->
  (0 <= match p_strat p with Fixed => p_fixed p | _ => Z.of_nat (length (en_ids e)) end)%Z ->
  pad_encoding p e = Ok r -> pad_encoding p r = Ok r.
Proof. exact pad_idempotent. Qed.
Print Assumptions C07_padding_idempotent.

Theorem C07_padding_noop : forall p e target,
  int32 (p_multiple p) -> int32 (p_fixed p) -> (Z.of_nat (length (en_ids e)) < 2 ^ 31)%Z ->
  (0 <= match p_strat p with Fixed => p_fixed p | _ => Z.of_nat (length (en_ids e)) end)%Z ->
  is_pad_target p (length (en_ids e)) target -> target <= length (en_ids e) ->
  Forall (fun o => target <= length (en_ids o) /\ en_overflowing o = []) (en_overflowing e) ->
  pad_encoding p e = Ok e.
Proof. exact pad_noop. Qed.
Print Assumptions C07_padding_noop.

Example C07_witness :
  is_pad_target (mkPad PRight BatchLongest 0 0 0 [] 4) 8 8 /\ ~ is_pad_target (mkPad PRight BatchLongest 0 0 0 [] 4) 7 7.
Proof.
  unfold is_pad_target; cbn. split.
  - repeat split; try lia. exists 2%Z; reflexivity.
  - intros (_ & H & _). destruct (H ltac:(lia)) as [[q Hq] _]. lia.
Qed.

(** C08. *)
Theorem C08_negative_target_rejected : forall p e,
  p_strat p = Fixed -> (p_fixed p < 0)%Z -> int32 (p_fixed p) -> p_dir p <> PUnknown ->
  (Z.of_nat (length (en_ids e)) < 2 ^ 31)%Z ->
  Forall (fun o => en_overflowing o = [] /\ (Z.of_nat (length (en_ids o)) < 2 ^ 31)%Z) (en_overflowing e) ->
  pad_encoding p e = Throw LengthError.
Proof. exact pad_negative. Qed.
Print Assumptions C08_negative_target_rejected.

Example C08_witness : pad_encoding (mkPad PRight Fixed (-1) 0 0 [] 0) (sample 2) = Throw LengthError.
Proof. vm_compute; reflexivity. Qed.

(** C09. Refuted: each added position gets word index 0; C06 ([padded]) fixes the exact values. *)
Theorem C09_pad_words_refuted :
  exists p e r, pad_encoding p e = Ok r /\ en_words e = [Some 0] /\ en_words r = [Some 0; Some 0; Some 0].
Proof. exists (mkPad PRight Fixed 3 0 0 [] 0), (sample 1). eexists. repeat split; vm_compute; reflexivity. Qed.
Print Assumptions C09_pad_words_refuted.

Theorem C09_pad_words : forall target p e r,
  padded target p e r -> p_dir p <> PUnknown ->
  exists before after, en_words r = before ++ en_words e ++ after /\
    length before + length after = target - length (en_ids e) /\ Forall (eq (Some 0)) (before ++ after).
Proof.
  intros target p e r H Hd. inversion H as [? ? ? A1 A2 A3 A4 A5 A6 A7 AO]; subst. rewrite A4.
  assert (Hr : forall q, Forall (eq (Some 0)) (repeat (Some 0) q)) by (intros q; induction q; constructor; auto).
  destruct (p_dir p); [| |contradiction]; cbn [padded_col].
  - exists [], (repeat (Some 0) (target - length (en_ids e))). rewrite repeat_length. split; [reflexivity|]. split; [cbn; lia | apply Hr].
  - exists (repeat (Some 0) (target - length (en_ids e))), []. rewrite app_nil_r, repeat_length, app_nil_r.
    split; [reflexivity|]. split; [cbn; lia | apply Hr].
Qed.
Print Assumptions C09_pad_words.
