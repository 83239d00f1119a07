From Verif Require Import Base BaseFacts Common Utils Spec EncFacts UtilsProofs.
From Coq Require Import ZifyBool ZifyNat.

(** ** Termination of truncation *)
Lemma zslice_not_diverge {A} (l : list A) a b : zslice l a b <> Diverge.
Proof. unfold zslice, vslice. destruct (0 <=? a)%Z; [destruct (_ && _)|]; discriminate. Qed.

Lemma slice_enc_not_diverge e r : slice_enc e r <> Diverge.
Proof.
  destruct r as [a b]; unfold slice_enc.
  repeat match goal with
         | |- bind (zslice ?l a b) _ <> _ =>
           let H := fresh in pose proof (zslice_not_diverge l a b) as H; destruct (zslice l a b); cbn [bind];
           try discriminate; try contradiction
         end.
Qed.

Lemma mapM_not_diverge {A B} (f : A -> res B) l : (forall x, f x <> Diverge) -> mapM f l <> Diverge.
Proof.
  intros H; induction l as [|x l IH]; cbn [mapM]; [discriminate|].
  specialize (H x). destruct (f x); cbn [bind]; try discriminate; try contradiction.
  destruct (mapM f l); cbn [bind]; try discriminate; contradiction.
Qed.

Lemma slices_not_diverge e ranges :
  match ranges with
  | [] => Undef OobIndex
  | first :: others => e0 <- slice_enc e first ;; ov <- mapM (slice_enc e) others ;; Ok (set_overflowing e0 ov)
  end <> Diverge.
Proof.
  destruct ranges as [|r others]; [discriminate|].
  pose proof (slice_enc_not_diverge e r). destruct (slice_enc e r); cbn [bind]; try discriminate; try contradiction.
  pose proof (mapM_not_diverge (slice_enc e) others (slice_enc_not_diverge e)).
  destruct (mapM (slice_enc e) others); cbn [bind]; try discriminate; contradiction.
Qed.

Lemma truncation_inactive fuel t e :
  (Z.of_nat (length (en_ids e)) < 2 ^ 31)%Z -> int32 (t_max t) ->
  ~ truncation_active t (length (en_ids e)) ->
  truncate_encoding fuel t e = Ok (if (t_max t =? 0)%Z && negb (is_nil (en_ids e)) then with_overflow e [] else e).
Proof.
  intros Hn Hm Ha. unfold truncate_encoding.
  destruct (Z.eqb_spec (t_max t) 0) as [H0|H0]; cbn [andb].
  - unfold truncate. destruct (en_ids e) as [|x l] eqn:Ei; cbn [length is_nil negb]; [reflexivity|].
    replace (Z.of_nat (S (length l)) <=? 0)%Z with false by lia. cbn [Z.eqb]. reflexivity.
  - destruct (Z.leb_spec (Z.of_nat (length (en_ids e))) (size_t_of_int (t_max t))) as [Hle|Hgt]; [reflexivity|].
    assert (0 < t_max t)%Z.
    { destruct (Z.ltb_spec 0 (t_max t)); [assumption|]. exfalso. rewrite size_t_neg in Hgt; unfold int32 in *; unpow; lia. }
    rewrite size_t_id in Hgt by (unfold int32 in *; unpow; lia).
    destruct (t_strat t) eqn:Es; try reflexivity; exfalso; apply Ha; split; auto; lia.
Qed.

Theorem truncation_diverges t e :
  (Z.of_nat (length (en_ids e)) < 2 ^ 31)%Z -> truncation_loops t (length (en_ids e)) ->
  forall fuel, truncate_encoding fuel t e = Diverge.
Proof.
  intros Hn [[Hs Hm] Hd] fuel. rewrite truncate_encoding_active by assumption. rewrite truncate_unfold by assumption.
  destruct Hd as [[-> ->] | [-> Ho]].
  - rewrite Z.sub_diag, right_diverges by lia. reflexivity.
  - rewrite left_diverges by lia. reflexivity.
Qed.

Theorem truncation_terminates t e fuel :
  (Z.of_nat (length (en_ids e)) < 2 ^ 31)%Z -> int32 (t_max t) -> int32 (t_stride t) ->
  ~ truncation_loops t (length (en_ids e)) -> length (en_ids e) + 2 <= fuel ->
  truncate_encoding fuel t e <> Diverge.
Proof.
  intros Hn Him His Hl Hf.
  destruct (Z.ltb_spec 0 (t_max t)) as [Hpos|Hneg].
  2:{ rewrite truncation_inactive; [discriminate | assumption | assumption | intros [_ H]; lia]. }
  destruct (Z.ltb_spec (t_max t) (Z.of_nat (length (en_ids e)))) as [Hlt|Hge].
  2:{ rewrite truncation_inactive; [discriminate | assumption | assumption | intros [_ H]; lia]. }
  assert (Hs : truncating (t_strat t) \/ ~ truncating (t_strat t)).
  { unfold truncating. destruct (t_strat t); auto; right; intros [H|H]; discriminate. }
  destruct Hs as [Hs|Hs].
  2:{ rewrite truncation_inactive; [discriminate | assumption | assumption | intros [H _]; contradiction]. }
  rewrite truncate_encoding_active by (try assumption; lia). rewrite truncate_unfold by lia.
  destruct (t_dir t) eqn:Ed.
  - assert (t_stride t <> t_max t) by (intros E; apply Hl; split; [split; [exact Hs|lia] | left; auto]).
    destruct (Z.ltb_spec (t_max t - t_stride t) 0) as [Hn0|Hp0].
    + rewrite right_negative by (unfold int32 in *; unpow; lia). exact (slices_not_diverge e [(0, t_max t)%Z]).
    + destruct (right_terminates fuel (Z.of_nat (length (en_ids e))) (t_max t) (t_max t - t_stride t) 0 false)
        as [l Hr]; try (unfold int32 in *; unpow; lia).
      rewrite Hr. cbn [bind]. apply slices_not_diverge.
  - assert (2 <= t_max t - t_stride t)%Z.
    { destruct (Z.leb_spec 2 (t_max t - t_stride t)); [assumption|].
      exfalso; apply Hl; split; [split; [exact Hs|lia] | right; split; [exact Ed | lia]]. }
    destruct (left_terminates fuel (t_max t) (t_max t - t_stride t) (Z.of_nat (length (en_ids e)) - 1) false)
      as [l Hr]; try lia.
    rewrite Hr. cbn [bind]. apply slices_not_diverge.
  - discriminate.
Qed.

(** ** Length bound *)
Lemma right_range_bound fuel n maxl o start b l :
  (0 <= maxl)%Z -> right_ranges fuel n maxl o start b = Ok l -> Forall (fun r => snd r - fst r <= maxl)%Z l.
Proof.
  intros Hm; revert start b l; induction fuel as [|f IH]; intros start b l H; cbn [right_ranges] in H; [discriminate|].
  destruct (size_t_of_int start <? n)%Z; [|inversion H; constructor].
  destruct b; [eapply IH; exact H|].
  apply bind_ok in H as [rest [Hr H]]. inversion H; subst. constructor; [cbn [fst snd]; lia | eapply IH; exact Hr].
Qed.

Lemma left_range_bound fuel maxl o stop b l :
  (0 <= maxl)%Z -> left_ranges fuel maxl o stop b = Ok l -> Forall (fun r => snd r - fst r <= maxl)%Z l.
Proof.
  intros Hm; revert stop b l; induction fuel as [|f IH]; intros stop b l H; cbn [left_ranges] in H; [discriminate|].
  destruct (0 <=? stop)%Z; [|inversion H; constructor].
  destruct ((_ <? _)%Z && negb b) eqn:Ec; [|eapply IH; exact H].
  apply bind_ok in H as [rest [Hr H]]. inversion H; subst. constructor; [|eapply IH; exact Hr].
  cbn [fst snd]. destruct (Z.ltb_spec (stop + 1) maxl); lia.
Qed.

Lemma zslice_cut {A} (l : list A) a b r :
  zslice l a b = Ok r -> (0 <= a)%Z /\ Z.to_nat a <= Z.to_nat b /\ Z.to_nat b <= length l /\ r = cut l (Z.to_nat a) (Z.to_nat b).
Proof.
  unfold zslice, vslice. destruct (Z.leb_spec 0 a); [|discriminate].
  destruct ((_ <=? _) && _) eqn:E; [|discriminate]. apply andb_prop in E as [E1 E2].
  intros H'; inversion H'; subst. repeat split; try lia. 
Qed.

Lemma slice_enc_window e a b r :
  slice_enc e (a, b) = Ok r ->
  (0 <= a)%Z /\ Z.to_nat a <= Z.to_nat b /\ Z.to_nat b <= length (en_ids e) /\ r = window e (Z.to_nat a) (Z.to_nat b).
Proof.
  unfold slice_enc. intros H.
  repeat (apply bind_ok in H; let x := fresh "x" in let Hx := fresh "Hx" in destruct H as [x [Hx H]];
          apply zslice_cut in Hx; destruct Hx as (? & ? & ? & ->)).
  inversion H; subst. repeat split; assumption.
Qed.

Theorem truncation_bound fuel t e r :
  (Z.of_nat (length (en_ids e)) < 2 ^ 31)%Z -> truncation_active t (length (en_ids e)) ->
  truncate_encoding fuel t e = Ok r ->
  (Z.of_nat (length (en_ids r)) <= t_max t)%Z /\
  Forall (fun o => (Z.of_nat (length (en_ids o)) <= t_max t)%Z /\ en_overflowing o = []) (en_overflowing r).
Proof.
  intros Hn [Hs Hm] H. rewrite truncate_encoding_active in H by assumption. rewrite truncate_unfold in H by assumption.
  apply bind_ok in H as [ranges [Hr H]].
  assert (Hb : Forall (fun r => snd r - fst r <= t_max t)%Z ranges).
  { destruct (t_dir t).
    - eapply right_range_bound; [|exact Hr]; lia.
    - eapply left_range_bound; [|exact Hr]; lia.
    - inversion Hr; constructor. }
  destruct ranges as [|[a b] others]; [discriminate|].
  apply bind_ok in H as [e0 [He0 H]]. apply bind_ok in H as [ov [Hov H]]. inversion H; subst; clear H.
  inversion Hb as [|? ? Hb1 Hb2]; subst.
  apply slice_enc_window in He0 as (Ha & Hab & Hbl & ->). cbn [fst snd] in Hb1.
  split.
  - cbn [set_overflowing en_ids]. rewrite window_length by exact Hbl. lia.
  - cbn [set_overflowing en_overflowing]. apply mapM_ok in Hov. clear Hr Hb.
    induction Hov as [|[a' b'] y others' ov' Hx Hov IH]; constructor.
    + inversion Hb2; subst. apply slice_enc_window in Hx as (? & ? & ? & ->). cbn [fst snd] in *.
      rewrite window_length by assumption. split; [lia | reflexivity].
    + apply IH; inversion Hb2; assumption.
Qed.

Lemma truncation_active_dec t n : truncation_active t n \/ ~ truncation_active t n.
Proof.
  unfold truncation_active.
  destruct (Z.ltb_spec 0 (t_max t)), (Z.ltb_spec (t_max t) (Z.of_nat n)), (t_strat t);
    first [left; split; [auto; fail | lia] | right; intros [[?|?] ?]; first [discriminate | lia]].
Qed.

Theorem truncation_parallel fuel t e r :
  (Z.of_nat (length (en_ids e)) < 2 ^ 31)%Z -> int32 (t_max t) -> parallel e ->
  truncate_encoding fuel t e = Ok r -> parallel r.
Proof.
  intros Hn Hi Hp H. inversion Hp as [? Hf Hov]; subst.
  pose proof (truncation_active_dec t (length (en_ids e))) as Hd.
  destruct Hd as [[Hs Hm]|Hd].
  - rewrite truncate_encoding_active in H by assumption. rewrite truncate_unfold in H by assumption.
    apply bind_ok in H as [ranges [Hr H]]. destruct ranges as [|[a b] others]; [discriminate|].
    apply bind_ok in H as [e0 [He0 H]]. apply bind_ok in H as [ov [Hov' H]]. inversion H; subst; clear H.
    apply slice_enc_window in He0 as (Ha & Hab & Hbl & ->).
    apply with_overflow_parallel; [apply window_flat; assumption|].
    apply mapM_ok in Hov'. clear Hr. induction Hov' as [|[a' b'] y others' ov' Hx Hov' IH]; constructor; [|exact IH].
    apply slice_enc_window in Hx as (? & ? & ? & ->).
    constructor; [apply window_flat; assumption | constructor].
  - rewrite truncation_inactive in H by assumption. inversion H; subst.
    destruct ((t_max t =? 0)%Z && _); [|exact Hp]. apply with_overflow_parallel; [exact Hf | constructor].
Qed.

(** ** Unknown direction *)
Theorem truncation_unknown_direction fuel t e :
  (Z.of_nat (length (en_ids e)) < 2 ^ 31)%Z -> truncation_active t (length (en_ids e)) -> t_dir t = TUnknown ->
  truncate_encoding fuel t e = Undef OobIndex.
Proof.
  intros Hn [Hs Hm] Hd. rewrite truncate_encoding_active by assumption. rewrite truncate_unfold by assumption.
  rewrite Hd. reflexivity.
Qed.

(** ** Padding *)
Lemma pad_unfold target p e :
  pad target p e = (ov <- mapM (pad target p) (en_overflowing e) ;; pad_one target p (set_overflowing e ov)).
Proof.
  destruct e as [i t k w o s m ov]. cbn [pad en_overflowing].
  match goal with |- bind (?f ov) _ = _ => assert (H : f ov = mapM (pad target p) ov) end.
  { induction ov as [|x ov IH]; cbn [mapM]; [reflexivity|]. rewrite IH. reflexivity. }
  rewrite H. reflexivity.
Qed.

Lemma pad_target_is p e :
  int32 (p_multiple p) ->
  (0 <= match p_strat p with Fixed => p_fixed p | _ => Z.of_nat (length (en_ids e)) end)%Z ->
  exists target : nat, pad_target p e = Z.of_nat target /\ is_pad_target p (length (en_ids e)) target.
Proof.
  intros Hi H0. unfold pad_target, is_pad_target.
  set (l := match p_strat p with Fixed => p_fixed p | _ => Z.of_nat (length (en_ids e)) end) in *.
  destruct (Z.ltb_spec 0 (p_multiple p)) as [Hm|Hm]; cbn [andb].
  - rewrite Z.rem_mod_nonneg by lia.
    assert (Hb := Z.mod_pos_bound l (p_multiple p) Hm).
    destruct (Z.ltb_spec 0 (l mod p_multiple p)) as [Hr|Hr].
    + exists (Z.to_nat (l + (p_multiple p - l mod p_multiple p))). rewrite Z2Nat.id by lia. split; [reflexivity|].
      split; [lia|]. split; [|lia]. intros _. split; [|lia].
      exists (l / p_multiple p + 1)%Z. rewrite (Z.div_mod l (p_multiple p)) at 1 by lia. ring.
    + exists (Z.to_nat l). rewrite Z2Nat.id by lia. split; [reflexivity|]. split; [lia|]. split; [|lia].
      intros _. split; [|lia]. apply Z.mod_divide; lia.
  - exists (Z.to_nat l). rewrite Z2Nat.id by lia. split; [reflexivity|]. split; [lia|]. split; [lia|]. intros _; reflexivity.
Qed.

(** spec-level: the padded encoding exists and is what pad returns *)
Lemma pad_one_spec target p e :
  (Z.of_nat target < 2 ^ 64)%Z ->
  exists r, pad_one (Z.of_nat target) p e = Ok r /\ en_overflowing r = en_overflowing e /\
    let k := target - length (en_ids e) in
    en_ids r = padded_col (p_dir p) k (p_id p) (en_ids e) /\
    en_type_ids r = padded_col (p_dir p) k (p_type_id p) (en_type_ids e) /\
    en_tokens r = padded_col (p_dir p) k (p_token p) (en_tokens e) /\
    en_words r = padded_col (p_dir p) k (Some 0) (en_words e) /\
    en_offsets r = padded_col (p_dir p) k (0, 0) (en_offsets e) /\
    en_smask r = padded_col (p_dir p) k 1%Z (en_smask e) /\
    en_amask r = padded_col (p_dir p) k 0%Z (en_amask e).
Proof.
  intros Ht. unfold pad_one. rewrite size_t_id by lia.
  destruct (Z.leb_spec (Z.of_nat target) (Z.of_nat (length (en_ids e)))) as [Hle|Hgt].
  - exists e. split; [reflexivity|]. split; [reflexivity|]. cbn zeta.
    replace (target - length (en_ids e)) with 0 by lia.
    unfold padded_col; destruct (p_dir p); cbn [repeat app]; rewrite ?app_nil_r; repeat split; reflexivity.
  - replace (Z.of_nat target - Z.of_nat (length (en_ids e)) <? 0)%Z with false by lia.
    replace (Z.to_nat (Z.of_nat target - Z.of_nat (length (en_ids e)))) with (target - length (en_ids e)) by lia.
    cbn zeta. unfold padded_col.
    destruct (p_dir p); eexists; (split; [reflexivity|]); (split; [reflexivity|]); repeat split; reflexivity.
Qed.

Lemma pad_spec target p e :
  (Z.of_nat target < 2 ^ 64)%Z -> exists r, pad (Z.of_nat target) p e = Ok r /\ padded target p e r.
Proof.
  intros Ht. induction e as [e IH] using encoding_induction.
  assert (Hov : exists ov, mapM (pad (Z.of_nat target) p) (en_overflowing e) = Ok ov /\
                           Forall2 (padded target p) (en_overflowing e) ov).
  { induction IH as [|x l [r [Hr Hp]] Hl [ov [Ho Hf]]].
    - exists []. split; [reflexivity | constructor].
    - exists (r :: ov). cbn [mapM]. rewrite Hr. cbn [bind]. rewrite Ho. split; [reflexivity | constructor; assumption]. }
  destruct Hov as [ov [Ho Hf]]. rewrite pad_unfold, Ho. cbn [bind].
  destruct (pad_one_spec target p (set_overflowing e ov) Ht) as (r & Hr & Hro & H1 & H2 & H3 & H4 & H5 & H6 & H7).
  exists r. split; [exact Hr|]. constructor; try assumption. rewrite Hro. exact Hf.
Qed.

Lemma padded_col_length {A} d k (x : A) l : length (padded_col d k x l) = match d with PUnknown => length l | _ => k + length l end.
Proof. destruct d; cbn [padded_col]; rewrite ?app_length, ?repeat_length; lia. Qed.

Lemma padded_fun target p e r1 r2 : padded target p e r1 -> padded target p e r2 -> r1 = r2.
Proof.
  revert r1 r2. induction e as [e IH] using encoding_induction. intros r1 r2 H1 H2.
  inversion H1 as [? ? ? A1 A2 A3 A4 A5 A6 A7 AO]; subst. inversion H2 as [? ? ? B1 B2 B3 B4 B5 B6 B7 BO]; subst.
  assert (en_overflowing r1 = en_overflowing r2) as HO.
  { clear - IH AO BO. revert BO. generalize (en_overflowing r2) as o2. induction AO as [|x y l l' Hxy Hl IHl]; intros o2 BO.
    - inversion BO; reflexivity.
    - inversion BO as [|? y2 ? o2' Hxy2 Hl2]; subst. inversion IH; subst. f_equal; auto. }
  destruct r1 as [a1 a2 a3 a4 a5 a6 a7 a8], r2 as [b1 b2 b3 b4 b5 b6 b7 b8]; cbn [en_ids en_type_ids en_tokens en_words en_offsets en_smask en_amask en_overflowing] in *.
  rewrite A1, A2, A3, A4, A5, A6, A7, B1, B2, B3, B4, B5, B6, B7, HO. reflexivity.
Qed.

Theorem pad_encoding_spec p e :
  int32 (p_multiple p) -> int32 (p_fixed p) -> (Z.of_nat (length (en_ids e)) < 2 ^ 31)%Z ->
  (0 <= match p_strat p with Fixed => p_fixed p | _ => Z.of_nat (length (en_ids e)) end)%Z ->
  exists target r, is_pad_target p (length (en_ids e)) target /\ pad_encoding p e = Ok r /\ padded target p e r.
Proof.
  intros Hi Hf Hn H0. destruct (pad_target_is p e Hi H0) as (target & Ht & Hit).
  assert (Z.of_nat target < 2 ^ 64)%Z.
  { destruct Hit as (_ & Ha & Hb). unfold int32 in *. destruct (Z.ltb_spec 0 (p_multiple p)) as [Hm|Hm].
    - specialize (Ha Hm) as [_ Ha]. destruct (p_strat p); unpow; lia.
    - specialize (Hb Hm). destruct (p_strat p); unpow; lia. }
  destruct (pad_spec target p e H) as (r & Hr & Hp).
  exists target, r. unfold pad_encoding. rewrite Ht. auto.
Qed.

Theorem pad_negative p e :
  p_strat p = Fixed -> (p_fixed p < 0)%Z -> int32 (p_fixed p) -> p_dir p <> PUnknown ->
  (Z.of_nat (length (en_ids e)) < 2 ^ 31)%Z ->
  Forall (fun o => en_overflowing o = [] /\ (Z.of_nat (length (en_ids o)) < 2 ^ 31)%Z) (en_overflowing e) ->
  pad_encoding p e = Throw LengthError.
Proof.
  intros Hs Hneg Hi Hd Hn Hov. unfold pad_encoding.
  assert (Ht : pad_target p e = p_fixed p).
  { unfold pad_target. rewrite Hs. destruct (Z.ltb_spec 0 (p_multiple p)) as [Hm|Hm]; cbn [andb]; [|reflexivity].
    assert (Z.rem (p_fixed p) (p_multiple p) <= 0)%Z.
    { replace (p_fixed p) with (- (- p_fixed p))%Z by lia. rewrite Z.rem_opp_l by lia.
      pose proof (Z.rem_nonneg (- p_fixed p) (p_multiple p)). lia. }
    replace (0 <? Z.rem (p_fixed p) (p_multiple p))%Z with false by lia. reflexivity. }
  rewrite Ht.
  assert (Hone : forall x, (Z.of_nat (length (en_ids x)) < 2 ^ 31)%Z -> pad_one (p_fixed p) p x = Throw LengthError).
  { intros x Hx. unfold pad_one. rewrite size_t_neg by (unfold int32 in *; unpow; lia).
    replace (p_fixed p + 2 ^ 64 <=? Z.of_nat (length (en_ids x)))%Z with false by (unfold int32 in *; unpow; lia).
    replace (p_fixed p - Z.of_nat (length (en_ids x)) <? 0)%Z with true by lia.
    destruct (p_dir p); [reflexivity | reflexivity | contradiction]. }
  rewrite pad_unfold. destruct (en_overflowing e) as [|o ov] eqn:Eo; cbn [mapM bind].
  - apply Hone. exact Hn.
  - inversion Hov as [|? ? [Ho Hol] _]; subst. rewrite pad_unfold, Ho. cbn [mapM bind]. rewrite Hone by exact Hol. reflexivity.
Qed.

Lemma padded_id target p e :
  (forall x y, en_overflowing x = en_overflowing y -> True) ->
  length (en_ids e) >= target ->
  Forall (fun o => padded target p o o) (en_overflowing e) -> padded target p e e.
Proof.
  intros _ Hl Ho.
  assert (Hk : target - length (en_ids e) = 0) by lia.
  constructor; rewrite ?Hk; unfold padded_col; try (destruct (p_dir p); cbn [repeat app]; rewrite ?app_nil_r; reflexivity).
  induction Ho; constructor; assumption.
Qed.

Lemma padded_again target p e r : p_dir p <> PUnknown -> padded target p e r -> padded target p r r.
Proof.
  intros Hd. revert r; induction e as [e IH] using encoding_induction. intros r H.
  inversion H as [? ? ? A1 A2 A3 A4 A5 A6 A7 AO]; subst. apply padded_id; [auto| |].
  - rewrite A1, padded_col_length. destruct (p_dir p); [lia|lia|contradiction].
  - clear - IH AO. induction AO as [|x y l l' Hxy Hl IHl]; [constructor|]. inversion IH; subst. constructor; auto.
Qed.

Theorem pad_idempotent p e r :
  int32 (p_multiple p) -> int32 (p_fixed p) -> (Z.of_nat (length (en_ids e)) < 2 ^ 31)%Z -> p_dir p <> PUnknown ->
  (0 <= match p_strat p with Fixed => p_fixed p | _ => Z.of_nat (length (en_ids e)) end)%Z ->
  pad_encoding p e = Ok r -> pad_encoding p r = Ok r.
Proof.
  intros Hi Hf Hn Hd H0 H.
  destruct (pad_target_is p e Hi H0) as (target & Ht & Hit).
  assert (Hb : (Z.of_nat target < 2 ^ 64)%Z).
  { destruct Hit as (_ & Ha & Hb). unfold int32 in *. destruct (Z.ltb_spec 0 (p_multiple p)) as [Hm|Hm].
    - specialize (Ha Hm) as [_ Ha]. destruct (p_strat p); unpow; lia.
    - specialize (Hb Hm). destruct (p_strat p); unpow; lia. }
  unfold pad_encoding in H. rewrite Ht in H.
  destruct (pad_spec target p e Hb) as (r' & Hr' & Hp). rewrite Hr' in H. inversion H; subst r'.
  pose proof (padded_again target p e r Hd Hp) as Hag.
  assert (Ht2 : pad_target p r = Z.of_nat target).
  { unfold pad_target in *. destruct (p_strat p) eqn:Es; try exact Ht.
    all: assert (Hl : length (en_ids r) = target) by
        (inversion Hp as [? ? ? A1 A2 A3 A4 A5 A6 A7 AO]; subst; rewrite A1, padded_col_length;
         destruct Hit as (Hle & _); rewrite Es in Hle; destruct (p_dir p); [lia|lia|contradiction]).
    all: rewrite Hl; destruct Hit as (_ & Ha & _); rewrite Es in Ha;
         destruct (Z.ltb_spec 0 (p_multiple p)) as [Hm|Hm]; cbn [andb]; [|reflexivity];
         specialize (Ha Hm) as [Hdiv _];
         rewrite Z.rem_mod_nonneg by lia; apply Z.mod_divide in Hdiv; [|lia]; rewrite Hdiv; reflexivity. }
  unfold pad_encoding. rewrite Ht2. destruct (pad_spec target p r Hb) as (r2 & Hr2 & Hp2).
  rewrite Hr2. f_equal. eapply padded_fun; eassumption.
Qed.

Theorem pad_noop p e target :
  int32 (p_multiple p) -> int32 (p_fixed p) -> (Z.of_nat (length (en_ids e)) < 2 ^ 31)%Z ->
  (0 <= match p_strat p with Fixed => p_fixed p | _ => Z.of_nat (length (en_ids e)) end)%Z ->
  is_pad_target p (length (en_ids e)) target -> target <= length (en_ids e) ->
  Forall (fun o => target <= length (en_ids o) /\ en_overflowing o = []) (en_overflowing e) ->
  pad_encoding p e = Ok e.
Proof.
  intros Hi Hf Hn H0 Hit Hle Hov.
  destruct (pad_encoding_spec p e Hi Hf Hn H0) as (t' & r & Hit' & Hr & Hp).
  assert (t' = target).
  { destruct Hit as (Ha1 & Ha2 & Ha3), Hit' as (Hb1 & Hb2 & Hb3). destruct (Z.ltb_spec 0 (p_multiple p)) as [Hm|Hm].
    - specialize (Ha2 Hm) as [[q Hq] Hx]. specialize (Hb2 Hm) as [[q' Hq'] Hx'].
      set (l := match p_strat p with Fixed => p_fixed p | _ => Z.of_nat (length (en_ids e)) end) in *.
      assert (q = q') by nia. subst. lia.
    - specialize (Ha3 Hm). specialize (Hb3 Hm). lia. }
  subst t'. rewrite Hr. f_equal. apply (padded_fun target p e); [exact Hp|].
  apply padded_id; [auto | exact Hle |].
  eapply Forall_impl; [|exact Hov]. intros o [Ho1 Ho2]. apply padded_id; [auto | exact Ho1 | rewrite Ho2; constructor].
Qed.

Theorem pad_parallel p e r : 
  parallel e -> pad_encoding p e = Ok r -> parallel r.
Proof.
  unfold pad_encoding. generalize (pad_target p e) as tg. intros tg. revert r.
  induction e as [e IH] using encoding_induction. intros r Hp H. rewrite pad_unfold in H.
  apply bind_ok in H as [ov [Hov H]]. inversion Hp as [? Hf Hfo]; subst.
  assert (Forall parallel ov) as Hpo.
  { apply mapM_ok in Hov. clear - IH Hov Hfo. induction Hov as [|x y l l' Hx Hl IHl]; [constructor|].
    inversion IH; inversion Hfo; subst. constructor; auto. }
  assert (parallel (set_overflowing e ov)) as Hps by (constructor; assumption).
  unfold pad_one in H. destruct (size_t_of_int tg <=? _)%Z; [inversion H; subst; exact Hps|].
  destruct Hf as (H1 & H2 & H3 & H4 & H5 & H6).
  destruct (p_dir p); [destruct (_ <? 0)%Z; [discriminate|]..|]; inversion H; subst; try exact Hps.
  all: constructor; [|exact Hpo]; unfold flat_parallel, pad_left, pad_right;
    cbn [en_ids en_type_ids en_tokens en_words en_offsets en_smask en_amask set_overflowing];
    rewrite !app_length, !repeat_length; repeat split; lia.
Qed.
