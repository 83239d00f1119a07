(** C100: the stages after tokenization fail in exactly three ways. [truncation_active], [truncation_loops], [parallel] are in Spec.v, [specials_ok] in PostSpec.v, [bare] in RefSpec.v, [cuttable] and [keeps_characters] in CutSpec.v. *)
From Coq Require Import ZifyBool ZifyNat ZifyN.
From Verif Require Import Base Unicode Common Utils PostProcessor Decoder Normalizer PreTokenizer WordPiece Bpe AddedVocab Tokenizer BaseFacts Spec EncFacts UtilsProofs PadProofs PropsUtils PostSpec PostProofs TzSpec TzProofs PreSpec RefSpec CutSpec PropsCut BpeSpec BpeRefSpec PropsBpeText UnkSpec OutProofs PropsOutcome.

Lemma right_inside f n maxl o : (0 < maxl)%Z -> (0 < o < 2 ^ 33)%Z -> (0 <= n < 2 ^ 31)%Z -> forall st (seen : bool) l, (0 <= st <= n + o)%Z -> right_ranges f n maxl o st seen = Ok l ->
  Forall (fun r => 0 <= fst r <= snd r /\ snd r <= n)%Z l /\ (seen = false -> (st < n)%Z -> l <> []).
Proof.
  intros Hm Ho Hn. induction f as [|f IH]; intros st seen l Hs H; cbn [right_ranges] in H; [discriminate|]. rewrite size_t_id in H by (unpow; lia).
  destruct (Z.ltb_spec st n) as [Hlt|Hge]; [|injection H as <-; split; [constructor | intros; lia]]. destruct seen; [split; [eapply IH; [|exact H]; lia | discriminate]|]. cbv zeta in H.
  apply bind_ok in H as (rest & Hr & H). injection H as <-. split; [|discriminate]. constructor; [cbn; lia|]. eapply IH; [|exact Hr]. lia.
Qed.
Lemma left_inside f n maxl o : (0 < maxl)%Z -> (2 <= o)%Z -> forall st (seen : bool) l, (st < n)%Z -> left_ranges f maxl o st seen = Ok l ->
  Forall (fun r => 0 <= fst r <= snd r /\ snd r <= n)%Z l /\ (seen = false -> (0 <= st)%Z -> l <> []).
Proof.
  intros Hm Ho. induction f as [|f IH]; intros st seen l Hs H; cbn [left_ranges] in H; [discriminate|].
  destruct (Z.leb_spec 0 st) as [H0|H0]; [|injection H as <-; split; [constructor | intros; lia]]. cbv zeta in H.
  remember (if (st + 1 <? maxl)%Z then 0%Z else (st + 1 - maxl)%Z) as start eqn:Es. assert (Hst : (0 <= start < st + 1)%Z) by (subst start; destruct (Z.ltb_spec (st + 1) maxl); lia).
  replace (start <? st + 1)%Z with true in H by lia. cbn [andb] in H. destruct seen; cbn [negb] in H.
  - split; [eapply IH; [|exact H]; lia | discriminate].
  - apply bind_ok in H as (rest & Hr & H). injection H as <-. split; [|discriminate]. constructor; [cbn; lia|]. eapply IH; [|exact Hr]. lia.
Qed.
Lemma zslice_ok {A} (l : list A) n a b : length l = n -> (0 <= a <= b /\ b <= Z.of_nat n)%Z -> exists r, zslice l a b = Ok r.
Proof. intros Hl H. unfold zslice, vslice. replace (0 <=? a)%Z with true by lia. replace ((Z.to_nat a <=? Z.to_nat b) && (Z.to_nat b <=? length l)) with true by lia. eauto. Qed.
Lemma slice_ok e r : flat_parallel e -> (0 <= fst r <= snd r /\ snd r <= Z.of_nat (length (en_ids e)))%Z -> exists x, slice_enc e r = Ok x.
Proof.
  intros (H1 & H2 & H3 & H4 & H5 & H6) H. destruct r as [a b]. cbn [fst snd] in H. unfold slice_enc.
  destruct (zslice_ok (en_ids e) _ a b eq_refl H) as [? ->]. destruct (zslice_ok _ _ a b H1 H) as [? ->]. destruct (zslice_ok _ _ a b H2 H) as [? ->]. destruct (zslice_ok _ _ a b H3 H) as [? ->].
  destruct (zslice_ok _ _ a b H4 H) as [? ->]. destruct (zslice_ok _ _ a b H5 H) as [? ->]. destruct (zslice_ok _ _ a b H6 H) as [? ->]. cbn [bind]. eauto.
Qed.
Lemma slices_ok e l : flat_parallel e -> Forall (fun r => 0 <= fst r <= snd r /\ snd r <= Z.of_nat (length (en_ids e)))%Z l -> exists x, mapM (slice_enc e) l = Ok x.
Proof. intros Hf. induction 1 as [|r l Hr HL [x IH]]; [eexists; reflexivity|]. cbn [mapM]. destruct (slice_ok e r Hf Hr) as [y ->]. cbn [bind]. rewrite IH. cbn [bind]. eauto. Qed.

Lemma truncation_ok fuel t e : (Z.of_nat (length (en_ids e)) < 2 ^ 31)%Z -> int32 (t_max t) -> int32 (t_stride t) -> flat_parallel e -> ~ truncation_loops t (length (en_ids e)) ->
  ~ (truncation_active t (length (en_ids e)) /\ t_dir t = TUnknown) -> length (en_ids e) + 2 <= fuel -> exists r, truncate_encoding fuel t e = Ok r.
Proof.
  intros Hn Him His Hp Hl Hu Hf. destruct (truncation_active_dec t (length (en_ids e))) as [Ha|Ha]; [|rewrite truncation_inactive by assumption; eauto].
  destruct Ha as [Hs Hm]. rewrite truncate_encoding_active by assumption. rewrite truncate_unfold by assumption.
  assert (K : forall l, Forall (fun r => 0 <= fst r <= snd r /\ snd r <= Z.of_nat (length (en_ids e)))%Z l -> l <> [] ->
    exists r, match l with [] => Undef OobIndex | first :: others => e0 <- slice_enc e first ;; ov <- mapM (slice_enc e) others ;; Ok (set_overflowing e0 ov) end = Ok r).
  { intros [|x l] HF Hne; [contradiction|]. destruct (slice_ok e x Hp (Forall_inv HF)) as [y ->]. cbn [bind]. destruct (slices_ok e l Hp (Forall_inv_tail HF)) as [z ->]. cbn [bind]. eauto. }
  destruct (t_dir t) eqn:Ed; [| |exfalso; apply Hu; split; [split; assumption | reflexivity]].
  - assert (t_stride t <> t_max t) by (intros E; apply Hl; split; [split; [exact Hs|lia] | left; auto]).
    destruct (Z.ltb_spec (t_max t - t_stride t) 0) as [Hn0|Hp0].
    + rewrite right_negative by (unfold int32 in *; unpow; lia). cbn [bind]. apply (K [(0, t_max t)%Z]); [|discriminate]. constructor; [cbn; lia | constructor].
    + destruct (right_terminates fuel (Z.of_nat (length (en_ids e))) (t_max t) (t_max t - t_stride t) 0 false) as [l Hr]; try (unfold int32 in *; unpow; lia).
      destruct (right_inside fuel (Z.of_nat (length (en_ids e))) (t_max t) (t_max t - t_stride t) ltac:(lia) ltac:(unfold int32 in *; unpow; lia) ltac:(unpow; lia) 0%Z false l ltac:(lia) Hr) as [G1 G2].
      rewrite Hr. cbn [bind]. apply K; [exact G1 | apply G2; [reflexivity | lia]].
  - assert (2 <= t_max t - t_stride t)%Z.
    { destruct (Z.leb_spec 2 (t_max t - t_stride t)); [assumption|]. exfalso; apply Hl; split; [split; [exact Hs|lia] | right; split; [exact Ed | lia]]. }
    destruct (left_terminates fuel (t_max t) (t_max t - t_stride t) (Z.of_nat (length (en_ids e)) - 1) false) as [l Hr]; try lia.
    destruct (left_inside fuel (Z.of_nat (length (en_ids e))) (t_max t) (t_max t - t_stride t) ltac:(lia) ltac:(lia) (Z.of_nat (length (en_ids e)) - 1)%Z false l ltac:(lia) Hr) as [G1 G2].
    rewrite Hr. cbn [bind]. apply K; [exact G1 | apply G2; [reflexivity | lia]].
Qed.

Lemma process_ok p : forall e add, specials_ok p -> parallel e -> exists r, process p e add = Ok r.
Proof.
  induction p as [s sp|a tr|l HL] using post_processor_induction; intros e add Hs Hp.
  - eexists. reflexivity.
  - cbn [process]. unfold byte_level_process. destruct tr; [|eauto]. inversion Hp as [? Hf Hov]; subst. destruct (process_offsets_ok a e Hf) as (o & -> & _). cbn [bind]. cbn [set_offsets en_overflowing].
    assert (K : exists ov, mapM (process_offsets a) (en_overflowing e) = Ok ov).
    { induction Hov as [|x l Hx HL [ov IH]]; [eexists; reflexivity|]. cbn [mapM]. inversion Hx as [? Hfx _]; subst. destruct (process_offsets_ok a x Hfx) as (ox & -> & _). cbn [bind]. 
      assert (Hp' : parallel (with_overflow e l)) by (apply with_overflow_parallel; assumption). rewrite IH. cbn [bind]. eauto. }
    destruct K as [ov ->]. cbn [bind]. eauto.
  - revert e Hp. induction HL as [|q l Hq HL IH]; intros e Hp; [exists e; apply process_seq_nil|]. rewrite process_seq_cons. destruct Hs as [Hs1 Hs2]. destruct (Hq e add Hs1 Hp) as [r Hr]. rewrite Hr. cbn [bind]. apply IH; [exact Hs2|]. eapply process_parallel; eassumption.
Qed.

(** fewer than 2^31 ids, in the overflowing parts too *)
Inductive small : encoding -> Prop := small_enc e : (Z.of_nat (length (en_ids e)) < 2 ^ 31)%Z -> Forall small (en_overflowing e) -> small e.
Lemma pad_rejects p : p_strat p = Fixed -> (p_fixed p < 0)%Z -> int32 (p_fixed p) -> p_dir p <> PUnknown -> forall e, small e -> pad_encoding p e = Throw LengthError.
Proof.
  intros Hs Hneg Hi Hd e. unfold pad_encoding.
  assert (Ht : pad_target p e = p_fixed p).
  { unfold pad_target. rewrite Hs. destruct (Z.ltb_spec 0 (p_multiple p)) as [Hm|Hm]; cbn [andb]; [|reflexivity]. assert (Z.rem (p_fixed p) (p_multiple p) <= 0)%Z.
    { replace (p_fixed p) with (- (- p_fixed p))%Z by lia. rewrite Z.rem_opp_l by lia. pose proof (Z.rem_nonneg (- p_fixed p) (p_multiple p)). lia. }
    replace (0 <? Z.rem (p_fixed p) (p_multiple p))%Z with false by lia. reflexivity. }
  rewrite Ht. clear Ht.
  assert (Hone : forall x, (Z.of_nat (length (en_ids x)) < 2 ^ 31)%Z -> pad_one (p_fixed p) p x = Throw LengthError).
  { intros x Hx. unfold pad_one. rewrite size_t_neg by (unfold int32 in *; unpow; lia). replace (p_fixed p + 2 ^ 64 <=? Z.of_nat (length (en_ids x)))%Z with false by (unfold int32 in *; unpow; lia).
    replace (p_fixed p - Z.of_nat (length (en_ids x)) <? 0)%Z with true by lia. destruct (p_dir p); [reflexivity | reflexivity | contradiction]. }
  revert e. fix IH 2. intros e Hsm. destruct Hsm as [e Hn Hov]. rewrite pad_unfold. destruct Hov as [|o ov Ho Hov]; cbn [mapM bind]; [apply Hone, Hn|]. rewrite (IH o Ho). reflexivity.
Qed.
Lemma pad_accepts p e : ~ (p_strat p = Fixed /\ (p_fixed p < 0)%Z /\ p_dir p <> PUnknown) -> exists r, pad_encoding p e = Ok r.
Proof.
  intros H. assert (G : ends (fun _ => False) (fun _ => False) (fun _ : encoding => True) (pad_encoding p e)).
  { unfold pad_encoding. apply pad_ends. intros Ht Hd. apply H. revert Ht. unfold pad_target. cbv zeta.
    assert (G : forall l : Z, ((if ((0 <? p_multiple p)%Z && (0 <? Z.rem l (p_multiple p))%Z)%bool then l + (p_multiple p - Z.rem l (p_multiple p)) else l) < 0 -> l < 0)%Z).
    { intros l G. destruct (Z.ltb_spec 0 (p_multiple p)); cbn [andb] in G; [|exact G]. destruct (Z.ltb_spec 0 (Z.rem l (p_multiple p))); [|exact G].
      destruct (Z.lt_ge_cases l 0) as [|Hl]; [assumption|]. pose proof (Z.rem_bound_pos l (p_multiple p) ltac:(lia) ltac:(lia)). lia. }
    intros Ht. apply G in Ht. destruct (p_strat p); [lia | auto | lia]. }
  destruct (pad_encoding p e); try contradiction. eauto.
Qed.

(** ** C100 *)
(** The three ways the configuration can make the stages after tokenization fail on a text of [n] tokens. *)
Definition endless (t : tokenizer) (n : nat) : Prop := exists tr, tz_trunc t = Some tr /\ truncation_loops tr n.
Definition nowhere (t : tokenizer) (n : nat) : Prop := exists tr, tz_trunc t = Some tr /\ truncation_active tr n /\ t_dir tr = TUnknown.
Definition negative_padding (t : tokenizer) : Prop := exists p, tz_pad t = Some p /\ p_strat p = Fixed /\ (p_fixed p < 0)%Z /\ p_dir p <> PUnknown.
Definition unpadded (t : tokenizer) : tokenizer := mkTz (tz_trunc t) None (tz_av t) (tz_norm t) (tz_pre t) (tz_model t) (tz_dec t) (tz_post t).
(** the configured numbers are C++ ints *)
Definition int_params (t : tokenizer) : Prop :=
  (forall tr, tz_trunc t = Some tr -> int32 (t_max tr) /\ int32 (t_stride tr)) /\ (forall p, tz_pad t = Some p -> int32 (p_fixed p)).

Lemma finish_ok t e add : (forall p, tz_post t = Some p -> specials_ok p) -> parallel e -> ~ negative_padding t -> exists r, finish t e add = Ok r.
Proof.
  intros Hsp Hp Hn. unfold finish.
  assert (K : exists e2, match tz_post t with Some pp => process pp e add | None => Ok e end = Ok e2) by (destruct (tz_post t) as [pp|]; [apply process_ok; auto | eauto]). destruct K as [e2 ->]. cbn [bind].
  destruct (tz_pad t) as [pd|] eqn:Ep; [|eauto]. apply pad_accepts. intros (A & B & C). apply Hn. exists pd. auto.
Qed.

Lemma bare_text E fuel t s add core : snd (encode E fuel (bare t) s add) = Ok core -> text_encoding E t s = Ok core.
Proof. rewrite encode_text. change (text_encoding E (bare t) s) with (text_encoding E t s). destruct (text_encoding E t s); cbn [bind]; try discriminate. unfold do_post_process. cbn. auto. Qed.
Theorem C100_finishing : forall E fuel t s add core,
  snd (encode E fuel (bare t) s add) = Ok core -> int_params t -> (Z.of_nat (length (en_ids core)) < 2 ^ 31)%Z -> length (en_ids core) + 2 <= fuel ->
  (forall p, tz_post t = Some p -> specials_ok p) -> (forall r, snd (encode E fuel (unpadded t) s add) = Ok r -> small r) ->
  (endless t (length (en_ids core)) -> snd (encode E fuel t s add) = Diverge) /\
  (nowhere t (length (en_ids core)) -> snd (encode E fuel t s add) = Undef OobIndex) /\
  (~ endless t (length (en_ids core)) -> ~ nowhere t (length (en_ids core)) -> negative_padding t -> snd (encode E fuel t s add) = Throw LengthError) /\
  (~ endless t (length (en_ids core)) -> ~ nowhere t (length (en_ids core)) -> ~ negative_padding t -> exists r, snd (encode E fuel t s add) = Ok r).
Proof.
  intros E fuel t s add core Hc [Hti Hpi] Hn Hf Hsp Hsm. apply bare_text in Hc. rewrite encode_text, Hc. cbn [bind]. rewrite process_split. destruct (text_encoding_parallel _ _ _ _ Hc) as [Hfl Hov].
  assert (HP : parallel core) by (constructor; [exact Hfl | rewrite Hov; constructor]).
  split; [|split].
  - intros (tr & Htr & HL). rewrite Htr. rewrite (truncation_diverges tr core Hn HL). reflexivity.
  - intros (tr & Htr & HA & HD). rewrite Htr. rewrite (truncation_unknown_direction fuel tr core Hn HA HD). reflexivity.
  - assert (K : ~ endless t (length (en_ids core)) -> ~ nowhere t (length (en_ids core)) -> exists e1, match tz_trunc t with Some tr => truncate_encoding fuel tr core | None => Ok core end = Ok e1 /\ parallel e1).
    { intros He Hw. destruct (tz_trunc t) as [tr|] eqn:Htr; [|eauto]. destruct (Hti tr eq_refl) as [H1 H2].
      destruct (truncation_ok fuel tr core Hn H1 H2 Hfl) as [e1 Hr]; [intros HL; apply He; exists tr; auto | intros [HA HD]; apply Hw; exists tr; auto | exact Hf|]. exists e1. split; [exact Hr|]. eapply truncation_parallel; eassumption. }
    split; intros He Hw; destruct (K He Hw) as (e1 & H1 & HP1); rewrite H1; cbn [bind].
    + intros (p & Hp & A & B & C). assert (K2 : exists e2, match tz_post t with Some pp => process pp e1 add | None => Ok e1 end = Ok e2) by (destruct (tz_post t) as [pp|]; [apply process_ok; auto | eauto]). destruct K2 as [e2 H2].
      unfold finish. rewrite H2. cbn [bind]. rewrite Hp. apply pad_rejects; auto. apply Hsm. rewrite encode_text. change (text_encoding E (unpadded t) s) with (text_encoding E t s). rewrite Hc. cbn [bind]. unfold do_post_process. cbn [unpadded tz_trunc tz_post tz_pad].
      rewrite H1. cbn [bind]. rewrite H2. reflexivity.
    + apply finish_ok; assumption.
Qed.
Print Assumptions C100_finishing.

(** options that cannot fail: a stride smaller than max_length - 1, a known truncation direction, no negative padding length *)
Definition sane (t : tokenizer) : Prop :=
  (forall tr, tz_trunc t = Some tr -> match t_dir tr with TRight => t_stride tr <> t_max tr | TLeft => (t_stride tr < t_max tr - 1)%Z | TUnknown => False end) /\
  (forall p, tz_pad t = Some p -> p_strat p = Fixed -> (0 <= p_fixed p)%Z).
Lemma sane_returns E t s add core : snd (encode E 0 (bare t) s add) = Ok core -> int_params t -> sane t -> (forall p, tz_post t = Some p -> specials_ok p) ->
  (forall fuel r, snd (encode E fuel (unpadded t) s add) = Ok r -> small r) -> (forall fuel r, snd (encode E fuel (bare t) s add) = Ok r -> (Z.of_nat (length (en_ids r)) < 2 ^ 31)%Z) ->
  exists k, forall fuel, k <= fuel -> exists r, snd (encode E fuel t s add) = Ok r.
Proof.
  intros Hc Hi [Ht Hd] Hsp Hsm Hsz. exists (length (en_ids core) + 2). intros fuel Hf.
  assert (Hc' : snd (encode E fuel (bare t) s add) = Ok core).
  { pose proof (bare_text _ _ _ _ _ _ Hc) as HT. rewrite encode_text. change (text_encoding E (bare t) s) with (text_encoding E t s). rewrite HT. reflexivity. }
  destruct (C100_finishing E fuel t s add core Hc' Hi (Hsz _ _ Hc') Hf Hsp (Hsm fuel)) as (_ & _ & _ & H). apply H.
  - intros (tr & Htr & _ & HL). pose proof (Ht tr Htr) as Hs. destruct HL as [[HD HL]|[HD HL]]; rewrite HD in Hs; lia.
  - intros (tr & Htr & _ & HL). pose proof (Ht tr Htr) as Hs. rewrite HL in Hs. exact Hs.
  - intros (p & Hpd & HF & HL & _). pose proof (Hd p Hpd HF). lia.
Qed.
(** Hence a WordPiece tokenizer whose pre-tokenizer keeps the characters returns an encoding for every non-empty text, *)
Theorem C100_total : forall E t w s n add, tz_model t = Some (MWordPiece w) -> s <> [] -> forallb valid_cp s = true -> forallb valid_cp n = true -> normalized_in_place E t s n ->
  (forall p, tz_pre t = Some p -> cuttable E p /\ keeps_characters E p) -> int_params t -> sane t -> (forall p, tz_post t = Some p -> specials_ok p) ->
  (forall fuel r, snd (encode E fuel (unpadded t) s add) = Ok r -> small r) -> (forall fuel r, snd (encode E fuel (bare t) s add) = Ok r -> (Z.of_nat (length (en_ids r)) < 2 ^ 31)%Z) ->
  exists k, forall fuel, k <= fuel -> exists r, snd (encode E fuel t s add) = Ok r.
Proof.
  intros E t w s n add Hm Hne Hv Hvn HN Hp Hi Hs Hsp Hsm Hsz. destruct (C95_total E 0 t w s n add Hm Hne Hv Hvn HN Hp) as [core Hc]. eapply sane_returns; eassumption.
Qed.
Print Assumptions C100_total.
Lemma encodable_dec b x : {encodable b x} + {~ encodable b x}.
Proof.
  unfold encodable, whole_word. destruct (Nat.ltb_spec0 0 (covered b (utf8_encs x))) as [H|H]; [left; right; exact H|]. destruct (b_ignore_merges b); [|right; intros [(i & H1 & _)|H1]; [discriminate | contradiction]].
  destruct (QArith_base.Qeq_dec (b_dropout b) (QArith_base.Qmake 0 1)) as [Hd|Hd]; [|right; intros [(i & _ & H1 & _)|H1]; contradiction]. destruct (sfind (utf8_encs x) (b_vocab b)) as [i|]; [left; left; exists i; auto | right; intros [(j & _ & _ & H1)|H1]; [discriminate | contradiction]].
Qed.
(** and a BPE tokenizer does exactly for the texts all of whose words have something in the vocabulary. *)
Theorem C100_total_bpe : forall E t vocab merges d unk pre suf fu bf ig b c s n l add, pq_ok E -> new_bpe vocab merges d unk pre suf fu bf ig = Ok b ->
  tz_model t = Some (MBpe b c) -> reach_cache E b c -> s <> [] -> forallb valid_cp s = true -> forallb valid_cp n = true -> normalized_in_place E t s n ->
  (forall p, tz_pre t = Some p -> cuttable E p /\ keeps_characters E p) -> words_of E (tz_pre t) n l -> int_params t -> sane t -> (forall p, tz_post t = Some p -> specials_ok p) ->
  (forall fuel r, snd (encode E fuel (unpadded t) s add) = Ok r -> small r) -> (forall fuel r, snd (encode E fuel (bare t) s add) = Ok r -> (Z.of_nat (length (en_ids r)) < 2 ^ 31)%Z) ->
  ((exists k, forall fuel, k <= fuel -> exists r, snd (encode E fuel t s add) = Ok r) <-> Forall (fun p => encodable b (snd p)) l) /\
  (Exists (fun p => ~ encodable b (snd p)) l -> forall fuel, snd (encode E fuel t s add) = Undef OobIndex).
Proof.
  intros E t vocab merges d unk pre suf fu bf ig b c s n l add Hq Hb Hm Hrc Hne Hv Hvn HN Hp Hl Hi Hs Hsp Hsm Hsz.
  assert (Hnn : n <> []) by (destruct HN as (HN & _); unfold normalized_to in HN; destruct (tz_av t); [apply HN | subst n; exact Hne]).
  pose proof (C95_inside E (tz_pre t) n l Hnn (fun p H => proj2 (Hp p H)) Hl) as HI. assert (HU : Forall (fun p => fst p < units s) l).
  { destruct HN as (_ & Hu & _). eapply Forall_impl; [|exact HI]. intros [pos x] (_ & H & _). cbn [fst snd] in *. lia. }
  assert (HX : Exists (fun p => ~ encodable b (snd p)) l -> forall fuel, snd (encode E fuel t s add) = Undef OobIndex).
  { intros Hx fuel. eapply (proj2 (C95_bpe E fuel t vocab merges d unk pre suf fu bf ig b c s n l add Hq Hb Hm Hrc Hne Hv Hvn HN Hl)). left. exact Hx. }
  split; [|exact HX]. split.
  - intros [k Hk]. destruct (Forall_Exists_dec (fun p => encodable b (snd p)) (fun p => encodable_dec b (snd p)) l) as [|Hx]; [assumption|]. exfalso. destruct (Hk k (le_n _)) as [r Hr]. rewrite (HX Hx k) in Hr. discriminate.
  - intros HF. destruct (proj1 (C95_bpe E 0 t vocab merges d unk pre suf fu bf ig b c s n l add Hq Hb Hm Hrc Hne Hv Hvn HN Hl) HF HU) as (core & Hc & _). eapply sane_returns; eassumption.
Qed.
Print Assumptions C100_total_bpe.

(** *** Cases: the four outcomes on the same text of three tokens, and the hypotheses *)
Definition fin_tz (tr : option truncation) (pd : option padding) : tokenizer := out_tz tr pd None None (Some TBert).
Definition fin (tr : option truncation) (pd : option padding) : res encoding := snd (encode out_env 100 (fin_tz tr pd) (str "a a a") false).
Example C100_outcomes_case :
  (exists core, snd (encode out_env 100 (bare (fin_tz None None)) (str "a a a") false) = Ok core /\ length (en_ids core) = 3) /\
  fin (Some (mkTrunc TLeft LongestFirst 2 1)) None = Diverge /\ endless (fin_tz (Some (mkTrunc TLeft LongestFirst 2 1)) None) 3 /\
  fin (Some (mkTrunc TUnknown LongestFirst 2 0)) None = Undef OobIndex /\ nowhere (fin_tz (Some (mkTrunc TUnknown LongestFirst 2 0)) None) 3 /\
  fin (Some (mkTrunc TLeft LongestFirst 2 0)) (Some (mkPad PRight Fixed (-1) 0 0 (str "[PAD]") 0)) = Throw LengthError /\
  (exists r, fin (Some (mkTrunc TLeft LongestFirst 2 0)) (Some (mkPad PRight Fixed 4 0 0 (str "[PAD]") 0)) = Ok r /\ en_amask r = [1; 1; 0; 0]%Z) /\
  sane (fin_tz (Some (mkTrunc TLeft LongestFirst 2 0)) (Some (mkPad PRight Fixed 4 0 0 (str "[PAD]") 0))) /\
  int_params (fin_tz (Some (mkTrunc TLeft LongestFirst 2 0)) (Some (mkPad PRight Fixed 4 0 0 (str "[PAD]") 0))) /\
  (forall r, snd (encode out_env 100 (unpadded (fin_tz (Some (mkTrunc TLeft LongestFirst 2 0)) None)) (str "a a a") false) = Ok r -> small r).
Proof.
  split; [eexists; split; [vm_compute; reflexivity | reflexivity]|]. split; [vm_compute; reflexivity|].
  split; [eexists; split; [reflexivity|]; split; [split; [left; reflexivity | cbn; lia] | right; split; [reflexivity | cbn; lia]]|]. split; [vm_compute; reflexivity|].
  split; [eexists; split; [reflexivity|]; split; [split; [left; reflexivity | cbn; lia] | reflexivity]|]. split; [vm_compute; reflexivity|].
  split; [eexists; split; [vm_compute; reflexivity | reflexivity]|].
  split; [split; intros x Hx; injection Hx as <-; cbn; intros; lia|].
  split; [split; intros x Hx; injection Hx as <-; unfold int32; cbn [t_max t_stride p_fixed]; unpow; lia|].
  intros r Hr. vm_compute in Hr. injection Hr as <-. constructor; [cbn [en_ids length]; unpow; lia|]. constructor; [|constructor]. constructor; [cbn [en_ids length]; unpow; lia | constructor].
Qed.
