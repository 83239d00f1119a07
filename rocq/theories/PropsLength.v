(** How long encode's result is (C11), what happens to the truncation windows (C15). *)
From Verif Require Import Base BaseFacts Unicode Common Utils PostProcessor Decoder Normalizer PreTokenizer WordPiece Bpe AddedVocab Tokenizer
  Spec EncFacts UtilsProofs PadProofs PostSpec PostProofs TzSpec TzProofs RefSpec LenSpec PropsUtils PropsEncode PropsReference Env.
From Coq Require Import ZifyBool ZifyNat.

Lemma right_first fuel n maxl o r l : (0 < maxl < n)%Z -> (n < 2 ^ 31)%Z -> right_ranges fuel n maxl o 0 false = Ok (r :: l) -> (snd r - fst r = maxl)%Z.
Proof.
  intros Hm Hn H. destruct fuel as [|f]; [discriminate|]. cbn [right_ranges] in H. destruct (size_t_of_int 0 <? n)%Z; [|discriminate].
  apply bind_ok in H as [rest [_ H]]. injection H as <- _. cbn [fst snd]. lia.
Qed.
Lemma left_first fuel n maxl o r l : (0 < maxl < n)%Z -> left_ranges fuel maxl o (n - 1) false = Ok (r :: l) -> (snd r - fst r = maxl)%Z.
Proof.
  intros Hm H. destruct fuel as [|f]; [discriminate|]. cbn [left_ranges] in H. replace (0 <=? n - 1)%Z with true in H by lia.
  replace (n - 1 + 1 <? maxl)%Z with false in H by lia. replace (n - 1 + 1 - maxl <? n - 1 + 1)%Z with true in H by lia. cbn [negb andb] in H.
  apply bind_ok in H as [rest [_ H]]. injection H as <- _. cbn [fst snd]. lia.
Qed.

Lemma truncation_length fuel tr e r : (Z.of_nat (length (en_ids e)) < 2 ^ 31)%Z -> int32 (t_max tr) -> truncate_encoding fuel tr e = Ok r ->
  kept_length (Some tr) (length (en_ids e)) (length (en_ids r)).
Proof.
  intros Hn Hi H. split; intros Ha.
  - destruct Ha as [Hs Hm]. rewrite truncate_encoding_active in H by assumption. rewrite truncate_unfold in H by assumption. apply bind_ok in H as [ranges [Hr H]].
    destruct ranges as [|[a b] others]; [discriminate|]. apply bind_ok in H as [e0 [He0 H]]. apply bind_ok in H as [ov [_ H]]. injection H as <-.
    assert (Hab : (b - a = t_max tr)%Z).
    { destruct (t_dir tr); [exact (right_first _ _ _ _ _ _ Hm Hn Hr) | exact (left_first _ _ _ _ _ _ Hm Hr) | discriminate]. }
    apply slice_enc_window in He0 as (Ha & H1 & H2 & ->). cbn [set_overflowing en_ids]. rewrite window_length by exact H2. lia.
  - rewrite truncation_inactive in H by assumption. injection H as <-. destruct (_ && _); reflexivity.
Qed.

Lemma parts_length single specials add : forall e, list_sum (map (fun x => length (en_ids x)) (template_parts single specials add e)) = list_sum (map (piece_length specials add (length (en_ids e))) single).
Proof.
  induction single as [|p r IH]; intros e; [reflexivity|]. cbn [template_parts map list_sum fold_right]. fold (list_sum (map (piece_length specials add (length (en_ids e))) r)). unfold piece_length at 1. destruct (leqb (pc_kind p) (str "Sequence")).
  - cbv zeta. set (e' := if leqb (pc_id p) (str "A") then _ else e). assert (He : en_ids e' = en_ids e) by (unfold e'; destruct (leqb _ _); reflexivity).
    cbn [map list_sum fold_right]. fold (list_sum (map (fun x => length (en_ids x)) (template_parts r specials add e'))). rewrite IH, He. reflexivity.
  - destruct (leqb (pc_kind p) (str "SpecialToken")); cbn [andb]; [|rewrite IH; reflexivity]. destruct add; cbn [andb]; [|rewrite IH; reflexivity].
    cbn [map list_sum fold_right]. fold (list_sum (map (fun x => length (en_ids x)) (template_parts r specials true e))). rewrite IH. f_equal. unfold special_enc, find_special. cbn [en_ids].
    destruct (find _ specials); reflexivity.
Qed.
Lemma fold_length l : forall a, length (en_ids (fold_left append_enc l a)) = length (en_ids a) + list_sum (map (fun x => length (en_ids x)) l).
Proof. induction l as [|x l IH]; intros a; cbn [fold_left map list_sum fold_right]; [lia|]. rewrite IH. cbn [append_enc en_ids]. rewrite app_length. fold (list_sum (map (fun x => length (en_ids x)) l)). lia. Qed.
Lemma process_length add : forall pp e r, process pp e add = Ok r -> length (en_ids r) = post_length pp add (length (en_ids e)).
Proof.
  intros pp. induction pp as [single specials|aps trim|l IH] using post_processor_induction; intros e r H.
  - cbn [process] in H. injection H as <-. unfold template_process. rewrite fold_length. cbn [empty_enc en_ids length post_length]. apply parts_length.
  - cbn [process] in H. unfold byte_level_process in H. destruct trim; [|injection H as <-; reflexivity]. apply bind_ok in H as (e' & He' & H). apply bind_ok in H as (ov & _ & H). injection H as <-.
    cbn [en_ids]. unfold process_offsets in He'. apply bind_ok in He' as (o & _ & He'). injection He' as <-. reflexivity.
  - revert e r H. induction IH as [|q l Hq _ IHl]; intros e r H; [rewrite process_seq_nil in H; injection H as <-; reflexivity|].
    rewrite process_seq_cons in H. apply bind_ok in H as (e' & He' & H). rewrite (IHl _ _ H), (Hq _ _ He'). reflexivity.
Qed.

Lemma pad_negative_not p e r : p_strat p = Fixed -> (p_fixed p < 0)%Z -> int32 (p_fixed p) -> p_dir p <> PUnknown -> (Z.of_nat (length (en_ids e)) < 2 ^ 31)%Z -> pad_encoding p e = Ok r -> False.
Proof.
  intros Hs Hneg Hi Hd Hn H. unfold pad_encoding in H. rewrite pad_unfold in H. apply bind_ok in H as (ov & _ & H).
  assert (Ht : pad_target p e = p_fixed p).
  { unfold pad_target. rewrite Hs. destruct (Z.ltb_spec 0 (p_multiple p)) as [Hm|Hm]; cbn [andb]; [|reflexivity].
    assert (Z.rem (p_fixed p) (p_multiple p) <= 0)%Z.
    { replace (p_fixed p) with (- (- p_fixed p))%Z by lia. rewrite Z.rem_opp_l by lia. pose proof (Z.rem_nonneg (- p_fixed p) (p_multiple p)). lia. }
    replace (0 <? Z.rem (p_fixed p) (p_multiple p))%Z with false by lia. reflexivity. }
  rewrite Ht in H. unfold pad_one in H. cbn [set_overflowing en_ids] in H. unfold int32 in Hi. change (2 ^ 31)%Z with 2147483648%Z in *. 
  rewrite size_t_neg in H by (change (2 ^ 64)%Z with 18446744073709551616%Z; lia). change (2 ^ 64)%Z with 18446744073709551616%Z in H.
  replace (p_fixed p + 18446744073709551616 <=? Z.of_nat (length (en_ids e)))%Z with false in H by lia.
  replace (p_fixed p - Z.of_nat (length (en_ids e)) <? 0)%Z with true in H by lia. destruct (p_dir p); [discriminate | discriminate | congruence].
Qed.

Lemma pad_length t e r : (Z.of_nat (length (en_ids e)) < 2 ^ 31)%Z -> int_config t ->
  match tz_pad t with Some pd => pad_encoding pd e | None => Ok e end = Ok r -> padded_length t (length (en_ids e)) (length (en_ids r)).
Proof.
  intros Hn [_ Hi] H. unfold padded_length. destruct (tz_pad t) as [p|]; [|injection H as <-; reflexivity]. destruct (Hi p eq_refl) as [I1 I2].
  assert (HK : p_dir p <> PUnknown -> exists target, is_pad_target p (length (en_ids e)) target /\ length (en_ids r) = Nat.max (length (en_ids e)) target).
  { intros Hd. destruct (Z.leb_spec 0 (match p_strat p with Fixed => p_fixed p | _ => Z.of_nat (length (en_ids e)) end)) as [H0|H0].
    - destruct (C06_padding_shape p e I1 I2 Hn H0) as (target & r' & T1 & T2 & T3). rewrite H in T2. injection T2 as <-. exists target. split; [exact T1|]. apply (C06_padded_length target p e r Hd T3).
    - exfalso. destruct (p_strat p) eqn:Es; try lia. exact (pad_negative_not p e r Es H0 I2 Hd Hn H). }
  destruct (p_dir p) eqn:Ed; [apply HK; discriminate | apply HK; discriminate|].
  unfold pad_encoding in H. rewrite pad_unfold in H. apply bind_ok in H as (ov & _ & H). unfold pad_one in H. rewrite Ed in H. destruct (_ <=? _)%Z; injection H as <-; reflexivity.
Qed.

(** ** C11 *)
(** The number of ids of encode's result: the tokens of the text (what encode returns without truncation, post-processor and padding), cut to max_length when truncation is
    active, then what the post-processor makes of them, then padding. Truncation counts text tokens only; special tokens and padding come on top. *)
Theorem C11_length : forall E fuel t s add core r, snd (encode E fuel (bare t) s add) = Ok core -> snd (encode E fuel t s add) = Ok r -> int_config t ->
  (Z.of_nat (length (en_ids core)) < 2 ^ 31)%Z -> (forall k, k <= length (en_ids core) -> (Z.of_nat (tz_post_length t add k) < 2 ^ 31)%Z) ->
  exists kept, kept_length (tz_trunc t) (length (en_ids core)) kept /\ padded_length t (tz_post_length t add kept) (length (en_ids r)).
Proof.
  intros E fuel t s add core r Hc H Hi Hn Hp. rewrite encode_stages, Hc in H. cbn [bind] in H. unfold do_post_process in H.
  apply bind_ok in H as (e1 & H1 & H). apply bind_ok in H as (e2 & H2 & H). exists (length (en_ids e1)).
  assert (K1 : kept_length (tz_trunc t) (length (en_ids core)) (length (en_ids e1))).
  { destruct (tz_trunc t) as [tr|] eqn:Et; [|injection H1 as <-; reflexivity]. apply (truncation_length fuel); [exact Hn | exact (proj1 Hi tr Et) | exact H1]. }
  assert (K1' : length (en_ids e1) <= length (en_ids core)).
  { unfold kept_length in K1. destruct (tz_trunc t) as [tr|]; [|lia]. destruct K1 as [K1 K2]. destruct (truncation_active_dec tr (length (en_ids core))) as [Ha|Ha]; [|rewrite (K2 Ha); lia].
    specialize (K1 Ha). destruct Ha as [_ Ha]. lia. }
  assert (K2 : length (en_ids e2) = tz_post_length t add (length (en_ids e1))).
  { unfold tz_post_length. destruct (tz_post t) as [pp|]; [exact (process_length add pp _ _ H2) | injection H2 as <-; reflexivity]. }
  split; [exact K1|]. rewrite <- K2. apply pad_length; [rewrite K2; apply Hp; exact K1' | exact Hi | exact H].
Qed.
Print Assumptions C11_length.

(** In particular: with truncation active and no padding the result has exactly max_length ids plus those the post-processor adds, so max_length is kept if and only if it adds none. *)
Theorem C11_max_length_iff : forall E fuel t s add tr core r, snd (encode E fuel (bare t) s add) = Ok core -> snd (encode E fuel t s add) = Ok r -> int_config t ->
  (Z.of_nat (length (en_ids core)) < 2 ^ 31)%Z -> (forall k, k <= length (en_ids core) -> (Z.of_nat (tz_post_length t add k) < 2 ^ 31)%Z) ->
  tz_trunc t = Some tr -> truncation_active tr (length (en_ids core)) -> tz_pad t = None ->
  let added := (Z.of_nat (tz_post_length t add (Z.to_nat (t_max tr))) - t_max tr)%Z in
  Z.of_nat (length (en_ids r)) = (t_max tr + added)%Z /\ ((Z.of_nat (length (en_ids r)) <= t_max tr)%Z <-> (added <= 0)%Z).
Proof.
  intros E fuel t s add tr core r Hc H Hi Hn Hp Ht Ha Hpd added. destruct (C11_length E fuel t s add core r Hc H Hi Hn Hp) as (kept & K & P). rewrite Ht in K. destruct K as [K _]. specialize (K Ha).
  unfold padded_length in P. rewrite Hpd in P. rewrite P. unfold added. replace (Z.to_nat (t_max tr)) with kept by lia. split; lia.
Qed.
Print Assumptions C11_max_length_iff.
Example C11_length_case : let t := demo (Some (mkTrunc TRight LongestFirst 2 0)) (Some (mkPad PRight Fixed 7 9 0 (str "[PAD]") 0)) (Some demo_template) in
  int_config t /\ (exists core, snd (encode test_env 10 (bare t) (str "playing chess") true) = Ok core /\ length (en_ids core) = 3) /\
  truncation_active (mkTrunc TRight LongestFirst 2 0) 3 /\ tz_post_length t true 2 = 4 /\
  exists r, snd (encode test_env 10 t (str "playing chess") true) = Ok r /\ length (en_ids r) = 7.
Proof.
  split; [split; intros x [= <-]; unfold int32; cbn; lia|]. split; [eexists; split; [vm_compute; reflexivity | reflexivity]|]. split; [split; [left; reflexivity | cbn; lia]|]. split; [vm_compute; reflexivity|].
  eexists; split; [vm_compute; reflexivity | reflexivity].
Qed.

(** ** C15 *)
Lemma template_any l : has_template (PSequence l) = existsb has_template l.
Proof. induction l as [|q r IH]; [reflexivity|]. cbn [existsb]. rewrite <- IH. reflexivity. Qed.
Lemma process_drops add : forall pp e r, process pp e add = Ok r -> has_template pp = true \/ en_overflowing e = [] -> en_overflowing r = [].
Proof.
  intros pp. induction pp as [single specials|aps trim|l IH] using post_processor_induction; intros e r H Ht.
  - cbn [process] in H. injection H as <-. apply template_no_overflow.
  - destruct Ht as [Ht|Ht]; [discriminate|]. cbn [process] in H. unfold byte_level_process in H. destruct trim; [|injection H as <-; exact Ht].
    apply bind_ok in H as (e' & He' & H). rewrite (process_offsets_overflowing _ _ _ He'), Ht in H. injection H as <-. reflexivity.
  - rewrite template_any in Ht. revert e r H Ht. induction IH as [|q l Hq _ IHl]; intros e r H Ht; [rewrite process_seq_nil in H; injection H as <-; destruct Ht as [Ht|Ht]; [discriminate | exact Ht]|].
    rewrite process_seq_cons in H. apply bind_ok in H as (e' & He' & H). apply (IHl _ _ H). cbn [existsb] in Ht. destruct Ht as [Ht|Ht].
    + apply orb_prop in Ht as [Ht|Ht]; [right; apply (Hq _ _ He'); left; exact Ht | left; exact Ht].
    + right. apply (Hq _ _ He'). right. exact Ht.
Qed.
Lemma process_windows add : forall pp e r, has_template pp = false -> Forall (fun o => en_overflowing o = []) (en_overflowing e) -> process pp e add = Ok r ->
  Forall2 (fun o x => process pp o add = Ok x) (en_overflowing e) (en_overflowing r) /\ Forall (fun o => en_overflowing o = []) (en_overflowing r).
Proof.
  intros pp. induction pp as [single specials|aps trim|l IH] using post_processor_induction; intros e r Ht Ho H; [discriminate| |].
  - cbn [process] in H. unfold byte_level_process in H. destruct trim.
    + apply bind_ok in H as (e' & He' & H). apply bind_ok in H as (ov & Hov & H). injection H as <-. cbn [en_overflowing]. rewrite (process_offsets_overflowing _ _ _ He') in Hov. apply mapM_ok in Hov.
      clear He'. induction Hov as [|o x l l' Hx _ IHl]; [split; constructor|]. inversion Ho as [|? ? Ho1 Ho2]; subst. destruct (IHl Ho2) as [I1 I2].
      pose proof (process_offsets_overflowing _ _ _ Hx) as Hx'. split; constructor; auto; [|congruence]. cbn [process]. unfold byte_level_process. rewrite Hx. cbn [bind]. rewrite Hx', Ho1. cbn [mapM bind].
      destruct x as [i1 i2 i3 i4 i5 i6 i7 i8]. cbn [en_overflowing] in Hx'. cbn [en_ids en_type_ids en_tokens en_words en_offsets en_smask en_amask]. rewrite Hx', Ho1. reflexivity.
    + injection H as <-. split; [|exact Ho]. clear Ho. induction (en_overflowing e); constructor; [reflexivity | assumption].
  - rewrite template_any in Ht. revert e r Ho H. induction IH as [|q l Hq _ IHl]; intros e r Ho H.
    + rewrite process_seq_nil in H. injection H as <-. split; [|exact Ho]. clear Ho. induction (en_overflowing e); constructor; [reflexivity | assumption].
    + cbn [existsb] in Ht. apply orb_false_iff in Ht as [Ht1 Ht2]. rewrite process_seq_cons in H. apply bind_ok in H as (e' & He' & H). destruct (Hq _ _ Ht1 Ho He') as [Q1 Q2]. destruct (IHl Ht2 _ _ Q2 H) as [R1 R2].
      split; [|exact R2]. clear - Q1 R1. revert R1. generalize (en_overflowing r) as l3. induction Q1 as [|o x l1 l2 Hx _ IH]; intros l3 R1; inversion R1; subst; constructor; [|auto].
      rewrite process_seq_cons, Hx. exact H1.
Qed.

Lemma pad_unknown p target : p_dir p = PUnknown -> forall e r, pad target p e = Ok r -> padded 0 p e r.
Proof.
  intros Hd e. induction e as [e IH] using encoding_induction. intros r H. rewrite pad_unfold in H. apply bind_ok in H as (ov & Hov & H). unfold pad_one in H. rewrite Hd in H.
  assert (Hr : r = set_overflowing e ov) by (destruct (_ <=? _)%Z; injection H as <-; reflexivity). clear H. subst r. apply mapM_ok in Hov.
  constructor; rewrite ?Hd; try reflexivity. cbn [set_overflowing en_overflowing]. induction Hov as [|x y l l' Hx _ IHl]; inversion IH; subst; constructor; auto.
Qed.
Lemma pad_over t e r : int_config t -> match tz_pad t with Some pd => pad_encoding pd e | None => Ok e end = Ok r -> (Z.of_nat (length (en_ids e)) < 2 ^ 31)%Z -> padded_over t (en_overflowing e) r.
Proof.
  intros [_ Hi] H Hn. unfold padded_over. destruct (tz_pad t) as [p|]; [|injection H as <-; reflexivity]. destruct (Hi p eq_refl) as [I1 I2].
  assert (HP : exists target, padded target p e r).
  { destruct (p_dir p) eqn:Ed; [| |exists 0; exact (pad_unknown p _ Ed e r H)].
    all: destruct (Z.leb_spec 0 (match p_strat p with Fixed => p_fixed p | _ => Z.of_nat (length (en_ids e)) end)) as [H0|H0];
      [destruct (C06_padding_shape p e I1 I2 Hn H0) as (target & r' & T1 & T2 & T3); rewrite H in T2; injection T2 as <-; exists target; exact T3|].
    all: exfalso; destruct (p_strat p) eqn:Es; try lia; refine (pad_negative_not p e r Es H0 I2 _ Hn H); congruence. }
  destruct HP as (target & HP). exists target. inversion HP; subst. assumption.
Qed.

(** The windows truncation makes: with a template anywhere in the post-processor they are all lost; otherwise each of them is in the result, in order, post-processed and
    padded like the first one. *)
Theorem C15_windows : forall E fuel t s add core e1 r, snd (encode E fuel (bare t) s add) = Ok core -> int_config t -> (Z.of_nat (length (en_ids core)) < 2 ^ 31)%Z ->
  (forall k, k <= length (en_ids core) -> (Z.of_nat (tz_post_length t add k) < 2 ^ 31)%Z) ->
  match tz_trunc t with Some tr => truncate_encoding fuel tr core | None => Ok core end = Ok e1 -> snd (encode E fuel t s add) = Ok r ->
  match tz_post t with
  | Some pp => if has_template pp then en_overflowing r = []
               else exists ov, Forall2 (fun o x => process pp o add = Ok x) (en_overflowing e1) ov /\
                    padded_over t ov r
  | None => padded_over t (en_overflowing e1) r
  end.
Proof.
  intros E fuel t s add core e1 r Hc Hi Hn Hpl He1 H. rewrite encode_stages, Hc in H. cbn [bind] in H. unfold do_post_process in H. rewrite He1 in H. cbn [bind] in H. apply bind_ok in H as (e2 & H2 & H).
  rewrite encode_bare in Hc. destruct (text_encoding_parallel _ _ _ _ Hc) as [Hf Ho].
  assert (Hw : Forall (fun o => en_overflowing o = []) (en_overflowing e1)).
  { destruct (tz_trunc t) as [tr|]; [|injection He1 as <-; rewrite Ho; constructor]. destruct (truncation_cases _ _ _ _ He1) as [->|[->|(a & b & ov & _ & -> & Hov)]]; [rewrite Ho; constructor | constructor|].
    cbn [with_overflow en_overflowing]. eapply Forall_impl; [|exact Hov]. intros o (a' & b' & _ & ->). reflexivity. }
  assert (Hn2 : (Z.of_nat (length (en_ids e2)) < 2 ^ 31)%Z).
  { assert (K2 : length (en_ids e2) = tz_post_length t add (length (en_ids e1))) by (unfold tz_post_length; destruct (tz_post t) as [pp|]; [exact (process_length add pp _ _ H2) | injection H2 as <-; reflexivity]).
    rewrite K2. apply Hpl. destruct (tz_trunc t) as [tr|]; [|injection He1 as <-; lia]. destruct (truncation_cases _ _ _ _ He1) as [->|[->|(a & b & ov & Hb & -> & _)]]; [lia | cbn; lia|].
    cbn [with_overflow en_ids]. rewrite window_length by exact Hb. lia. }
  assert (HP : padded_over t (en_overflowing e2) r).
  { apply pad_over; [exact Hi | exact H | exact Hn2]. }
  destruct (tz_post t) as [pp|]; [|injection H2 as <-; exact HP]. destruct (has_template pp) eqn:Et.
  - assert (K : en_overflowing e2 = []) by (apply (process_drops add pp _ _ H2); left; exact Et). rewrite K in HP. unfold padded_over in HP. destruct (tz_pad t); [destruct HP as (target & HP); inversion HP; reflexivity | exact HP].
  - exists (en_overflowing e2). split; [exact (proj1 (process_windows add pp _ _ Et Hw H2)) | exact HP].
Qed.
Print Assumptions C15_windows.
Example C15_windows_case : let t := demo (Some (mkTrunc TRight LongestFirst 2 0)) (Some (mkPad PRight Fixed 3 9 0 (str "[PAD]") 0)) (Some (PByteLevel true true)) in
  int_config t /\ exists r, snd (encode test_env 10 t (str "playing, chess") true) = Ok r /\ map en_ids (en_overflowing r) = [[6; 5; 9]]%Z.
Proof. split; [split; intros x [= <-]; unfold int32; cbn; lia|]. eexists; split; [vm_compute; reflexivity | reflexivity]. Qed.

(** ** C09 *)
(** Every position pad_encoding adds, in the encoding and in its overflowing parts, gets word index 0; the words of the encoding itself are kept, in order. *)
Definition padded_words (e r : encoding) : Prop :=
  exists before after, en_words r = before ++ en_words e ++ after /\ length before + length after = length (en_ids r) - length (en_ids e) /\ Forall (eq (Some 0)) (before ++ after).
Theorem C09_pad_encoding : forall p e r, int32 (p_multiple p) -> int32 (p_fixed p) -> (Z.of_nat (length (en_ids e)) < 2 ^ 31)%Z -> p_dir p <> PUnknown -> pad_encoding p e = Ok r ->
  padded_words e r /\ Forall2 padded_words (en_overflowing e) (en_overflowing r).
Proof.
  intros p e r I1 I2 Hn Hd H.
  assert (HP : exists target, padded target p e r).
  { destruct (Z.lt_ge_cases (match p_strat p with Fixed => p_fixed p | _ => Z.of_nat (length (en_ids e)) end) 0) as [H0|H0].
    - exfalso. destruct (p_strat p) eqn:Es; try lia. exact (pad_negative_not p e r Es H0 I2 Hd Hn H).
    - destruct (C06_padding_shape p e I1 I2 Hn H0) as (target & r' & _ & Hr & HP). rewrite H in Hr. injection Hr as <-. eauto. }
  destruct HP as (target & HP).
  assert (G : forall e r, padded target p e r -> padded_words e r).
  { intros e0 r0 H0. destruct (C09_pad_words target p e0 r0 H0 Hd) as (b & a & W1 & W2 & W3). exists b, a. split; [exact W1|]. split; [|exact W3]. rewrite (C06_padded_length target p e0 r0 Hd H0). lia. }
  split; [apply G; exact HP|]. destruct HP as [e r k _ _ _ _ _ _ _ HO]. clear -HO G. induction HO as [|x y l l' Hxy _ IH]; constructor; [apply G; exact Hxy | exact IH].
Qed.
Print Assumptions C09_pad_encoding.
