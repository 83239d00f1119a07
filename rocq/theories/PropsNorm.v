(** C47-C56: NormalizedString and the normalizers. [origin], [cjk], [spaced], [stripped], [positions] ... are in NormSpec.v. *)
From Verif Require Import Base BaseFacts Unicode UnicodeProofs Common Decoder DecProofs Normalizer NormSpec NormProofs PreTokenizer Env.
From Coq Require Import ZifyBool ZifyNat ZifyN.

(** C47. One entry per UTF-16 unit of the text; entry i covers as many bytes as the UTF-8 form of the character at i, each
    with the original span (i, i+1). *)
Theorem C47_fresh_alignment : forall s,
  ns_text (new_nstring s) = s /\
  length (ns_ranges (new_nstring s)) = length (from_utf32 s) /\
  forall i, i < length (from_utf32 s) -> exists start n,
    nth_error (ns_ranges (new_nstring s)) i = Some (start, n) /\
    n = length (utf8_of_cp (char32_at (from_utf32 s) i)) /\ 0 < n /\
    forall d, d < n -> nth_error (ns_offsets (new_nstring s)) (start + d) = Some (i, S i).
Proof.
  intros s. split; [apply fresh_packed|]. split; [apply fresh_length|]. intros i H. destruct (fresh_block s i H) as (st & n & H1 & H2 & H3).
  exists st, n. split; [exact H1|]. split; [exact H2|]. split; [rewrite H2; apply utf8_of_cp_pos | exact H3].
Qed.
Print Assumptions C47_fresh_alignment.

(** nothing else is in the tables *)
Theorem C47_fresh_table_exact : forall s,
  ns_offsets (new_nstring s) =
    flat_map (fun i => repeat (i, S i) (length (utf8_of_cp (char32_at (from_utf32 s) i)))) (seq 0 (length (from_utf32 s))).
Proof.
  intros s. destruct (fresh_packed s) as [[_ -> _] _]. unfold tab_offsets. generalize (length (from_utf32 s)) as n. intros n. generalize 0 as i.
  induction n as [|n IH]; intros i; [reflexivity|]. cbn [unit_blocks seq flat_map fst snd]. rewrite IH. reflexivity.
Qed.
Print Assumptions C47_fresh_table_exact.

Example C47_case : ns_ranges (new_nstring [0x61; 0xE9; 0x4E2D; 0x1F600]%N) = [(0, 1); (1, 2); (3, 3); (6, 4); (10, 4)].
Proof. vm_compute. reflexivity. Qed.

(** C48. The text, for every text, also when the characters were replaced one for one before (clean_text turning white space into
    spaces): a space on both sides of every ideograph but those of U+2B820..U+2B91F. *)
Theorem C48_chinese_text : forall s t, length t <= length (from_utf32 s) ->
  exists ns', do_handle_chinese_chars (set_text (new_nstring s) t) = Ok ns' /\ ns_text ns' = spaced cjk_seen t.
Proof.
  intros s t Hl. destruct (fresh_packed s) as [HP _].
  destruct (chinese_spec (set_text (new_nstring s) t) (unit_blocks (from_utf32 s) (length (from_utf32 s)) 0)) as (ns' & H1 & H2 & _).
  - destruct HP; constructor; assumption.
  - rewrite unit_blocks_length. exact Hl.
  - exists ns'. split; [exact H1|]. rewrite H2. cbn [set_text ns_text]. apply spaced_ext. intros c Hc. apply chinese_cjk.
Qed.
Print Assumptions C48_chinese_text.

(** Its alignment, for every text: the entry of an output character is the one of the unit with the number of its source character; entries left over
    (one for each surrogate pair) stay at the end. *)
Lemma pad_blocks_rest l : forall B k, length l <= length B -> (forall j, j < length B -> option_map fst (nth_error B j) = unit_span (k + j)) ->
  map Some (map fst (pad_blocks l B)) = map unit_span (spaced_src is_chinese_char l k ++ seq (k + length l) (length B - length l)).
Proof.
  induction l as [|c l IH]; intros B k Hl Hn.
  - cbn [length pad_blocks spaced_src app]. replace (pad_blocks [] B) with B by (destruct B; reflexivity). rewrite Nat.add_0_r, Nat.sub_0_r. clear Hl. revert k Hn. induction B as [|b B IH]; intros k Hn; [reflexivity|].
    cbn [map length seq]. f_equal; [specialize (Hn 0 ltac:(cbn; lia)); cbn in Hn; rewrite Nat.add_0_r in Hn; exact Hn|]. apply IH. intros j Hj. specialize (Hn (S j) ltac:(cbn; lia)). cbn [nth_error] in Hn. rewrite Hn. unfold unit_span. do 2 f_equal; lia.
  - destruct B as [|[o n] B]; [cbn in Hl; lia|]. cbn [length] in Hl.
    assert (H0 : Some o = unit_span k) by (specialize (Hn 0 ltac:(cbn; lia)); cbn in Hn; rewrite Nat.add_0_r in Hn; exact Hn).
    assert (HI : map Some (map fst (pad_blocks l B)) = map unit_span (spaced_src is_chinese_char l (S k) ++ seq (S k + length l) (length B - length l))).
    { apply IH; [lia|]. intros j Hj. specialize (Hn (S j) ltac:(cbn; lia)). cbn [nth_error] in Hn. rewrite Hn. unfold unit_span. do 2 f_equal; lia. }
    replace (k + length (c :: l)) with (S k + length l) by (cbn [length]; lia). change (length ((o, n) :: B) - length (c :: l)) with (length B - length l).
    cbn [pad_blocks spaced_src]. destruct (is_chinese_char c); cbn [app map fst]; rewrite HI, H0; reflexivity.
Qed.
Theorem C48_chinese_origins : forall s t, length t <= length (from_utf32 s) ->
  exists ns', do_handle_chinese_chars (set_text (new_nstring s) t) = Ok ns' /\
    origins ns' (length (ns_ranges ns')) = map unit_span (spaced_src cjk_seen t 0 ++ seq (length t) (length (from_utf32 s) - length t)).
Proof.
  intros s t Hl. destruct (fresh_packed s) as [HP _]. set (bl := unit_blocks (from_utf32 s) (length (from_utf32 s)) 0) in *.
  assert (Hbl : length bl = length (from_utf32 s)) by apply unit_blocks_length.
  destruct (chinese_spec (set_text (new_nstring s) t) bl) as (ns' & H1 & H2 & H3).
  - destruct HP; constructor; assumption.
  - cbn. lia.
  - exists ns'. split; [exact H1|]. destruct H3 as [HR HO HF] eqn:E. clear E. pose proof (Build_Packed _ _ HR HO HF) as H3'. rewrite HR, tab_ranges_length, (packed_origins _ _ H3'). cbn [set_text ns_text].
    rewrite (spaced_src_ext cjk_seen is_chinese_char t (fun c _ => eq_sym (chinese_cjk c))). rewrite <- Hbl. apply pad_blocks_rest; [lia|].
    intros j Hj. rewrite Hbl in Hj. unfold bl. rewrite unit_blocks_nth by exact Hj. reflexivity.
Qed.
Print Assumptions C48_chinese_origins.

(** Alignment in the basic plane: every output character points at the character it came from. *)
Theorem C48_chinese_aligned : forall s t, bmp s -> length t = length s -> bmp t ->
  exists ns', do_handle_chinese_chars (set_text (new_nstring s) t) = Ok ns' /\ ns_text ns' = spaced cjk t /\
    length (ns_ranges ns') = length (ns_text ns') /\
    origins ns' (length (ns_text ns')) = map unit_span (spaced_src cjk t 0).
Proof.
  intros s t Hb Hl Hbt. destruct (fresh_packed s) as [HP _]. set (bl := unit_blocks (from_utf32 s) (length (from_utf32 s)) 0) in *.
  assert (Hbl : length t = length bl) by (unfold bl; rewrite unit_blocks_length, bmp_len by exact Hb; exact Hl).
  destruct (chinese_spec (set_text (new_nstring s) t) bl) as (ns' & H1 & H2 & H3).
  - destruct HP; constructor; assumption.
  - cbn. lia.
  - cbn [set_text ns_text] in *.
    assert (Hcj : forall c, In c t -> is_chinese_char c = cjk c).
    { intros c Hc. rewrite chinese_cjk. pose proof (proj1 (Forall_forall _ _) Hbt c Hc) as H. cbn beta in H. lia. }
    exists ns'. split; [exact H1|]. split; [rewrite H2; apply spaced_ext, Hcj|].
    pose proof (pad_blocks_length t bl Hbl) as HL. rewrite H2, <- HL. split.
    + destruct H3 as [-> _ _]. apply tab_ranges_length.
    + rewrite (packed_origins _ _ H3). rewrite <- (spaced_src_ext is_chinese_char cjk t Hcj). apply pad_blocks_src; [exact Hbl|].
      intros j Hj. unfold bl in Hj |- *. rewrite unit_blocks_length in Hj. rewrite unit_blocks_nth by exact Hj. reflexivity.
Qed.
Print Assumptions C48_chinese_aligned.

Example C48_case : spaced cjk [0x61; 0x4E2D; 0x62]%N = [0x61; 32; 0x4E2D; 32; 0x62]%N /\ spaced_src cjk [0x61; 0x4E2D; 0x62]%N 0 = [0; 1; 1; 1; 2].
Proof. vm_compute. split; reflexivity. Qed.

(** The full statement fails: the first 256 ideographs of CJK Extension E are not recognised. *)
Theorem C48_chinese_refuted : forall c, (0x2B820 <= c <= 0x2B91F)%N ->
  cjk c = true /\ exists ns', do_handle_chinese_chars (new_nstring [c]) = Ok ns' /\ ns_text ns' = [c].
Proof.
  intros c Hc. split; [unfold cjk, cjk_blocks; cbn [existsb fst snd]; lia|].
  destruct (fresh_packed [c]) as [HP Ht].
  destruct (chinese_spec (new_nstring [c]) _ HP) as (ns' & H1 & H2 & _); [rewrite Ht, unit_blocks_length; apply utf16_len_ge|].
  exists ns'. split; [exact H1|]. rewrite H2, Ht. cbn [spaced]. rewrite chinese_cjk. replace (negb _) with false by lia. rewrite andb_false_r. reflexivity.
Qed.
Print Assumptions C48_chinese_refuted.

(** And outside the basic plane the alignment is lost: in U+20000 'a' the letter, third of the four characters after
    padding, no longer points at its unit 2. *)
Theorem C48_alignment_refuted : exists ns', do_handle_chinese_chars (new_nstring [0x20000; 0x61]%N) = Ok ns' /\
  ns_text ns' = [32; 0x20000; 32; 0x61]%N /\ origin ns' 3 = Some (1, 2).
Proof. eexists. split; [vm_compute; reflexivity|]. split; reflexivity. Qed.
Print Assumptions C48_alignment_refuted.

Lemma blank_ok E c : is_whitespace E c = blank E c.
Proof. unfold is_whitespace, blank, is_tnr, tab_or_newline. cbn [existsb]. rewrite orb_false_r, orb_assoc. destruct ((c =? 9) || (c =? 10) || (c =? 13))%N; reflexivity. Qed.
Lemma unwanted_ok E c : removed_by_clean E c = unwanted E c.
Proof.
  unfold removed_by_clean, unwanted, is_control, is_tnr, tab_or_newline. cbn [existsb]. rewrite !orb_false_r, orb_assoc. destruct ((c =? 0) || (c =? 0xFFFD))%N; [reflexivity|]. cbn [orb].
  destruct ((c =? 9) || (c =? 10) || (c =? 13))%N; reflexivity.
Qed.
Lemma cleaned_ok E s : map (fun c => if is_whitespace E c then 32%N else c) (filter (fun c => negb (removed_by_clean E c)) s) = cleaned E s.
Proof.
  unfold cleaned. rewrite (filter_ext _ (fun c => negb (unwanted E c))) by (intros c; rewrite unwanted_ok; reflexivity). apply map_ext. intros c. rewrite blank_ok. reflexivity.
Qed.
Lemma positions_ext f g l : (forall c, f c = g c) -> forall i, positions f l i = positions g l i.
Proof. intros H. induction l as [|c l IH]; intros i; [reflexivity|]. cbn [positions]. rewrite H, IH. reflexivity. Qed.
(** C49. Whenever clean_text returns, the text is exactly right. *)
Theorem C49_clean_text_exact : forall E ns ns', do_clean_text E ns = Ok ns' ->
  ns_text ns' = cleaned E (ns_text ns).
Proof.
  intros E ns ns' H. rewrite <- cleaned_ok. revert H.
  intros H. unfold do_clean_text in H. destruct (clean_loop E ns 0 (ns_text ns)) as [[n1 t]| | |] eqn:E1; cbn [bind] in H; try discriminate.
  injection H as <-. cbn. eapply clean_text_out; eauto.
Qed.
Print Assumptions C49_clean_text_exact.

(** With nothing to delete it always returns, and the alignment is untouched. *)
Theorem C49_clean_text_aligned : forall E ns, Forall (fun c => unwanted E c = false) (ns_text ns) ->
  do_clean_text E ns = Ok (set_text ns (map (fun c => if blank E c then 32%N else c) (ns_text ns))).
Proof.
  intros E ns H. rewrite <- (map_ext _ _ (fun c => f_equal (fun b : bool => if b then 32%N else c) (blank_ok E c))).
  assert (H' : Forall (fun c => removed_by_clean E c = false) (ns_text ns)) by (eapply Forall_impl; [|exact H]; intros c; cbn beta; rewrite unwanted_ok; auto). clear H. rename H' into H. unfold do_clean_text. rewrite clean_nothing by exact H. reflexivity. Qed.
Print Assumptions C49_clean_text_aligned.

(** Exactly when it is defined on ASCII: the j-th deleted character (from 0) at position p needs p + 2j + 1 <= length. *)
Theorem C49_defined_iff_ascii : forall E s, Forall (fun c => (c < 0x80)%N) s ->
  let deleted := positions (unwanted E) s 0 in
  ((forall j p, nth_error deleted j = Some p -> p + 2 * j + 1 <= length s) -> exists ns', do_clean_text E (new_nstring s) = Ok ns') /\
  ((exists j p, nth_error deleted j = Some p /\ length s < p + 2 * j + 1) -> do_clean_text E (new_nstring s) = Undef OobIndex).
Proof.
  intros E s Hs deleted. assert (Hd : deleted = positions (removed_by_clean E) s 0) by (apply positions_ext; intros; symmetry; apply unwanted_ok). clearbody deleted. subst deleted. set (deleted := positions (removed_by_clean E) s 0). unfold do_clean_text. destruct (fresh_packed s) as [_ ->].
  destruct (apply_erase_thin deleted (new_nstring s) (length s) 0 0 (fresh_thin s Hs) (positions_sorted _ _ 0)) as [H1 H2].
  { apply Forall_forall. intros; lia. }
  rewrite clean_erase. fold deleted. split.
  - intros H. destruct (H1 H) as [ns' ->]. cbn [bind]. eauto.
  - intros H. rewrite (H2 H). reflexivity.
Qed.
Print Assumptions C49_defined_iff_ascii.

(** Exactly when it is defined, for every text. *)
Definition worn (ns : nstring) (W : list nat) (gone k b : nat) : Prop :=
  length (ns_offsets ns) + gone = list_sum W /\
  forall m, b <= m -> nth_error (ns_ranges ns) m = if m + k <? length W then Some (list_sum (firstn (m + k) W), nth (m + k) W 0) else None.
Lemma sum_firstn_S W : forall i, i < length W -> list_sum (firstn (i + 1) W) = list_sum (firstn i W) + nth i W 0.
Proof.
  induction W as [|x W IH]; intros i Hi; cbn in Hi; [lia|]. destruct i as [|i]; [cbn; lia|].
  change (firstn (S i + 1) (x :: W)) with (x :: firstn (i + 1) W). change (firstn (S i) (x :: W)) with (x :: firstn i W). change (nth (S i) (x :: W) 0) with (nth i W 0).
  change (x + list_sum (firstn (i + 1) W) = x + list_sum (firstn i W) + nth i W 0). rewrite IH by lia. lia.
Qed.
Lemma erase_worn ns W gone k b i : worn ns W gone k b -> b <= i ->
  (i + k < length W /\ list_sum (firstn (i + k + 1) W) + gone <= list_sum W -> exists ns', transform ns i OpErase = Ok ns' /\ worn ns' W (gone + nth (i + k) W 0) (S k) (S i)) /\
  (~ (i + k < length W /\ list_sum (firstn (i + k + 1) W) + gone <= list_sum W) -> transform ns i OpErase = Undef OobIndex).
Proof.
  intros (Ho & Hr) Hi. unfold transform, vat. rewrite (Hr i Hi). destruct (Nat.ltb_spec (i + k) (length W)) as [E1|E1].
  - cbn [bind]. pose proof (sum_firstn_S W (i + k) E1) as HS. split.
    + intros [_ Hf]. unfold verase at 1. replace (list_sum (firstn (i + k) W) <=? list_sum (firstn (i + k) W) + nth (i + k) W 0) with true by lia.
      replace (list_sum (firstn (i + k) W) + nth (i + k) W 0 <=? length (ns_offsets ns)) with true by lia. cbn [andb bind].
      assert (Hlen : i < length (ns_ranges ns)).
      { apply nth_error_Some. rewrite (Hr i Hi). replace (i + k <? length W) with true by lia. discriminate. }
      rewrite verase1 by exact Hlen. cbn [bind]. eexists; split; [reflexivity|]. split.
      * cbn [ns_offsets]. rewrite app_length, firstn_length, skipn_length. lia.
      * intros m Hm. cbn [ns_ranges]. rewrite nth_error_app2 by (rewrite firstn_length; lia). rewrite firstn_length, Nat.min_l by lia.
        rewrite nth_error_skipn. replace (S i + (m - i)) with (S m) by lia. rewrite (Hr (S m)) by lia. replace (S m + k) with (m + S k) by lia. reflexivity.
    + intros Hn. unfold verase. replace (list_sum (firstn (i + k) W) + nth (i + k) W 0 <=? length (ns_offsets ns)) with false; [rewrite andb_false_r; reflexivity|]. symmetry. apply Nat.leb_gt. lia.
  - split; [lia | reflexivity].
Qed.
Lemma apply_erase_worn W l : forall ns gone k b, worn ns W gone k b -> Sorted.StronglySorted lt l -> Forall (fun i => b <= i) l ->
  (deletions_fit W gone k l -> exists ns', apply_erase ns l = Ok ns') /\ (~ deletions_fit W gone k l -> apply_erase ns l = Undef OobIndex).
Proof.
  induction l as [|i l IH]; intros ns gone k b HT HS HF; cbn [deletions_fit apply_erase].
  - split; [exists ns; reflexivity | tauto].
  - inversion HS as [|? ? HS' Hlt]; subst. inversion HF as [|? ? Hi _]; subst. destruct (erase_worn ns W gone k b i HT Hi) as [H1 H2].
    assert (D : (i + k < length W /\ list_sum (firstn (i + k + 1) W) + gone <= list_sum W) \/ ~ (i + k < length W /\ list_sum (firstn (i + k + 1) W) + gone <= list_sum W)) by lia.
    destruct D as [D|D].
    + destruct (H1 D) as (ns' & -> & HT'). cbn [bind]. destruct (IH ns' _ _ _ HT' HS' Hlt) as [H3 H4]. split; [intros (_ & _ & H); apply H3, H | intros H; apply H4; tauto].
    + split; [tauto|]. intros _. rewrite (H2 D). reflexivity.
Qed.
Lemma fresh_worn s : worn (new_nstring s) (widths s) 0 0 0.
Proof.
  destruct (fresh_packed s) as [[Hr Ho _] _]. unfold widths. set (u := from_utf32 s) in *. clearbody u.
  assert (G : forall n i a, size (unit_blocks u n i) = list_sum (map (fun i => length (utf8_of_cp (char32_at u i))) (seq i n)) /\
    forall m, nth_error (tab_ranges a (unit_blocks u n i)) m = if m <? n then Some (a + list_sum (firstn m (map (fun i => length (utf8_of_cp (char32_at u i))) (seq i n))), nth m (map (fun i => length (utf8_of_cp (char32_at u i))) (seq i n)) 0) else None).
  { induction n as [|n IH]; intros i a; [split; [reflexivity|]; intros m; destruct m; reflexivity|]. cbn [unit_blocks tab_ranges size seq map fst snd]. destruct (IH (S i) (a + length (utf8_of_cp (char32_at u i)))) as [G1 G2]. split.
    - change (list_sum (?x :: ?l)) with (x + list_sum l). rewrite <- G1. reflexivity.
    - intros [|m]; [cbn [nth_error]; rewrite Nat.add_0_r; reflexivity|]. cbn [nth_error nth]. rewrite G2. change (S m <? S n) with (m <? n). destruct (m <? n); [|reflexivity]. do 2 f_equal. cbn [firstn]. change (list_sum (?x :: ?l)) with (x + list_sum l). lia. }
  destruct (G (length u) 0 0) as [G1 G2]. split.
  - rewrite Ho, tab_offsets_length, G1. lia.
  - intros m _. rewrite Hr, G2, map_length, seq_length, !Nat.add_0_r. reflexivity.
Qed.
Theorem C49_defined_iff : forall E s, let deleted := positions (unwanted E) s 0 in
  (deletions_fit (widths s) 0 0 deleted -> exists ns', do_clean_text E (new_nstring s) = Ok ns') /\
  (~ deletions_fit (widths s) 0 0 deleted -> do_clean_text E (new_nstring s) = Undef OobIndex).
Proof.
  intros E s deleted. assert (Hd : deleted = positions (removed_by_clean E) s 0) by (apply positions_ext; intros; symmetry; apply unwanted_ok). clearbody deleted. subst deleted. set (deleted := positions (removed_by_clean E) s 0). unfold do_clean_text. destruct (fresh_packed s) as [_ ->]. rewrite clean_erase. fold deleted.
  destruct (apply_erase_worn (widths s) deleted (new_nstring s) 0 0 0 (fresh_worn s) (positions_sorted _ _ 0)) as [H1 H2].
  { apply Forall_forall. intros; lia. }
  split.
  - intros H. destruct (H1 H) as [ns' ->]. cbn [bind]. eauto.
  - intros H. rewrite (H2 H). reflexivity.
Qed.
Print Assumptions C49_defined_iff.
Example C49_defined_case : widths [0xE9; 0; 97]%N = [2; 1; 1] /\ deletions_fit [2; 1; 1] 0 0 [1] /\ ~ deletions_fit [2; 1; 1] 0 0 [1; 2] /\
  widths [0x1F600; 0]%N = [4; 4; 1].
Proof. split; [vm_compute; reflexivity|]. split; [cbn; lia|]. split; [cbn; lia | vm_compute; reflexivity]. Qed.

(** So the property fails, for every environment: two NULs are an out-of-range access ... *)
Theorem C49_clean_text_refuted : forall E, do_clean_text E (new_nstring [0; 0]%N) = Undef OobIndex.
Proof.
  intros E. apply (proj2 (C49_defined_iff_ascii E [0; 0]%N ltac:(repeat constructor))). exists 1, 1. cbn. split; [reflexivity | lia].
Qed.
Print Assumptions C49_clean_text_refuted.
(** ... and one NUL before other text shifts the alignment: the b of "a\0bc" points at the c. *)
Theorem C49_alignment_refuted : exists ns', do_clean_text test_env (new_nstring [97; 0; 98; 99]%N) = Ok ns' /\ ns_text ns' = [97; 98; 99]%N /\
  origin ns' 1 = Some (3, 4).
Proof. eexists. split; [vm_compute; reflexivity|]. split; reflexivity. Qed.
Print Assumptions C49_alignment_refuted.

Example C49_case : ns_text (new_nstring [97; 9; 98]%N) = [97; 9; 98]%N /\ do_clean_text test_env (new_nstring [97; 9; 98]%N) = Ok (set_text (new_nstring [97; 9; 98]%N) [97; 32; 98]%N).
Proof. vm_compute. split; reflexivity. Qed.

Lemma repaired_ok c : fix_cp c = repaired c.
Proof.
  unfold fix_cp, repaired. replace (valid_cp c) with ((c <? 0xD800) || ((0xE000 <=? c) && (c <=? 0x10FFFF)))%N; [reflexivity|].
  destruct (valid_cp c) eqn:E; [apply valid_cp_spec in E; lia|]. apply not_true_is_false. intros H. assert (valid_cp c = true) by (apply valid_cp_spec; lia). congruence.
Qed.
(** C50. *)
Theorem C50_normalization_forms : forall E f ns, length (ns_text ns) <= length (ns_ranges ns) ->
  match e_norm E f (map repaired (ns_text ns)) with
  | None => normalize E (NForm f) ns = Throw RuntimeError
  | Some r => exists ns', normalize E (NForm f) ns = Ok ns' /\ ns_text ns' = r
  end.
Proof.
  intros E f ns H. rewrite <- (map_ext _ _ repaired_ok). pose proof (normalize_nf_spec E f ns H) as HS. cbn [normalize]. destruct (e_norm E f _); [|exact HS].
  destruct HS as (ns' & H1 & H2 & _). eauto.
Qed.
Print Assumptions C50_normalization_forms.
(** in particular on every fresh text; on well-formed text ICU is given the text itself *)
Theorem C50_normalization_forms_fresh : forall E f s,
  match e_norm E f (map repaired s) with
  | None => normalize E (NForm f) (new_nstring s) = Throw RuntimeError
  | Some r => exists ns', normalize E (NForm f) (new_nstring s) = Ok ns' /\ ns_text ns' = r
  end /\ (Forall (fun c => valid_cp c = true) s -> map repaired s = s).
Proof.
  intros E f s. split.
  - pose proof (C50_normalization_forms E f (new_nstring s)) as H. destruct (fresh_packed s) as [_ Ht]. rewrite Ht in H. apply H.
    rewrite fresh_length. apply utf16_len_ge.
  - induction 1 as [|c s Hc _ IH]; cbn; [reflexivity|]. rewrite IH, <- repaired_ok. unfold fix_cp. rewrite Hc. reflexivity.
Qed.
Print Assumptions C50_normalization_forms_fresh.
Example C50_case : exists ns', normalize test_env (NForm NFD) (new_nstring [0xE9; 0x61]%N) = Ok ns' /\ ns_text ns' = [0x65; 0x301; 0x61]%N.
Proof. eexists. split; vm_compute; reflexivity. Qed.

(** C51. Exactly when accent stripping is memory safe: every non-spacing mark of the NFD form must lie below the number of
    entries of the table once it has been grown. *)
Theorem C51_strip_accents_safe_iff : forall E ns r,
  length (ns_text ns) <= length (ns_ranges ns) -> e_norm E NFD (map repaired (ns_text ns)) = Some r ->
  let room := length (ns_ranges ns) + length (grow_ids (length (ns_text ns)) (ns_text ns) r 0 0) in
  ((forall i c, nth_error r i = Some c -> e_is_mn E c = true -> i < room) ->
     exists ns', do_strip_accents E ns = Ok ns' /\ ns_text ns' = filter (fun c => negb (e_is_mn E c)) r) /\
  ((exists i c, nth_error r i = Some c /\ e_is_mn E c = true /\ room <= i) -> do_strip_accents E ns = Undef OobIndex).
Proof.
  intros E ns r H1 H2 room. rewrite <- (map_ext _ _ repaired_ok) in H2. destruct (strip_accents_exact E ns r H1 H2) as [Ha Hb]. split; [|exact Hb].
  intros H. destruct (Ha H) as (ns' & E1 & E2 & _). eauto.
Qed.
Print Assumptions C51_strip_accents_safe_iff.

(** The same for the text itself: a text of n UTF-16 units is stripped of exactly the non-spacing marks of its NFD form, unless one of them lies at or
    beyond position n + (number of characters seen to decompose): then it is an out-of-range access. *)
Lemma differing_ok : forall fuel old new oi ni, length old <= fuel + oi -> length (grow_ids fuel old new oi ni) = differing (skipn oi old) (skipn ni new).
Proof.
  assert (N0 : forall {A} (l : list A) i, nth_error l i = match skipn i l with [] => None | x :: _ => Some x end) by (intros A; induction l as [|x l IHl]; intros [|i]; cbn; auto).
  assert (T0 : forall {A} (l : list A) i, skipn (S i) l = tl (skipn i l)) by (intros A; induction l as [|x l IHl]; intros [|i]; try reflexivity; cbn [skipn]; rewrite <- IHl; destruct l, i; reflexivity).
  induction fuel as [|f IH]; intros old new oi ni Hf.
  - cbn [grow_ids length]. rewrite (skipn_all2 old) by lia. destruct (skipn ni new); reflexivity.
  - cbn [grow_ids]. rewrite !N0. pose proof (T0 N old oi) as TO. pose proof (T0 N new ni) as TN. destruct (skipn oi old) as [|a o]; [reflexivity|]. destruct (skipn ni new) as [|b n]; [reflexivity|].
    cbn [differing tl] in *. destruct (a =? b)%N.
    + rewrite IH by lia. rewrite TO, TN. reflexivity.
    + cbn [length]. rewrite IH by lia. rewrite TO. replace (ni + 2) with (S (S ni)) by lia. rewrite T0, TN. reflexivity.
Qed.
Theorem C51_strip_accents_exactly : forall E s,
  match e_norm E NFD (map repaired s) with
  | None => do_strip_accents E (new_nstring s) = Throw RuntimeError
  | Some r =>
    let room := length (flat_map utf16_enc (map repaired s)) + differing s r in
    ((forall i c, nth_error r i = Some c -> e_is_mn E c = true -> i < room) ->
       exists ns', do_strip_accents E (new_nstring s) = Ok ns' /\ ns_text ns' = filter (fun c => negb (e_is_mn E c)) r) /\
    ((exists i c, nth_error r i = Some c /\ e_is_mn E c = true /\ room <= i) -> do_strip_accents E (new_nstring s) = Undef OobIndex)
  end.
Proof.
  intros E s. destruct (fresh_packed s) as [HP HT]. rewrite <- (map_ext _ _ repaired_ok). destruct (e_norm E NFD (map fix_cp s)) as [r|] eqn:Er.
  - assert (HL : length (ns_ranges (new_nstring s)) = length (flat_map utf16_enc (map fix_cp s))).
    { rewrite fresh_length. unfold from_utf32. f_equal. rewrite flat_map_concat_map, flat_map_concat_map, map_map. f_equal. apply map_ext. intros c. unfold fix_cp. destruct (valid_cp c); reflexivity. }
    pose proof (C51_strip_accents_safe_iff E (new_nstring s) r) as H. rewrite HT, HL, differing_ok in H by lia. rewrite (map_ext _ _ repaired_ok) in Er. apply H; [|exact Er]. rewrite <- (map_length fix_cp s). generalize (map fix_cp s). intros l. induction l as [|c l IH]; [reflexivity|]. cbn [flat_map length]. rewrite app_length. assert (0 < length (utf16_enc c)) by (unfold utf16_enc; destruct (c <? 0x10000)%N; cbn; lia). lia.
  - unfold do_strip_accents, normalize_nf. rewrite HT, Er. reflexivity.
Qed.
Print Assumptions C51_strip_accents_exactly.

(** Safe, exact and aligned for every text of the basic plane whose characters decompose into at most two. *)
Theorem C51_strip_accents : forall E ps,
  bmp (before ps) -> Forall simple_piece ps -> e_norm E NFD (map repaired (before ps)) = Some (after ps) ->
  exists ns', do_strip_accents E (new_nstring (before ps)) = Ok ns' /\
    ns_text ns' = filter (fun c => negb (e_is_mn E c)) (after ps) /\
    length (ns_ranges ns') = length (ns_text ns') /\
    origins ns' (length (ns_text ns')) = map unit_span (kept_src (fun c => negb (e_is_mn E c)) ps 0).
Proof. intros E ps H1 H2 H3. rewrite <- (map_ext _ _ repaired_ok) in H3. exact (strip_accents_aligned E ps H1 H2 H3). Qed.
Print Assumptions C51_strip_accents.
Example C51_case : let ps := [(0xE9, [0x65; 0x301]); (0x61, [0x61]); (0xE9, [0x65; 0x301])]%N in
  bmp (before ps) /\ Forall simple_piece ps /\ e_norm test_env NFD (map repaired (before ps)) = Some (after ps) /\
  filter (fun c => negb (e_is_mn test_env c)) (after ps) = [0x65; 0x61; 0x65]%N /\ kept_src (fun c => negb (e_is_mn test_env c)) ps 0 = [0; 1; 2].
Proof.
  cbn zeta. split; [repeat constructor|]. split; [|split; [vm_compute; reflexivity|split; vm_compute; reflexivity]].
  assert (simple_piece (0xE9, [0x65; 0x301])%N) by (right; split; [cbn; lia|]; do 2 eexists; split; [reflexivity | cbn; lia]).
  apply Forall_cons; [assumption|]. apply Forall_cons; [left; reflexivity|]. apply Forall_cons; [assumption | apply Forall_nil].
Qed.

(** The full statement fails wherever ICU decomposes U+1EA5 as Unicode says (a, circumflex, acute): the letter alone. *)
Theorem C51_strip_accents_refuted : forall E, e_norm E NFD [0x1EA5]%N = Some [0x61; 0x302; 0x301]%N -> e_is_mn E 0x61%N = false ->
  e_is_mn E 0x302%N = true -> e_is_mn E 0x301%N = true ->
  forall clean, unwanted E 0x1EA5%N = false -> blank E 0x1EA5%N = false ->
  forall strip lower, strip || lower = true -> normalize E (NBert clean true strip lower) (new_nstring [0x1EA5]%N) = Undef OobIndex.
Proof.
  intros E H1 H2 H3 H4 clean Hr Hw strip lower Hsl. cbn [normalize]. unfold bert_normalize.
  assert (Hc : (if clean then do_clean_text E (new_nstring [0x1EA5]%N) else Ok (new_nstring [0x1EA5]%N)) = Ok (new_nstring [0x1EA5]%N)).
  { destruct clean; [|reflexivity]. rewrite C49_clean_text_aligned by (constructor; [exact Hr | constructor]). change (ns_text (new_nstring [0x1EA5]%N)) with [0x1EA5]%N. cbn [map]. rewrite Hw. reflexivity. }
  rewrite Hc. cbn [bind]. change (do_handle_chinese_chars (new_nstring [0x1EA5]%N)) with (Ok (new_nstring [0x1EA5]%N)). cbn [bind]. rewrite Hsl.
  rewrite (proj2 (C51_strip_accents_safe_iff E (new_nstring [0x1EA5]%N) [0x61; 0x302; 0x301]%N ltac:(vm_compute; lia) H1)); [reflexivity|].
  exists 2, 0x301%N. split; [reflexivity|]. split; [exact H4 | vm_compute; lia].
Qed.
Print Assumptions C51_strip_accents_refuted.
Example C51_refuted_case : normalize test_env (NBert true true true true) (new_nstring [0x1EA5]%N) = Undef OobIndex.
Proof. apply C51_strip_accents_refuted; vm_compute; reflexivity. Qed.

Lemma space_byte_ok c : is_space_byte c = space_letter c.
Proof.
  unfold is_space_byte, space_letter. cbn [existsb]. apply Bool.eq_true_iff_eq. rewrite !Bool.orb_true_iff, Bool.andb_true_iff, !N.eqb_eq, !N.leb_le. split; [lia|].
  intros H. assert (HF : (false = true) -> False) by discriminate. intuition lia.
Qed.
Lemma stripped_ext f g l r s o : Forall (fun c => f c = g c) s -> stripped f l r s o -> stripped g l r s o.
Proof.
  intros H (pre & post & -> & H1 & H2 & H3 & H4 & H5 & H6). apply Forall_app in H as [Ha H]. apply Forall_app in H as [Hb Hc].
  assert (HX : forall l0, Forall (fun c => f c = g c) l0 -> Forall (fun c => f c = true) l0 -> Forall (fun c => g c = true) l0).
  { intros l0 F1 F2. rewrite Forall_forall in *. intros c Hin. rewrite <- F1; auto. }
  exists pre, post. split; [reflexivity|]. split; [auto|]. split; [auto|]. split; [exact H3|]. split; [exact H4|]. split.
  - intros Hl. specialize (H5 Hl). destruct o as [|c o]; [exact I|]. inversion Hb; congruence.
  - intros Hr. specialize (H6 Hr). apply Forall_rev in Hb. destruct (rev o) as [|c o']; [exact I|]. inversion Hb; congruence.
Qed.
(** C52. What Strip really removes: characters whose low byte is a white-space byte. *)
Theorem C52_strip_low_byte : forall l r E ns, exists ns', normalize E (NStrip l r) ns = Ok ns' /\
  stripped (fun c => space_letter (c mod 256)%N) l r (ns_text ns) (ns_text ns').
Proof.
  intros l r E ns. destruct (strip_stripped l r (ns_text ns) ns eq_refl) as (ns' & H1 & H2). exists ns'. split; [exact H1|].
  eapply stripped_ext; [|exact H2]. apply Forall_forall. intros c _. apply space_byte_ok.
Qed.
Print Assumptions C52_strip_low_byte.
(** For Latin-1 texts that is exactly the ASCII white space. *)
Theorem C52_strip_exact : forall l r E ns, Forall (fun c => (c < 256)%N) (ns_text ns) ->
  exists ns', normalize E (NStrip l r) ns = Ok ns' /\ stripped space_letter l r (ns_text ns) (ns_text ns').
Proof.
  intros l r E ns H. destruct (C52_strip_low_byte l r E ns) as (ns' & H1 & H2). exists ns'. split; [exact H1|].
  eapply stripped_ext; [|exact H2]. eapply Forall_impl; [|exact H]. intros c Hc. cbn beta. rewrite N.mod_small by exact Hc. reflexivity.
Qed.
Print Assumptions C52_strip_exact.
Example C52_case : exists ns', normalize test_env (NStrip true true) (new_nstring (str "  a b ")) = Ok ns' /\ ns_text ns' = str "a b".
Proof. eexists. split; vm_compute; reflexivity. Qed.
(** The full statement fails: the letter G with a dot above (U+0120, low byte 0x20) is removed, U+00A0 is not. *)
Theorem C52_strip_refuted : forall E, (exists ns', normalize E (NStrip true true) (new_nstring [0x120; 0x61]%N) = Ok ns' /\ ns_text ns' = [0x61]%N) /\
  (exists ns', normalize E (NStrip true true) (new_nstring [0xA0; 0x61]%N) = Ok ns' /\ ns_text ns' = [0xA0; 0x61]%N).
Proof. intros E. split; eexists; (split; [vm_compute; reflexivity | reflexivity]). Qed.
Print Assumptions C52_strip_refuted.

(** C53. *)
Theorem C53_strip_accents_exact : forall E ns, exists ns', normalize E NStripAccents ns = Ok ns' /\
  ns_text ns' = filter (fun c => negb ((0x300 <=? c) && (c <=? 0x36F))%N) (ns_text ns).
Proof. intros. eexists; split; reflexivity. Qed.
Print Assumptions C53_strip_accents_exact.
Theorem C53_strip_accents_idempotent : forall E ns ns' ns'', normalize E NStripAccents ns = Ok ns' -> normalize E NStripAccents ns' = Ok ns'' ->
  ns_text ns'' = ns_text ns' /\ (forall c, In c (ns_text ns') <-> In c (ns_text ns) /\ ~ (0x300 <= c <= 0x36F)%N).
Proof.
  intros E ns ns' ns'' H1 H2. injection H1 as <-. injection H2 as <-. cbn [ns_text set_text]. split.
  - apply filter_all. intros c Hc. apply filter_In in Hc. apply Hc.
  - intros c. rewrite filter_In. unfold is_combining_mark. split; intros [Ha Hb]; (split; [exact Ha | lia]).
Qed.
Print Assumptions C53_strip_accents_idempotent.
Example C53_case : exists ns', normalize test_env NStripAccents (new_nstring [0x65; 0x301; 0x62]%N) = Ok ns' /\ ns_text ns' = [0x65; 0x62]%N.
Proof. eexists. split; vm_compute; reflexivity. Qed.

(** C54. *)
Lemma prepend_ok p w ns bl : convert_from_string p = Ok w -> Packed ns bl -> bl <> [] -> exists ns', prepend_normalize p ns = Ok ns' /\ ns_text ns' = w ++ ns_text ns.
Proof.
  intros Hp HP Hne. destruct bl as [|[o n] bl]; [contradiction|]. unfold prepend_normalize. rewrite Hp. cbn [bind].
  destruct (length p) as [|k] eqn:Ek.
  - destruct HP as [Hr Ho Hpos]. inversion Hpos as [|? ? Hn _]; subst. cbn in Hn. unfold transform. rewrite Hr, Ho. cbn [tab_ranges vat nth_error bind].
    rewrite verase1 by (cbn; lia). cbn [firstn skipn app bind vinsert length Nat.leb tab_offsets flat_map fst snd]. destruct n as [|n]; [lia|].
    cbn [repeat app vat nth_error bind]. eexists; split; [reflexivity|]. reflexivity.
  - destruct (transform_add ns [] bl o n HP (S k) ltac:(lia)) as (ns' & H1 & H2 & _). cbn [length] in H1. rewrite H1. cbn [bind]. eexists; split; [reflexivity|]. reflexivity.
Qed.
(** Defined and exact on every non-empty text (a prefix that is not UTF-8 throws). *)
Theorem C54_prepend : forall E p s, s <> [] ->
  match convert_from_string p with
  | Ok w => exists ns', normalize E (NPrepend p) (new_nstring s) = Ok ns' /\ ns_text ns' = w ++ s
  | _ => normalize E (NPrepend p) (new_nstring s) = Throw RangeError
  end.
Proof.
  intros E p s Hs. cbn [normalize]. destruct (convert_from_string p) as [w|e|u|] eqn:Ep.
  - destruct (fresh_packed s) as [HP Ht]. destruct (prepend_ok p w _ _ Ep HP) as (ns' & H1 & H2).
    + intros H. apply (f_equal (@length _)) in H. rewrite unit_blocks_length in H. pose proof (utf16_len_ge s). destruct s; [contradiction | cbn in *; lia].
    + exists ns'. split; [exact H1|]. rewrite H2, Ht. reflexivity.
  - unfold prepend_normalize. rewrite Ep. unfold convert_from_string in Ep. destruct (all_some (utf8_dec p)); [discriminate|]. injection Ep as <-. reflexivity.
  - unfold convert_from_string in Ep. destruct (all_some (utf8_dec p)); discriminate.
  - unfold convert_from_string in Ep. destruct (all_some (utf8_dec p)); discriminate.
Qed.
Print Assumptions C54_prepend.
(** A one-character prefix keeps the alignment: it points at the first character. *)
Theorem C54_prepend_aligned : forall E p d s, s <> [] -> bmp s -> p <> [] -> convert_from_string p = Ok [d] ->
  exists ns', normalize E (NPrepend p) (new_nstring s) = Ok ns' /\ ns_text ns' = d :: s /\
    origins ns' (length (ns_text ns')) = unit_span 0 :: map unit_span (seq 0 (length s)).
Proof.
  intros E p d s Hs Hb Hp Hc. cbn [normalize]. unfold prepend_normalize. rewrite Hc. cbn [bind].
  destruct (fresh_packed s) as [HP Ht]. rewrite bmp_len in HP by exact Hb. destruct s as [|c s]; [contradiction|]. cbn [length unit_blocks] in HP.
  destruct (transform_add (new_nstring (c :: s)) [] _ _ _ HP (length p)) as (ns' & H1 & H2 & H3); [destruct p; [contradiction | cbn; lia]|].
  cbn [length] in H1. rewrite H1. cbn [bind]. eexists; split; [reflexivity|]. cbn [set_text ns_text]. rewrite Ht. split; [reflexivity|]. change ([d] ++ c :: s) with (d :: c :: s).
  assert (H3' : Packed (set_text ns' (d :: c :: s)) (((0, 1), length p) :: unit_blocks (from_utf32 (c :: s)) (S (length s)) 0)) by (destruct H3; constructor; assumption).
  replace (length (d :: c :: s)) with (length (((0, 1), length p) :: unit_blocks (from_utf32 (c :: s)) (S (length s)) 0)) by (cbn [length]; rewrite unit_blocks_length; reflexivity).
  rewrite (packed_origins _ _ H3'). cbn [map fst]. f_equal. generalize (from_utf32 (c :: s)) as u. intros u.
  change (length (c :: s)) with (S (length s)). generalize (S (length s)) as n. intros n. generalize 0 as i. induction n as [|n IH]; intros i; [reflexivity|]. cbn [unit_blocks map seq fst]. rewrite IH. reflexivity.
Qed.
Print Assumptions C54_prepend_aligned.
Example C54_case : exists ns', normalize test_env (NPrepend [0xE2; 0x96; 0x81]%N) (new_nstring (str "ab")) = Ok ns' /\ ns_text ns' = [0x2581; 97; 98]%N /\ origins ns' 3 = [unit_span 0; unit_span 0; unit_span 1].
Proof. eexists. split; [vm_compute; reflexivity|]. split; reflexivity. Qed.
(** The full statement fails: the empty text is an out-of-range access, whatever the prefix ... *)
Theorem C54_prepend_refuted : forall E p w, convert_from_string p = Ok w -> normalize E (NPrepend p) (new_nstring []) = Undef OobIndex.
Proof. intros E p w H. cbn [normalize]. unfold prepend_normalize. rewrite H. reflexivity. Qed.
Print Assumptions C54_prepend_refuted.
(** ... and a longer prefix loses the alignment: in "<>xy" the x, third character, points at the y. *)
Theorem C54_alignment_refuted : forall E, exists ns', normalize E (NPrepend (str "<>")) (new_nstring (str "xy")) = Ok ns' /\ ns_text ns' = str "<>xy" /\ origin ns' 2 = Some (1, 2).
Proof. intros E. eexists. split; [vm_compute; reflexivity|]. split; reflexivity. Qed.
Print Assumptions C54_alignment_refuted.

(** C55. A one-character pattern found literally and a one-character replacement: exactly when it is defined, and what it
    gives: the j-th match (from 0) at position p needs p + j < number of table entries. *)
Theorem C55_replace_defined_iff : forall E c d pat content s, finds_literally E c -> e_inplace E = true ->
  convert_from_string pat = Ok [c] -> convert_from_string content = Ok [d] ->
  let found := positions (N.eqb c) s 0 in
  ((forall j p, nth_error found j = Some p -> p + j < length (from_utf32 s)) ->
     exists ns', normalize E (NReplace pat content) (new_nstring s) = Ok ns' /\ ns_text ns' = map (fun x => if (x =? c)%N then d else x) s) /\
  ((exists j p, nth_error found j = Some p /\ length (from_utf32 s) <= p + j) ->
     normalize E (NReplace pat content) (new_nstring s) = Undef OobIndex).
Proof.
  intros E c d pat content s HE Hin Hp Hc found. cbn [normalize]. unfold replace_normalize. rewrite Hp. cbn [bind]. rewrite (proj1 HE). cbn [negb]. rewrite Hc. cbn [bind].
  destruct (fresh_packed s) as [HP Ht]. rewrite Ht.
  pose proof (replace_matches_spec E c d HE Hin (2 * length s + 3) s [] false ltac:(lia)) as HM. cbn [app length] in HM. rewrite HM. cbn [bind]. fold found.
  assert (Hk : 0 < length content) by (destruct content; [discriminate | cbn; lia]).
  pose proof (packed_loose _ _ HP) as HL. split.
  - intros H. destruct (apply_replace_ok found (new_nstring s) _ (length content) 0 HL Hk) as (ns' & bl' & H1 & _).
    + intros j p Hj. rewrite unit_blocks_length. specialize (H j p Hj). lia.
    + cbn [length]. rewrite H1. cbn [bind]. eexists; split; [reflexivity|]. reflexivity.
  - intros (j & p & Hj & Hl). cbn [length]. rewrite (apply_replace_oob found (new_nstring s) _ (length content) 0 HL Hk); [reflexivity|].
    exists j, p. split; [exact Hj|]. rewrite unit_blocks_length. lia.
Qed.
Print Assumptions C55_replace_defined_iff.

(** At most one match: always defined. *)
Theorem C55_replace_one : forall E c d pat content s, finds_literally E c -> e_inplace E = true ->
  convert_from_string pat = Ok [c] -> convert_from_string content = Ok [d] -> length (positions (N.eqb c) s 0) <= 1 ->
  exists ns', normalize E (NReplace pat content) (new_nstring s) = Ok ns' /\ ns_text ns' = map (fun x => if (x =? c)%N then d else x) s.
Proof.
  intros E c d pat content s HE Hin Hp Hc H1. apply (C55_replace_defined_iff E c d pat content s HE Hin Hp Hc).
  intros j p Hj. assert (j < length (positions (N.eqb c) s 0)) by (apply nth_error_Some; congruence).
  pose proof (proj1 (Forall_forall _ _) (positions_ge (N.eqb c) s 0) p (nth_error_In _ _ Hj)) as Hr. cbn beta in Hr. pose proof (utf16_len_ge s). lia.
Qed.
Print Assumptions C55_replace_one.
Example C55_case : finds_literally test_env 32 /\ (exists ns', normalize test_env (NReplace (str " ") [0xE2; 0x96; 0x81]%N) (new_nstring (str "ab cd")) = Ok ns' /\ ns_text ns' = [97; 98; 0x2581; 99; 100]%N).
Proof.
  split.
  - split; [reflexivity|]. intros text from we. cbn [test_env e_wregex_next length].
    assert (H : forall s pos, find_lit [32%N] s pos = first_at 32 s pos).
    { induction s as [|x s IH]; intros pos; [reflexivity|]. cbn [find_lit is_prefix first_at]. rewrite andb_true_r, N.eqb_sym. destruct (x =? 32)%N; [reflexivity | apply IH]. }
    rewrite H. reflexivity.
  - eexists. split; vm_compute; reflexivity.
Qed.

(** The full statement fails: two spaces are an out-of-range access ... *)
Theorem C55_replace_refuted : forall E, finds_literally E 32 -> e_inplace E = true ->
  normalize E (NReplace (str " ") [0xE2; 0x96; 0x81]%N) (new_nstring (str "  ")) = Undef OobIndex.
Proof.
  intros E HE Hin. apply (C55_replace_defined_iff E 32 0x2581 (str " ") [0xE2; 0x96; 0x81]%N (str "  ") HE Hin eq_refl eq_refl).
  exists 1, 1. split; [reflexivity | vm_compute; lia].
Qed.
Print Assumptions C55_replace_refuted.
(** ... and a replacement of any other length than one character uses an invalidated iterator as soon as there is a match. *)
Theorem C55_replace_length_refuted : forall E c pat content w s, finds_literally E c -> convert_from_string pat = Ok [c] -> convert_from_string content = Ok w ->
  length w <> 1 -> In c s -> normalize E (NReplace pat content) (new_nstring s) = Undef IterInvalidated.
Proof.
  intros E c pat content w s HE Hp Hc Hw Hin. cbn [normalize]. unfold replace_normalize. rewrite Hp. cbn [bind]. rewrite (proj1 HE). cbn [negb]. rewrite Hc. cbn [bind].
  destruct (fresh_packed s) as [_ ->]. replace (2 * length s + 3) with (S (2 * length s + 2)) by lia. cbn [replace_matches]. rewrite (proj2 HE). cbn [skipn].
  pose proof (first_at_spec c s 0) as HF. destruct (first_at c s 0) as [p|]; [|destruct HF; contradiction]. destruct HF as (s1 & s2 & -> & _ & ->). cbn [Nat.add].
  pose proof (verase_mid s1 [c] s2) as Hv. cbn [length app] in Hv. rewrite Hv. cbn [bind]. rewrite vinsert_mid. cbn [bind].
  replace (length w =? 1) with false by lia. rewrite andb_false_r. reflexivity.
Qed.
Print Assumptions C55_replace_length_refuted.
Example C55_length_case : normalize test_env (NReplace (str " ") (str "--")) (new_nstring (str "a b")) = Undef IterInvalidated.
Proof. vm_compute. reflexivity. Qed.

(** Any pattern, when the engine reports no match: the text comes back unchanged. *)
Theorem C55_no_match : forall E pat p content w s, convert_from_string pat = Ok p -> e_wregex_ok E p = true -> convert_from_string content = Ok w ->
  e_wregex_next E p s 0 false = None -> normalize E (NReplace pat content) (new_nstring s) = Ok (new_nstring s).
Proof.
  intros E pat p content w s Hp Hok Hc Hn. cbn [normalize]. unfold replace_normalize. rewrite Hp. cbn [bind]. rewrite Hok. cbn [negb]. rewrite Hc. cbn [bind].
  destruct (fresh_packed s) as [_ Ht]. rewrite Ht. replace (2 * length s + 3) with (S (2 * length s + 2)) by lia. cbn [replace_matches]. rewrite Hn. cbn [bind apply_replace]. f_equal. destruct (new_nstring s) as [t r o]. cbn in Ht. subst t. reflexivity.
Qed.
Print Assumptions C55_no_match.
(** Any pattern with exactly one match, of any length, and a one-character replacement: only the first character of the match is replaced, the rest of the match stays. *)
Theorem C55_one_match : forall E pat p content d s pos len, convert_from_string pat = Ok p -> e_wregex_ok E p = true -> convert_from_string content = Ok [d] -> e_inplace E = true ->
  e_wregex_next E p s 0 false = Some (pos, len) -> pos < length s ->
  e_wregex_next E p (firstn pos s ++ d :: skipn (pos + 1) s) (pos + len) (len =? 0) = None ->
  exists ns', normalize E (NReplace pat content) (new_nstring s) = Ok ns' /\ ns_text ns' = firstn pos s ++ d :: skipn (pos + 1) s.
Proof.
  intros E pat p content d s pos len Hp Hok Hc Hin Hm Hpos Hno. cbn [normalize]. unfold replace_normalize. rewrite Hp. cbn [bind]. rewrite Hok. cbn [negb]. rewrite Hc. cbn [bind].
  destruct (fresh_packed s) as [HP Ht]. rewrite Ht. replace (2 * length s + 3) with (S (S (2 * length s + 1))) by lia. cbn [replace_matches]. rewrite Hm.
  rewrite verase1 by exact Hpos. cbn [bind].
  pose proof (vinsert_mid (firstn pos s) (skipn (S pos) s) [d]) as Hi. rewrite firstn_length, Nat.min_l in Hi by lia. rewrite Hi. cbn [bind]. rewrite Hin. cbn [andb length Nat.eqb].
  change ([d] ++ skipn (S pos) s) with (d :: skipn (S pos) s). replace (S pos) with (pos + 1) by lia. rewrite Hno. cbn [bind].
  assert (Hk : 0 < length content) by (destruct content; [discriminate | cbn; lia]).
  destruct (apply_replace_ok [pos] (new_nstring s) _ (length content) 0 (packed_loose _ _ HP) Hk) as (ns' & bl' & H1 & _).
  - intros [|[|j]] i Hj; [|discriminate..]. injection Hj as <-. rewrite unit_blocks_length. pose proof (utf16_len_ge s). lia.
  - rewrite H1. cbn [bind]. eexists; split; reflexivity.
Qed.
Print Assumptions C55_one_match.
(** Any pattern with a match and a replacement of another length than one: an invalidated iterator is used. *)
Theorem C55_other_length : forall E pat p content w s pos len, convert_from_string pat = Ok p -> e_wregex_ok E p = true -> convert_from_string content = Ok w -> length w <> 1 ->
  e_wregex_next E p s 0 false = Some (pos, len) -> pos < length s -> normalize E (NReplace pat content) (new_nstring s) = Undef IterInvalidated.
Proof.
  intros E pat p content w s pos len Hp Hok Hc Hw Hm Hpos. cbn [normalize]. unfold replace_normalize. rewrite Hp. cbn [bind]. rewrite Hok. cbn [negb]. rewrite Hc. cbn [bind].
  destruct (fresh_packed s) as [HP Ht]. rewrite Ht. replace (2 * length s + 3) with (S (2 * length s + 2)) by lia. cbn [replace_matches]. rewrite Hm.
  rewrite verase1 by exact Hpos. cbn [bind].
  pose proof (vinsert_mid (firstn pos s) (skipn (S pos) s) w) as Hi. rewrite firstn_length, Nat.min_l in Hi by lia. rewrite Hi. cbn [bind].
  replace (length w =? 1) with false by lia. rewrite andb_false_r. reflexivity.
Qed.
Print Assumptions C55_other_length.
Example C55_one_match_case : exists ns', normalize test_env (NReplace (str "ab") (str "-")) (new_nstring (str "xabx")) = Ok ns' /\ ns_text ns' = str "x-bx".
Proof. eexists. split; vm_compute; reflexivity. Qed.

(** C56. *)
Theorem C56_sequence_normalizer : forall E a b ns,
  normalize E (NSequence []) ns = Ok ns /\ normalize E (NSequence [a]) ns = normalize E a ns /\
  forall l1 l2, normalize E (NSequence (l1 ++ l2)) ns = (x <- normalize E (NSequence l1) ns ;; normalize E (NSequence l2) x) /\
  normalize E (NSequence (a :: b :: l1)) ns = (x <- normalize E a ns ;; y <- normalize E b x ;; normalize E (NSequence l1) y).
Proof.
  intros E a b ns. split; [reflexivity|]. split; [cbn; destruct (normalize E a ns); reflexivity|]. intros l1 l2. split; [|reflexivity].
  revert ns. induction l1 as [|q l1 IH]; intros ns; [reflexivity|]. cbn [app]. cbn. destruct (normalize E q ns) as [x| | |]; cbn; try reflexivity. apply (IH x).
Qed.
Print Assumptions C56_sequence_normalizer.
Theorem C56_sequence_pre_tokenizer : forall E a b p,
  pre_tokenize E (TSequence []) p = Ok p /\ pre_tokenize E (TSequence [a]) p = pre_tokenize E a p /\
  forall l1 l2, pre_tokenize E (TSequence (l1 ++ l2)) p = (x <- pre_tokenize E (TSequence l1) p ;; pre_tokenize E (TSequence l2) x) /\
  pre_tokenize E (TSequence (a :: b :: l1)) p = (x <- pre_tokenize E a p ;; y <- pre_tokenize E b x ;; pre_tokenize E (TSequence l1) y).
Proof.
  intros E a b p. split; [reflexivity|]. split; [cbn; destruct (pre_tokenize E a p); reflexivity|]. intros l1 l2. split; [|reflexivity].
  revert p. induction l1 as [|q l1 IH]; intros p; [reflexivity|]. cbn [app]. cbn. destruct (pre_tokenize E q p) as [x| | |]; cbn; try reflexivity. apply (IH x).
Qed.
Print Assumptions C56_sequence_pre_tokenizer.
Theorem C56_sequence_decoder : forall a b t,
  decode_chain (DSequence []) t = Ok t /\ decode_chain (DSequence [a]) t = decode_chain a t /\
  forall l1 l2, decode_chain (DSequence (l1 ++ l2)) t = (x <- decode_chain (DSequence l1) t ;; decode_chain (DSequence l2) x) /\
  decode_chain (DSequence (a :: b :: l1)) t = (x <- decode_chain a t ;; y <- decode_chain b x ;; decode_chain (DSequence l1) y).
Proof.
  intros a b t. rewrite !decode_seq_fold. split; [reflexivity|]. split; [cbn; destruct (decode_chain a t); reflexivity|]. intros l1 l2. split.
  - revert t. induction l1 as [|q l1 IH]; intros t; [reflexivity|]. cbn [app]. cbn. destruct (decode_chain q t) as [x| | |]; cbn; try reflexivity. apply (IH x).
  - rewrite decode_seq_fold. cbn [foldM]. destruct (decode_chain a t) as [x| | |]; cbn [bind]; try reflexivity. destruct (decode_chain b x); cbn [bind]; try reflexivity.
    rewrite decode_seq_fold. reflexivity.
Qed.
Print Assumptions C56_sequence_decoder.
Example C56_case : exists ns', normalize test_env (NSequence [NForm NFD; NStripAccents]) (new_nstring [0xE9; 0x61]%N) = Ok ns' /\ ns_text ns' = [0x65; 0x61]%N.
Proof. eexists. split; vm_compute; reflexivity. Qed.
