(** extract_and_normalize when the normalizer leaves the tables of its argument unchanged. *)
From Verif Require Import Base BaseFacts Unicode UnicodeProofs Common Normalizer PreTokenizer WordPiece AddedVocab NormSpec NormProofs PreSpec PreProofs WpProofs AvSpec AvProofs.
From Coq Require Import ZifyBool ZifyNat ZifyN.

(** ** Numbered blocks: entry i stems from unit i *)
Fixpoint numbered (k : nat) (z : list nat) : blocks := match z with [] => [] | n :: r => ((k, S k), n) :: numbered (S k) r end.
Lemma numbered_app k a b : numbered k (a ++ b) = numbered k a ++ numbered (k + length a) b.
Proof. revert k; induction a as [|x a IH]; intros k; cbn; [rewrite Nat.add_0_r; reflexivity|]. rewrite IH. do 3 f_equal. lia. Qed.
Lemma numbered_length k z : length (numbered k z) = length z.
Proof. revert k; induction z as [|x z IH]; intros k; cbn; [reflexivity | rewrite IH; reflexivity]. Qed.
Lemma numbered_snd k z : map snd (numbered k z) = z.
Proof. revert k; induction z as [|x z IH]; intros k; cbn; [reflexivity | rewrite IH; reflexivity]. Qed.
Lemma numbered_size k z : size (numbered k z) = list_sum z.
Proof. revert k; induction z as [|x z IH]; intros k; [reflexivity|]. cbn [numbered size]. rewrite IH. reflexivity. Qed.
Lemma numbered_nth k z i : i < length z -> option_map fst (nth_error (numbered k z) i) = Some (k + i, S (k + i)).
Proof.
  revert k i; induction z as [|x z IH]; intros k [|i] H; cbn [length] in H; try lia; [cbn; rewrite Nat.add_0_r; reflexivity|]. cbn [numbered nth_error].
  rewrite IH by lia. do 2 f_equal; lia.
Qed.
Definition numbered_ns (z : list nat) (junk : list (nat * nat)) (text : wstr) : nstring :=
  mkNs text (tab_ranges 0 (numbered 0 z)) (tab_offsets (numbered 0 z) ++ junk).
Definition unit_sizes (s : wstr) : list nat := map (fun i => length (utf8_of_cp (char32_at (from_utf32 s) i))) (seq 0 (length (from_utf32 s))).

Lemma unit_blocks_numbered u todo : forall i, unit_blocks u todo i = numbered i (map (fun j => length (utf8_of_cp (char32_at u j))) (seq i todo)).
Proof. induction todo as [|n IH]; intros i; [reflexivity|]. cbn [unit_blocks seq map numbered]. rewrite IH. reflexivity. Qed.
Lemma fresh_numbered s : new_nstring s = numbered_ns (unit_sizes s) [] s.
Proof. unfold new_nstring. rewrite ns_tables_blocks, unit_blocks_numbered. unfold numbered_ns, unit_sizes. rewrite app_nil_r. reflexivity. Qed.
Lemma unit_sizes_pos s : Forall (fun n => 0 < n) (unit_sizes s).
Proof. unfold unit_sizes. apply Forall_forall. intros n Hn. apply in_map_iff in Hn as (i & <- & _). apply utf8_of_cp_pos. Qed.
Lemma unit_sizes_length s : length (unit_sizes s) = length (from_utf32 s).
Proof. unfold unit_sizes. rewrite map_length, seq_length. reflexivity. Qed.
Lemma bmp_sizes s : bmp s -> unit_sizes s = map (fun c => length (utf8_of_cp (fix_cp c))) s.
Proof.
  intros H. unfold unit_sizes. apply list_ext. intros i. rewrite !nth_error_map. rewrite (bmp_len s H). destruct (nth_error s i) as [c|] eqn:E.
  - assert (i < length s) by (apply nth_error_Some; congruence). rewrite (nth_error_nth' _ 0) by (rewrite seq_length; lia). rewrite seq_nth by lia. cbn [Nat.add option_map]. rewrite (char32_at_bmp s i c H E). reflexivity.
  - apply nth_error_None in E. rewrite (proj2 (nth_error_None _ _)) by (rewrite seq_length; lia). reflexivity.
Qed.

Lemma numbered_origin z junk text i : Forall (fun n => 0 < n) z -> i < length z -> origin (numbered_ns z junk text) i = unit_span i.
Proof.
  intros Hz Hi. unfold origin, numbered_ns. cbn [ns_ranges ns_offsets].
  assert (HP : Packed (mkNs text (tab_ranges 0 (numbered 0 z)) (tab_offsets (numbered 0 z))) (numbered 0 z)).
  { constructor; [reflexivity | reflexivity|]. apply Forall_forall. intros p Hp. apply (in_map snd) in Hp. rewrite numbered_snd in Hp. exact (proj1 (Forall_forall _ _) Hz _ Hp). }
  pose proof (packed_origin _ _ i HP) as H. rewrite (numbered_nth 0 z i Hi) in H. unfold origin in H. cbn [ns_ranges ns_offsets Nat.add] in H.
  destruct (nth_error (tab_ranges 0 (numbered 0 z)) i) as [[st n]|]; [|discriminate].
  rewrite nth_error_app1; [exact H|]. apply nth_error_Some. congruence.
Qed.

(** ** One call of transform_range *)
Lemma rebase_numbered z : Forall (fun n => 0 < n) z -> forall j k n,
  rebase_offsets (j, S j) (k, S k) (repeat (j, S j) n ++ tab_offsets (numbered (S j) z)) = repeat (k, S k) n ++ tab_offsets (numbered (S k) z).
Proof.
  induction 1 as [|m z Hm Hz IH]; intros j k n.
  - cbn [numbered tab_offsets flat_map]. rewrite !app_nil_r. induction n as [|n IHn]; [reflexivity|]. cbn [repeat rebase_offsets fst snd]. rewrite !Nat.eqb_refl. cbn [andb]. rewrite IHn. reflexivity.
  - induction n as [|n IHn]; [|cbn [repeat app rebase_offsets fst snd]; rewrite !Nat.eqb_refl; cbn [andb]; rewrite IHn; reflexivity].
    cbn [repeat app numbered tab_offsets flat_map fst snd]. fold (tab_offsets (numbered (S (S j)) z)). fold (tab_offsets (numbered (S (S k)) z)). destruct m as [|m]; [lia|]. cbn [repeat app rebase_offsets fst snd].
    destruct (Nat.eqb_spec j (S j)); [lia|]. cbn [andb]. rewrite Nat.add_1_r. rewrite IH. reflexivity.
Qed.
Lemma rebase_all z : z <> [] -> Forall (fun n => 0 < n) z -> forall k, exists o r, tab_offsets (numbered 0 z) = o :: r /\ (k, S k) :: rebase_offsets o (k, S k) r = tab_offsets (numbered k z).
Proof.
  intros Hne Hz k. destruct z as [|n z]; [congruence|]. inversion Hz as [|? ? Hn Hz']; subst. destruct n as [|n]; [lia|]. cbn [numbered tab_offsets flat_map fst snd repeat app].
  fold (tab_offsets (numbered 1 z)). fold (tab_offsets (numbered (S k) z)). do 2 eexists. split; [reflexivity|]. rewrite (rebase_numbered z Hz' 0 k n). reflexivity.
Qed.
Lemma last_tab bl : bl <> [] -> forall a, pair_end (last (tab_ranges a bl) (0, 0)) = a + size bl.
Proof.
  induction bl as [|[o n] bl IH]; intros Hne a; [congruence|]. cbn [tab_ranges size]. destruct bl as [|b bl]; [cbn; lia|].
  assert (Hl : last ((a, n) :: tab_ranges (a + n) (b :: bl)) (0, 0) = last (tab_ranges (a + n) (b :: bl)) (0, 0)) by (destruct b; reflexivity).
  rewrite Hl, IH by discriminate. cbn [size]. lia.
Qed.

Lemma transform_numbered zA zw zB junk text sub : zw <> [] -> Forall (fun n => 0 < n) (zA ++ zw ++ zB) ->
  ns_ranges sub = tab_ranges 0 (numbered 0 zw) -> ns_offsets sub = tab_offsets (numbered 0 zw) ->
  exists junk', transform_range (numbered_ns (zA ++ zw ++ zB) junk text) (length zA, length zA + length zw) sub = Ok (numbered_ns (zA ++ zw ++ zB) junk' text).
Proof.
  intros Hne Hpos Hr Ho. unfold transform_range, numbered_ns. cbn [ns_ranges ns_offsets ns_text].
  assert (Hpw : Forall (fun n => 0 < n) zw) by (apply Forall_app in Hpos as [_ Hpos]; apply Forall_app in Hpos as [Hpos _]; exact Hpos).
  set (R := tab_ranges 0 (numbered 0 (zA ++ zw ++ zB))).
  assert (HR : R = tab_ranges 0 (numbered 0 zA) ++ tab_ranges (list_sum zA) (numbered (length zA) zw) ++ tab_ranges (list_sum zA + list_sum zw) (numbered (length zA + length zw) zB)).
  { unfold R. rewrite !numbered_app, !tab_ranges_app, !numbered_size. reflexivity. }
  assert (Hzw : exists n zw', zw = n :: zw' /\ 0 < n). { destruct zw as [|n zw']; [congruence|]. inversion Hpw; subst. eauto. }
  destruct Hzw as (n0 & zw' & Ezw & Hn0).
  assert (Hlen : length R = length zA + length zw + length zB) by (unfold R; rewrite tab_ranges_length, numbered_length, !app_length; lia).
  assert (Hra : vat R (length zA) = Ok (list_sum zA, n0)).
  { unfold vat. rewrite HR, nth_error_app2 by (rewrite tab_ranges_length, numbered_length; lia). rewrite tab_ranges_length, numbered_length, Nat.sub_diag, Ezw. reflexivity. }
  rewrite Hra. cbn [bind fst].
  assert (Hnew1 : rebase_ranges (list_sum zA) (ns_ranges sub) = tab_ranges (list_sum zA) (numbered (length zA) zw)).
  { rewrite Hr, rebase_tab_ranges. apply tab_ranges_ext. rewrite !numbered_snd. reflexivity. }
  rewrite Hnew1.
  assert (Hskip : skipn (length zA + length zw) R = tab_ranges (list_sum zA + list_sum zw) (numbered (length zA + length zw) zB)).
  { rewrite HR, app_assoc, skipn_app. rewrite (skipn_all2 (tab_ranges 0 (numbered 0 zA) ++ _)) by (rewrite app_length, !tab_ranges_length, !numbered_length; lia).
    rewrite app_length, !tab_ranges_length, !numbered_length, Nat.sub_diag. reflexivity. }
  rewrite Hskip.
  assert (Hnew2 : match tab_ranges (list_sum zA) (numbered (length zA) zw), tab_ranges (list_sum zA + list_sum zw) (numbered (length zA + length zw) zB) with
                  | [], _ :: _ => Undef OobIndex
                  | _, _ => Ok (rebase_ranges (pair_end (last (tab_ranges (list_sum zA) (numbered (length zA) zw)) (0, 0))) (tab_ranges (list_sum zA + list_sum zw) (numbered (length zA + length zw) zB)))
                  end = Ok (tab_ranges (list_sum zA + list_sum zw) (numbered (length zA + length zw) zB))).
  { rewrite last_tab by (rewrite Ezw; discriminate). rewrite numbered_size, rebase_tab_ranges. rewrite Ezw. reflexivity. }
  rewrite Hnew2. clear Hnew2.
  set (O := tab_offsets (numbered 0 (zA ++ zw ++ zB)) ++ junk).
  assert (HO : O = tab_offsets (numbered 0 zA) ++ tab_offsets (numbered (length zA) zw) ++ tab_offsets (numbered (length zA + length zw) zB) ++ junk).
  { unfold O. rewrite !numbered_app, !tab_offsets_app, <- !app_assoc. reflexivity. }
  assert (HlA : length (tab_offsets (numbered 0 zA)) = list_sum zA) by (rewrite tab_offsets_length, numbered_size; reflexivity).
  assert (Hbase : vat O (list_sum zA) = Ok (length zA, S (length zA))).
  { unfold vat. rewrite HO, nth_error_app2 by lia. rewrite HlA, Nat.sub_diag, Ezw. cbn [numbered tab_offsets flat_map fst snd]. destruct n0; [lia|]. reflexivity. }
  assert (Hoff : match ns_offsets sub with [] => Ok [] | o :: r => base <- vat O (list_sum zA) ;; Ok (base :: rebase_offsets o base r) end = Ok (tab_offsets (numbered (length zA) zw))).
  { rewrite Ho. destruct (rebase_all zw Hne Hpw (length zA)) as (o & r & E1 & E2). rewrite E1, Hbase. cbn [bind]. rewrite E2. reflexivity. }
  assert (Hranges : firstn (length zA) R ++ tab_ranges (list_sum zA) (numbered (length zA) zw) ++ tab_ranges (list_sum zA + list_sum zw) (numbered (length zA + length zw) zB) = R).
  { rewrite HR at 1. rewrite firstn_app, tab_ranges_length, numbered_length, Nat.sub_diag. rewrite firstn_all2 by (rewrite tab_ranges_length, numbered_length; lia). cbn [firstn]. rewrite app_nil_r. symmetry. exact HR. }
  assert (Hvi : forall Y, vinsert (tab_offsets (numbered 0 zA) ++ Y) (list_sum zA) (tab_offsets (numbered (length zA) zw)) = Ok (tab_offsets (numbered 0 zA) ++ tab_offsets (numbered (length zA) zw) ++ Y)).
  { intros Y. rewrite <- HlA. apply vinsert_mid. }
  destruct zB as [|nB zB].
  - (* the end of the text: the offsets of the last unit stay behind *)
    assert (Hlast : exists z0 n, zw = z0 ++ [n]). { destruct (exists_last Hne) as (z0 & n & E). eauto. }
    destruct Hlast as (z0 & n & El).
    replace (length zA + length zw =? length R) with true by (cbn [length] in Hlen; lia).
    assert (Hrb : match length zA + length zw with O => Undef OobIndex | S b' => vat R b' end = Ok (list_sum zA + list_sum z0, n)).
    { rewrite El, app_length. cbn [length]. replace (length zA + (length z0 + 1)) with (S (length zA + length z0)) by lia. unfold vat. rewrite HR, El, numbered_app, tab_ranges_app.
      rewrite nth_error_app2 by (rewrite tab_ranges_length, numbered_length; lia). rewrite tab_ranges_length, numbered_length. rewrite nth_error_app1 by (rewrite app_length, !tab_ranges_length, !numbered_length; cbn; lia).
      rewrite nth_error_app2 by (rewrite tab_ranges_length, numbered_length; lia). rewrite tab_ranges_length, numbered_length. replace (length zA + length z0 - length zA - length z0) with 0 by lia. cbn. rewrite numbered_size. reflexivity. }
    rewrite Hrb. cbn [bind fst]. rewrite Hoff. cbn [bind].
    assert (HO2 : O = tab_offsets (numbered 0 zA) ++ tab_offsets (numbered (length zA) z0) ++ (tab_offsets (numbered (length zA + length z0) [n]) ++ junk)).
    { rewrite HO, El, numbered_app, tab_offsets_app, <- !app_assoc. reflexivity. }
    assert (Hv : verase O (list_sum zA) (list_sum zA + list_sum z0) = Ok (tab_offsets (numbered 0 zA) ++ (tab_offsets (numbered (length zA + length z0) [n]) ++ junk))).
    { rewrite HO2. rewrite <- HlA. replace (list_sum z0) with (length (tab_offsets (numbered (length zA) z0))) by (rewrite tab_offsets_length, numbered_size; reflexivity). apply verase_mid. }
    rewrite Hv. cbn [bind]. rewrite (Hvi (tab_offsets (numbered (length zA + length z0) [n]) ++ junk)). cbn [bind]. rewrite Hranges.
    exists (tab_offsets (numbered (length zA + length z0) [n]) ++ junk). do 2 f_equal. rewrite numbered_app, tab_offsets_app, app_nil_r. cbn [Nat.add]. rewrite <- app_assoc. reflexivity.
  - replace (length zA + length zw =? length R) with false by (cbn [length] in Hlen; lia).
    assert (Hrb : vat R (length zA + length zw) = Ok (list_sum zA + list_sum zw, nB)).
    { unfold vat. rewrite HR, app_assoc, nth_error_app2 by (rewrite app_length, !tab_ranges_length, !numbered_length; lia). rewrite app_length, !tab_ranges_length, !numbered_length, Nat.sub_diag. reflexivity. }
    rewrite Hrb. cbn [bind fst]. rewrite Hoff. cbn [bind].
    assert (Hv : verase O (list_sum zA) (list_sum zA + list_sum zw) = Ok (tab_offsets (numbered 0 zA) ++ (tab_offsets (numbered (length zA + length zw) (nB :: zB)) ++ junk))).
    { rewrite HO. rewrite <- HlA. replace (list_sum zw) with (length (tab_offsets (numbered (length zA) zw))) by (rewrite tab_offsets_length, numbered_size; reflexivity). apply verase_mid. }
    rewrite Hv. cbn [bind]. rewrite Hvi. cbn [bind]. rewrite Hranges. exists junk. do 2 f_equal. rewrite !numbered_app, !tab_offsets_app, <- !app_assoc. reflexivity.
Qed.

(** ** The loops *)
Lemma no_raw_match known u : no_added_token known u -> raw_matches (word_ids known) u (length u) 0 0 = [].
Proof.
  intros H. destruct (raw_matches_ok (word_ids known) u (length u) 0 0) as [H1 H2]; [lia | lia|].
  destruct (raw_matches (word_ids known) u (length u) 0 0) as [|[[a b] k] l]; [reflexivity|]. cbn [map fst ordered] in H1. destruct H1 as (_ & Ha & Hb & _).
  inversion H2 as [|? ? Hk _]; subst. cbn in Hk. apply word_ids_in in Hk. destruct (H a b k Ha Hb Hk).
Qed.
Lemma find_none map_r sentence known : no_added_token known (from_utf8 sentence) ->
  av_find_matches map_r sentence known = Ok (map_r, if 0 =? length (from_utf8 sentence) then [] else [(None, (0, length (from_utf8 sentence)))]).
Proof. intros H. unfold av_find_matches. rewrite (no_raw_match _ _ H). reflexivity. Qed.

Lemma substr_all (s : wstr) b : length s <= b -> substr_range s 0 b = Ok s.
Proof. intros H. unfold substr_range. change (0 <=? length s) with true. change (b <? 0) with false. cbn [skipn]. rewrite Nat.sub_0_r, firstn_all2 by exact H. reflexivity. Qed.
Lemma length_units s : length s <= units s.
Proof. induction s as [|c s IH]; [reflexivity|]. rewrite units_cons. cbn [length]. pose proof (cp_width_pos c). lia. Qed.
Lemma valid_unit_sizes s : forallb valid_cp s = true -> length (unit_sizes s) = units s.
Proof. intros H. rewrite unit_sizes_length, from_utf32_valid by exact H. reflexivity. Qed.

(** No added token in the text or in the normalized text: one split holding the normalized text. *)
Lemma extract_none E av norm s text : s <> [] -> forallb valid_cp s = true -> no_added_token (av_trie_raw av) (flat_map utf16_enc s) ->
  run_norm E norm s = Ok (set_text (new_nstring s) text) -> text <> [] -> forallb valid_cp text = true -> no_added_token (av_trie_norm av) (flat_map utf16_enc text) ->
  exists junk, extract_and_normalize E av norm s = Ok (av_map_r av, mkPt (numbered_ns (unit_sizes s) junk s) [mkSplit (utf8_encs text) (0, units text) []]).
Proof.
  intros Hne Hv Hr Hn Htne Htv Hnn. unfold extract_and_normalize. rewrite fresh_numbered. unfold new_pretok. cbn [ns_text numbered_ns]. unfold convert_to_string at 1. rewrite Hv. cbn [bind pt_norm pt_splits].
  cbn [ns_text numbered_ns]. unfold convert_to_string at 1. rewrite Hv. cbn [bind].
  rewrite find_none by (rewrite from_utf8_encs by exact Hv; exact Hr). rewrite from_utf8_encs by exact Hv. fold (units s).
  assert (Hu : 0 < units s) by (pose proof (proj1 (units_0 s)); destruct (units s); [exfalso; auto | lia]).
  replace (0 =? units s) with false by lia. cbn [bind raw_splits]. rewrite substr_all by apply length_units. cbn [bind]. unfold convert_to_string at 1. rewrite Hv. cbn [bind normalize_splits sp_tokens sp_text sp_off fst snd].
  rewrite (proj2 (convert_from_string_iff _ s)) by (split; [reflexivity | exact Hv]). cbn [bind]. fold (run_norm E norm s). rewrite Hn. cbn [bind].
  destruct (transform_numbered [] (unit_sizes s) [] [] s (set_text (new_nstring s) text)) as (junk & Hj).
  { intros E0. apply (f_equal (@length nat)) in E0. rewrite valid_unit_sizes in E0 by exact Hv. cbn in E0. lia. }
  { cbn [app]. rewrite app_nil_r. apply unit_sizes_pos. }
  { rewrite fresh_numbered. reflexivity. }
  { rewrite fresh_numbered. cbn [set_text ns_offsets numbered_ns]. apply app_nil_r. }
  cbn [app length Nat.add] in Hj. rewrite app_nil_r, valid_unit_sizes in Hj by exact Hv. replace (0 + units s - 0) with (units s) by lia. rewrite Hj. cbn [bind ns_text set_text].
  unfold convert_to_string at 1. rewrite Htv. cbn [bind]. rewrite find_none by (rewrite from_utf8_encs by exact Htv; exact Hnn). rewrite from_utf8_encs by exact Htv. fold (units text).
  assert (Hu' : 0 < units text) by (pose proof (proj1 (units_0 text)); destruct (units text); [exfalso; auto | lia]).
  replace (0 =? units text) with false by lia. cbn [bind norm_splits]. rewrite substr_all by apply length_units. cbn [bind]. unfold convert_to_string at 1. rewrite Htv. cbn [bind app].
  exists junk. rewrite !Nat.add_0_r. reflexivity.
Qed.

(** *** Texts of the basic plane and normalizers that map characters one by one *)
Definition seg_split (text : wstr) (base : nat) (p : option Z * (nat * nat)) : split :=
  let v := utf8_encs (slice text (fst (snd p)) (snd (snd p))) in
  mkSplit v (fst (snd p) + base, snd (snd p) + base) (match fst p with Some i => [mkTok i v (0, length v)] | None => [] end).
Definition extracted_seg (g : N -> N) (trie : list (bytes * Z)) (s : wstr) (p : option Z * (nat * nat)) : list split :=
  match fst p with
  | Some _ => [seg_split s 0 p]
  | None => let piece := map g (slice s (fst (snd p)) (snd (snd p))) in map (seg_split piece (fst (snd p))) (segs_of trie piece)
  end.

Lemma bmp_utf16 s : bmp s -> flat_map utf16_enc s = s.
Proof. induction 1 as [|c s Hc _ IH]; [reflexivity|]. cbn [flat_map]. rewrite IH. unfold utf16_enc. replace (c <? 65536)%N with true by (symmetry; apply N.ltb_lt; exact Hc). reflexivity. Qed.
Lemma bmp_slice s a b : bmp s -> bmp (slice s a b).
Proof. intros H. apply slice_all. exact H. Qed.
Lemma valid_slice s a b : forallb valid_cp s = true -> forallb valid_cp (slice s a b) = true.
Proof. intros H. rewrite forallb_forall in *. apply Forall_forall. apply slice_all. apply Forall_forall. exact H. Qed.
Lemma substr_slice s a b : a <= b -> b <= length s -> substr_range s a b = Ok (slice s a b).
Proof. intros H1 H2. unfold substr_range, slice. replace (a <=? length s) with true by lia. replace (b <? a) with false by lia. reflexivity. Qed.

Lemma raw_splits_ok s segs : forall a, forallb valid_cp s = true -> chained a (length s) (map snd segs) -> raw_splits s segs = Ok (map (seg_split s 0) segs).
Proof.
  induction segs as [|[o [x y]] segs IH]; intros a Hv Hc; [reflexivity|]. cbn [map snd chained] in Hc. destruct Hc as (-> & H1 & H2). pose proof (chained_le _ _ _ H2) as H3.
  cbn [raw_splits map]. rewrite substr_slice by assumption. cbn [bind]. unfold convert_to_string. rewrite valid_slice by exact Hv. cbn [bind]. rewrite (IH y Hv H2). cbn [bind].
  unfold seg_split at 2. cbn [fst snd]. rewrite !Nat.add_0_r. reflexivity.
Qed.
Lemma norm_splits_ok s base segs : forall a, forallb valid_cp s = true -> chained a (length s) (map snd segs) -> norm_splits s base segs = Ok (map (seg_split s base) segs).
Proof.
  induction segs as [|[o [x y]] segs IH]; intros a Hv Hc; [reflexivity|]. cbn [map snd chained] in Hc. destruct Hc as (-> & H1 & H2). pose proof (chained_le _ _ _ H2) as H3.
  cbn [norm_splits map]. rewrite substr_slice by assumption. cbn [bind]. unfold convert_to_string. rewrite valid_slice by exact Hv. cbn [bind]. rewrite (IH y Hv H2). cbn [bind]. reflexivity.
Qed.

Lemma segs_chained trie u : chained 0 (length u) (map snd (segs_of trie u)).
Proof. apply (plain_segs_ok (word_ids trie) u); apply raw_matches_ok; lia. Qed.

Lemma slice_length (t : wstr) a b : a <= b -> b <= length t -> length (slice t a b) = b - a.
Proof. intros H1 H2. unfold slice. rewrite firstn_length, skipn_length. lia. Qed.
Lemma sizes_len t : bmp t -> length (unit_sizes t) = length t.
Proof. intros H. rewrite unit_sizes_length. apply bmp_len, H. Qed.

Section Pointwise.
Context (E : env) (norm : option normalizer) (trie : list (bytes * Z)) (g : N -> N) (map_r : zmap added_token) (s : wstr).
Hypothesis Hb : bmp s.
Hypothesis Hv : forallb valid_cp s = true.
Hypothesis Hgb : forall a b, bmp (map g (slice s a b)).
Hypothesis Hgv : forall a b, forallb valid_cp (map g (slice s a b)) = true.
Hypothesis Hnorm : forall a b, a < b -> b <= length s -> run_norm E norm (slice s a b) = Ok (set_text (new_nstring (slice s a b)) (map g (slice s a b))).
Hypothesis Hplain : plain_ids map_r trie.

Lemma sizes_cut a b : a <= b -> b <= length s -> unit_sizes s = unit_sizes (firstn a s) ++ unit_sizes (slice s a b) ++ unit_sizes (skipn b s).
Proof.
  intros H1 H2. rewrite !bmp_sizes; [|unfold bmp in *..].
  - rewrite <- !map_app. f_equal. unfold slice. rewrite <- (firstn_skipn a s) at 1. f_equal. rewrite <- (firstn_skipn (b - a) (skipn a s)) at 1. f_equal. rewrite skipn_skipn'. f_equal. lia.
  - rewrite <- (firstn_skipn b s) in Hb. apply Forall_app in Hb. apply Hb.
  - apply bmp_slice. exact Hb.
  - rewrite <- (firstn_skipn a s) in Hb. apply Forall_app in Hb. apply Hb.
  - exact Hb.
Qed.
Lemma normalize_ok segs : forall a junk, chained a (length s) (map snd segs) ->
  Forall (fun p => match fst p with Some _ => length (utf8_encs (slice s (fst (snd p)) (snd (snd p)))) = snd (snd p) - fst (snd p) | None => fst (snd p) < snd (snd p) end) segs ->
  exists junk', normalize_splits E norm trie (numbered_ns (unit_sizes s) junk s) map_r a (map (seg_split s 0) segs)
    = Ok (numbered_ns (unit_sizes s) junk' s, map_r, flat_map (extracted_seg g trie s) segs).
Proof.
  induction segs as [|[o [x y]] segs IH]; intros a junk Hc Hf; [exists junk; reflexivity|]. cbn [map snd chained] in Hc. destruct Hc as (-> & H1 & H2). pose proof (chained_le _ _ _ H2) as H3.
  inversion Hf as [|? ? Hp Hf']; subst. cbn [fst snd] in Hp.
  assert (Hhd : seg_split s 0 (o, (a, y)) = mkSplit (utf8_encs (slice s a y)) (a, y) (match o with Some i => [mkTok i (utf8_encs (slice s a y)) (0, length (utf8_encs (slice s a y)))] | None => [] end))
    by (unfold seg_split; cbn [fst snd]; rewrite !Nat.add_0_r; reflexivity).
  cbn [map flat_map]. unfold extracted_seg at 1. cbn [fst snd]. rewrite Hhd. cbn [normalize_splits]. destruct o as [i|]; cbn [sp_tokens sp_text sp_off fst snd].
  - rewrite Hp. replace (a + (y - a)) with y by lia. destruct (IH y junk H2 Hf') as (junk' & Hi). rewrite Hi. cbn [bind]. exists junk'. reflexivity.
  - rewrite (proj2 (convert_from_string_iff _ (slice s a y))) by (split; [reflexivity | apply valid_slice; exact Hv]). cbn [bind].
    fold (run_norm E norm (slice s a y)). rewrite Hnorm by assumption. cbn [bind].
    destruct (transform_numbered (unit_sizes (firstn a s)) (unit_sizes (slice s a y)) (unit_sizes (skipn y s)) junk s (set_text (new_nstring (slice s a y)) (map g (slice s a y)))) as (junk1 & Hj).
    { intros E0. apply (f_equal (@length nat)) in E0. rewrite sizes_len, slice_length in E0 by (try (apply bmp_slice; exact Hb); lia). cbn in E0. lia. }
    { rewrite <- sizes_cut by lia. apply unit_sizes_pos. }
    { rewrite fresh_numbered. reflexivity. }
    { rewrite fresh_numbered. cbn [set_text ns_offsets numbered_ns]. apply app_nil_r. }
    rewrite <- sizes_cut in Hj by lia. rewrite !sizes_len in Hj by (try (apply bmp_slice; exact Hb); rewrite <- (firstn_skipn a s) in Hb; apply Forall_app in Hb; apply Hb).
    rewrite firstn_length, Nat.min_l, slice_length in Hj by lia. replace (a + y - a) with (a + (y - a)) by lia. rewrite Hj. cbn [bind ns_text set_text].
    unfold convert_to_string. rewrite Hgv. cbn [bind]. destruct (find_plain map_r (utf8_encs (map g (slice s a y))) trie Hplain) as [Hfind _]. rewrite Hfind. cbn [bind].
    rewrite from_utf8_encs, bmp_utf16 by (try apply Hgv; apply Hgb). rewrite (norm_splits_ok _ _ _ 0) by (try apply Hgv; apply segs_chained). cbn [bind]. rewrite map_length, slice_length by lia.
    replace (a + (y - a)) with y by lia. destruct (IH y junk1 H2 Hf') as (junk' & Hi). rewrite Hi. cbn [bind]. exists junk'. reflexivity.
Qed.
End Pointwise.

Definition ascii_bytes (t : bytes) : Prop := Forall (fun b => (b < 128)%N) t.
Lemma ascii_length_slice s : ascii_bytes (utf8_encs s) -> length (utf8_encs s) = length s.
Proof.
  induction s as [|c s IH]; intros H; [reflexivity|]. cbn [utf8_encs flat_map] in *. apply Forall_app in H as [H1 H2]. rewrite app_length. fold (utf8_encs s) in *. rewrite (IH H2). cbn [length]. f_equal.
  unfold utf8_enc in *. destruct (c <? 128)%N; [reflexivity|]. exfalso.
  assert (G : forall k x, (128 <= k)%N -> ~ (k + x < 128)%N) by (intros; lia).
  destruct (c <? 2048)%N; [|destruct (c <? 65536)%N]; apply Forall_inv in H1; revert H1; apply G; discriminate.
Qed.

(** The text is cut by the tokens matched before normalization, every gap normalized and cut by the tokens matched after it. *)
Lemma extract_pointwise E av norm g s : s <> [] -> bmp s -> forallb valid_cp s = true -> (forall a b, bmp (map g (slice s a b))) -> (forall a b, forallb valid_cp (map g (slice s a b)) = true) ->
  (forall a b, a < b -> b <= length s -> run_norm E norm (slice s a b) = Ok (set_text (new_nstring (slice s a b)) (map g (slice s a b)))) ->
  plain_ids (av_map_r av) (av_trie_raw av) -> plain_ids (av_map_r av) (av_trie_norm av) -> Forall (fun p => ascii_bytes (fst p)) (av_trie_raw av) ->
  exists junk, extract_and_normalize E av norm s = Ok (av_map_r av, mkPt (numbered_ns (unit_sizes s) junk s) (flat_map (extracted_seg g (av_trie_norm av) s) (segs_of (av_trie_raw av) s))).
Proof.
  intros Hne Hb Hv Hgb Hgv Hnorm Hpr Hpn Ha. unfold extract_and_normalize. rewrite fresh_numbered. unfold new_pretok. cbn [ns_text numbered_ns]. unfold convert_to_string at 1. rewrite Hv. cbn [bind pt_norm pt_splits].
  cbn [ns_text numbered_ns]. unfold convert_to_string at 1. rewrite Hv. cbn [bind].
  destruct (find_plain (av_map_r av) (utf8_encs s) (av_trie_raw av) Hpr) as [Hfind Hpart]. rewrite Hfind. cbn [bind]. clear Hfind. rewrite from_utf8_encs, bmp_utf16 in * by assumption.
  pose proof (segs_chained (av_trie_raw av) s) as Hc. rewrite (raw_splits_ok s _ 0 Hv Hc). cbn [bind].
  set (segs := segs_of (av_trie_raw av) s) in *. assert (Hsne : segs <> []). { intros E0. rewrite E0 in Hc. cbn in Hc. destruct s; [congruence | discriminate]. }
  destruct segs as [|sg segs'] eqn:Es; [congruence|]. rewrite <- Es in *. replace (match map (seg_split s 0) segs with [] => _ | _ => map (seg_split s 0) segs end) with (map (seg_split s 0) segs) by (rewrite Es; reflexivity).
  assert (Hlen : Forall (fun p => match fst p with Some _ => length (utf8_encs (slice s (fst (snd p)) (snd (snd p)))) = snd (snd p) - fst (snd p) | None => fst (snd p) < snd (snd p) end) segs).
  { assert (Hin : forall l a, chained a (length s) (map snd l) -> Forall (fun p : option Z * (nat * nat) => fst (snd p) <= snd (snd p) <= length s) l).
    { induction l as [|[o [x y]] l IHl]; intros a Hcl; [apply Forall_nil|apply Forall_cons]; cbn [map snd chained fst] in *; destruct Hcl as (-> & A1 & A2); [split; [lia | exact (chained_le _ _ _ A2)] | exact (IHl _ A2)]. }
    specialize (Hin segs 0 Hc). destruct Hpart as [_ Hpart]. apply Forall_forall. intros p Hp. pose proof (proj1 (Forall_forall _ _) Hpart p Hp) as Hp1. pose proof (proj1 (Forall_forall _ _) Hin p Hp) as Hp2. cbn beta in *.
    destruct (fst p) as [i|]; [|exact Hp1]. pose proof (proj1 (Forall_forall _ _) Ha _ Hp1) as Hp3. cbn [fst] in Hp3.
    rewrite <- (bmp_utf16 (slice s (fst (snd p)) (snd (snd p)))) in Hp3 by (apply bmp_slice; exact Hb). rewrite to_utf8_encs in Hp3 by (apply valid_slice; exact Hv).
    rewrite ascii_length_slice by exact Hp3. apply slice_length; lia. }
  destruct (normalize_ok E norm (av_trie_norm av) g (av_map_r av) s Hb Hv Hgb Hgv Hnorm Hpn segs 0 [] Hc Hlen) as (junk & Hj). rewrite Hj. cbn [bind]. exists junk. do 3 f_equal.
  assert (Hnn : forall p, In p segs -> extracted_seg g (av_trie_norm av) s p <> []).
  { intros p Hp. pose proof (proj1 (Forall_forall _ _) (proj2 Hpart) p Hp) as Hp1. cbn beta in Hp1. unfold extracted_seg. destruct (fst p); [discriminate|]. intros E0.
    pose proof (segs_chained (av_trie_norm av) (map g (slice s (fst (snd p)) (snd (snd p))))) as Hc'. destruct (segs_of (av_trie_norm av) _); [|discriminate E0]. cbn in Hc'. rewrite map_length in Hc'.
    assert (snd (snd p) <= length s).
    { clear - Hc Hp. revert Hc. generalize 0. induction segs as [|[o [x y]] segs IHl]; intros a Hcl; [destruct Hp|]. cbn [map snd chained] in Hcl. destruct Hcl as (_ & A1 & A2). destruct Hp as [<-|Hp]; [exact (chained_le _ _ _ A2) | exact (IHl Hp _ A2)]. }
    rewrite slice_length in Hc' by lia. lia. }
  rewrite Es. cbn [flat_map]. assert (Hsg : extracted_seg g (av_trie_norm av) s sg <> []) by (apply Hnn; rewrite Es; left; reflexivity). destruct (extracted_seg g (av_trie_norm av) s sg); [congruence | reflexivity].
Qed.
