(** C139: texts of the basic plane in which added tokens occur and every stretch is normalized in place: the words, their rows and their positions. Specification: LaidSpec.v. *)
From Verif Require Import Base BaseFacts Unicode UnicodeProofs Common Utils PostProcessor Decoder Normalizer PreTokenizer WordPiece Bpe AddedVocab Tokenizer Config ConfigSpec
  Spec PostSpec DecSpec NormSpec NormProofs PreSpec PreProofs AvSpec AvProofs ExtractProofs TzSpec TzProofs WpSpec WpProofs OffSpec OffProofs RefSpec RefProofs MixSpec MixProofs HistSpec HistProofs LenSpec FullSpec BpeSpec BpeProofs BpeWord UnkSpec ByteSpec
  PropsReference PropsConfig PropsAdded PropsLifetime PropsText PropsMixed OutSpec PropsFinish PropsFull PropsNorm PropsPre PropsOffsets PropsEncode PropsBpe PropsByteBpe BpeRefSpec PropsBpeText CutSpec PropsCut PropsBertConfig PartsSpec PropsParts PropsTotal TextsSpec PropsTexts LaidSpec Env.
From Coq Require Import ZifyBool ZifyNat ZifyN.
Import ListNotations.

(** ** Normalizing in place *)
Lemma dw_app (f : N -> bool) : forall pre r, Forall (fun c => f c = true) pre -> drop_while f (pre ++ r) = drop_while f r.
Proof. induction pre as [|c pre IH]; intros r H; [reflexivity|]. cbn [app drop_while]. rewrite (Forall_inv H). apply IH. exact (Forall_inv_tail H). Qed.
Lemma dw_stop (f : N -> bool) l r : l <> [] -> match l with c :: _ => f c = false | [] => True end -> drop_while f (l ++ r) = l ++ r.
Proof. destruct l as [|c l]; intros H1 H2; [congruence|]. cbn [app drop_while]. rewrite H2. reflexivity. Qed.
Lemma dw_all (f : N -> bool) l : Forall (fun c => f c = true) l -> drop_while f l = [].
Proof. intros H. rewrite <- (app_nil_r l), dw_app by exact H. reflexivity. Qed.
Lemma strip_in_place E (l r : bool) ns n : stripped (fun c => space_letter (c mod 256)%N) l r (ns_text ns) n -> normalize E (NStrip l r) ns = Ok (set_text ns n).
Proof.
  intros H. apply (stripped_ext _ strip_space) in H; [|apply Forall_forall; intros c _; symmetry; apply space_byte_ok]. cbn [normalize]. unfold strip_normalize. do 2 f_equal.
  destruct H as (pre & post & -> & H1 & H2 & H3 & H4 & H5 & H6).
  assert (E1 : (if l then drop_while strip_space (pre ++ n ++ post) else pre ++ n ++ post) = match n with [] => if l then [] else post | _ => n ++ post end).
  { destruct l.
    - rewrite dw_app by exact H1. destruct n as [|c n]; [apply dw_all; exact H2|]. apply dw_stop; [discriminate | exact (H5 eq_refl)].
    - rewrite (H3 eq_refl). destruct n; reflexivity. }
  rewrite E1. destruct r.
  - destruct n as [|c n]; [destruct l; [reflexivity|]; rewrite dw_all by (apply Forall_rev; exact H2); reflexivity|].
    rewrite rev_app_distr, dw_app by (apply Forall_rev; exact H2). pose proof (H6 eq_refl) as H6'. rewrite <- (app_nil_r (rev (c :: n))), dw_stop; [rewrite app_nil_r; apply rev_involutive | | exact H6'].
    intros E0. apply (f_equal (@length N)) in E0. rewrite rev_length in E0. discriminate.
  - rewrite (H4 eq_refl). destruct n as [|c n]; [destruct l; reflexivity | apply app_nil_r].
Qed.
Lemma stripped_shorter f l r s o : stripped f l r s o -> length o <= length s.
Proof. intros (pre & post & -> & _). rewrite !app_length. lia. Qed.
Lemma filter_shorter {A} (f : A -> bool) l : length (filter f l) <= length l.
Proof. induction l as [|x l IH]; [reflexivity|]. cbn [filter]. destruct (f x); cbn [length]; lia. Qed.
Lemma form_in_place E f ns : e_norm E f (map repaired (ns_text ns)) = Some (ns_text ns) -> normalize_nf E f ns = Ok (set_text ns (ns_text ns)).
Proof.
  intros H. unfold normalize_nf. rewrite (map_ext _ _ repaired_ok), H, grow_ids_same. reflexivity.
Qed.
Lemma chinese_none : forall l i, Forall (fun c => is_chinese_char c = false) l -> chinese_ids l i = [].
Proof. induction l as [|c l IH]; intros i H; [reflexivity|]. cbn [chinese_ids]. rewrite (Forall_inv H). apply IH. exact (Forall_inv_tail H). Qed.
Lemma spaced_none f : forall l, Forall (fun c => f c = false) l -> spaced f l = l.
Proof. induction l as [|c l IH]; intros H; [reflexivity|]. cbn [spaced]. rewrite (Forall_inv H). cbn [app]. rewrite IH by exact (Forall_inv_tail H). reflexivity. Qed.
Lemma marks_none E : forall l i, Forall (fun c => e_is_mn E c = false) l -> mark_ids E l i = [].
Proof. induction l as [|c l IH]; intros i H; [reflexivity|]. cbn [mark_ids]. rewrite (Forall_inv H). apply IH. exact (Forall_inv_tail H). Qed.
Lemma filter_none {A} (f : A -> bool) : forall l, Forall (fun c => f c = false) l -> filter (fun c => negb (f c)) l = l.
Proof. induction l as [|c l IH]; intros H; [reflexivity|]. cbn [filter]. rewrite (Forall_inv H). cbn [negb]. rewrite IH by exact (Forall_inv_tail H). reflexivity. Qed.
Lemma in_place_run E : forall q ns n, in_place E q (ns_text ns) n -> normalize E q ns = Ok (set_text ns n) /\ length n <= length (ns_text ns).
Proof.
  fix IH 1. intros [cl ch st lo|f|p|p c|l r| |l] ns n H; cbn [in_place] in H; try contradiction.
  - destruct H as (H1 & H2 & H3 & H4). remember (if cl then map (fun c => if NormSpec.blank E c then 32%N else c) (ns_text ns) else ns_text ns) as y eqn:Ey.
    assert (Ly : length y = length (ns_text ns)) by (rewrite Ey; destruct cl; [apply map_length | reflexivity]).
    split; [|subst n; destruct lo; [rewrite map_length|]; lia]. cbn [normalize]. unfold bert_normalize.
    assert (E1 : (if cl then do_clean_text E ns else Ok ns) = Ok (set_text ns y)).
    { rewrite Ey. destruct cl; [apply C49_clean_text_aligned; exact (H1 eq_refl) | destruct ns; reflexivity]. }
    rewrite E1. cbn [bind]. assert (E2 : (if ch then do_handle_chinese_chars (set_text ns y) else Ok (set_text ns y)) = Ok (set_text ns y)).
    { destruct ch; [|reflexivity]. assert (HC : Forall (fun c => is_chinese_char c = false) y) by (eapply Forall_impl; [|exact (H2 eq_refl)]; intros c; cbn beta; rewrite chinese_cjk; exact (fun K => K)).
      unfold do_handle_chinese_chars. cbn [ns_text set_text]. rewrite chinese_none by exact HC. cbn [apply_pad bind ns_text set_text]. pose proof (apply_changes_spec y []) as Hc. cbn [app length] in Hc. rewrite Hc, spaced_none by exact HC. reflexivity. }
    rewrite E2. cbn [bind]. assert (E3 : (if st || lo then do_strip_accents E (set_text ns y) else Ok (set_text ns y)) = Ok (set_text ns y)).
    { destruct (st || lo) eqn:Es; [|reflexivity]. destruct (H3 eq_refl) as [N1 N2]. unfold do_strip_accents. rewrite form_in_place by exact N1. cbn [bind ns_text set_text]. rewrite marks_none by exact N2. cbn [apply_shrink bind]. rewrite filter_none by exact N2. reflexivity. }
    rewrite E3. cbn [bind]. subst n. destruct lo; reflexivity.
  - destruct H as [H ->]. split; [exact (form_in_place E f ns H) | lia].
  - split; [apply strip_in_place; exact H | exact (stripped_shorter _ _ _ _ _ H)].
  - subst n. split; [reflexivity | apply filter_shorter].
  - cbn [normalize]. revert ns H. induction l as [|q l IHl]; intros ns H.
    + subst n. split; [destruct ns; reflexivity | lia].
    + destruct H as (y & H1 & H2). destruct (IH q ns y H1) as [K1 K2]. rewrite K1. cbn [bind]. destruct (IHl (set_text ns y) H2) as [K3 K4]. rewrite K3. cbn [ns_text set_text] in *. split; [reflexivity | lia].
Qed.
Lemma in_place_norm E norm x n : in_place_to E norm x n -> run_norm E norm x = Ok (set_text (new_nstring x) n) /\ length n <= length x.
Proof.
  pose proof (proj2 (fresh_packed x)) as Hx. destruct norm as [q|]; cbn [in_place_to run_norm]; intros H.
  - destruct (in_place_run E q (new_nstring x) n) as [H1 H2]; [rewrite Hx; exact H|]. rewrite Hx in H2. auto.
  - subst n. split; [|lia]. set (z := new_nstring x) in *. destruct z as [t r o]. cbn [ns_text] in Hx. subst t. reflexivity.
Qed.
Lemma in_place_one E norm x n n' : in_place_to E norm x n -> in_place_to E norm x n' -> n = n'.
Proof. intros H H'. apply in_place_norm in H as [H _]. apply in_place_norm in H' as [H' _]. rewrite H in H'. apply (f_equal (fun r => match r with Ok s => ns_text s | _ => [] end)) in H'. exact H'. Qed.

(** ** Putting the table of a stretch in place of entries of a numbered table *)
Lemma transform_over zA zo zw zB junk text sub : zw <> [] -> length zo = length zw -> Forall (fun n => 0 < n) (zA ++ zo ++ zB) -> Forall (fun n => 0 < n) zw ->
  ns_ranges sub = tab_ranges 0 (numbered 0 zw) -> ns_offsets sub = tab_offsets (numbered 0 zw) ->
  exists junk', transform_range (numbered_ns (zA ++ zo ++ zB) junk text) (length zA, length zA + length zo) sub = Ok (numbered_ns (zA ++ zw ++ zB) junk' text).
Proof.
  intros Hne Hlz Hpos Hpw Hr Ho. unfold transform_range, numbered_ns. cbn [ns_ranges ns_offsets ns_text].
  assert (Hpo : Forall (fun n => 0 < n) zo) by (apply Forall_app in Hpos as [_ Hpos]; apply Forall_app in Hpos as [Hpos _]; exact Hpos).
  set (R := tab_ranges 0 (numbered 0 (zA ++ zo ++ zB))).
  assert (HR : R = tab_ranges 0 (numbered 0 zA) ++ tab_ranges (list_sum zA) (numbered (length zA) zo) ++ tab_ranges (list_sum zA + list_sum zo) (numbered (length zA + length zo) zB)).
  { unfold R. rewrite !numbered_app, !tab_ranges_app, !numbered_size. reflexivity. }
  assert (Hzo : exists n zo', zo = n :: zo' /\ 0 < n). { destruct zo as [|n zo']; [destruct zw; [congruence | discriminate]|]. inversion Hpo; subst. eauto. }
  destruct Hzo as (n0 & zo' & Ezo & Hn0).
  assert (Hone : zo <> []) by (rewrite Ezo; discriminate).
  assert (Hlen : length R = length zA + length zo + length zB) by (unfold R; rewrite tab_ranges_length, numbered_length, !app_length; lia).
  assert (Hra : vat R (length zA) = Ok (list_sum zA, n0)).
  { unfold vat. rewrite HR, nth_error_app2 by (rewrite tab_ranges_length, numbered_length; lia). rewrite tab_ranges_length, numbered_length, Nat.sub_diag, Ezo. reflexivity. }
  rewrite Hra. cbn [bind fst].
  assert (Hnew1 : rebase_ranges (list_sum zA) (ns_ranges sub) = tab_ranges (list_sum zA) (numbered (length zA) zw)).
  { rewrite Hr, rebase_tab_ranges. apply tab_ranges_ext. rewrite !numbered_snd. reflexivity. }
  rewrite Hnew1.
  assert (Hskip : skipn (length zA + length zo) R = tab_ranges (list_sum zA + list_sum zo) (numbered (length zA + length zo) zB)).
  { rewrite HR, app_assoc, skipn_app. rewrite (skipn_all2 (tab_ranges 0 (numbered 0 zA) ++ _)) by (rewrite app_length, !tab_ranges_length, !numbered_length; lia).
    rewrite app_length, !tab_ranges_length, !numbered_length, Nat.sub_diag. reflexivity. }
  rewrite Hskip.
  assert (Hnew2 : match tab_ranges (list_sum zA) (numbered (length zA) zw), tab_ranges (list_sum zA + list_sum zo) (numbered (length zA + length zo) zB) with
                  | [], _ :: _ => Undef OobIndex
                  | _, _ => Ok (rebase_ranges (pair_end (last (tab_ranges (list_sum zA) (numbered (length zA) zw)) (0, 0))) (tab_ranges (list_sum zA + list_sum zo) (numbered (length zA + length zo) zB)))
                  end = Ok (tab_ranges (list_sum zA + list_sum zw) (numbered (length zA + length zw) zB))).
  { rewrite last_tab by (destruct zw; [congruence | discriminate]). rewrite numbered_size, rebase_tab_ranges, Hlz. destruct zw; [congruence|]. reflexivity. }
  rewrite Hnew2. clear Hnew2.
  set (O := tab_offsets (numbered 0 (zA ++ zo ++ zB)) ++ junk).
  assert (HO : O = tab_offsets (numbered 0 zA) ++ tab_offsets (numbered (length zA) zo) ++ tab_offsets (numbered (length zA + length zo) zB) ++ junk).
  { unfold O. rewrite !numbered_app, !tab_offsets_app, <- !app_assoc. reflexivity. }
  assert (HlA : length (tab_offsets (numbered 0 zA)) = list_sum zA) by (rewrite tab_offsets_length, numbered_size; reflexivity).
  assert (Hbase : vat O (list_sum zA) = Ok (length zA, S (length zA))).
  { unfold vat. rewrite HO, nth_error_app2 by lia. rewrite HlA, Nat.sub_diag, Ezo. cbn [numbered tab_offsets flat_map fst snd]. destruct n0; [lia|]. reflexivity. }
  assert (Hoff : match ns_offsets sub with [] => Ok [] | o :: r => base <- vat O (list_sum zA) ;; Ok (base :: rebase_offsets o base r) end = Ok (tab_offsets (numbered (length zA) zw))).
  { rewrite Ho. destruct (rebase_all zw Hne Hpw (length zA)) as (o & r & E1 & E2). rewrite E1, Hbase. cbn [bind]. rewrite E2. reflexivity. }
  assert (Hranges : firstn (length zA) R ++ tab_ranges (list_sum zA) (numbered (length zA) zw) ++ tab_ranges (list_sum zA + list_sum zw) (numbered (length zA + length zw) zB) = tab_ranges 0 (numbered 0 (zA ++ zw ++ zB))).
  { rewrite HR. rewrite firstn_app, tab_ranges_length, numbered_length, Nat.sub_diag. rewrite firstn_all2 by (rewrite tab_ranges_length, numbered_length; lia). cbn [firstn]. rewrite app_nil_r, !numbered_app, !tab_ranges_app, !numbered_size. reflexivity. }
  assert (Hvi : forall Y, vinsert (tab_offsets (numbered 0 zA) ++ Y) (list_sum zA) (tab_offsets (numbered (length zA) zw)) = Ok (tab_offsets (numbered 0 zA) ++ tab_offsets (numbered (length zA) zw) ++ Y)).
  { intros Y. rewrite <- HlA. apply vinsert_mid. }
  destruct zB as [|nB zB].
  - assert (Hlast : exists z0 n, zo = z0 ++ [n]). { destruct (exists_last Hone) as (z0 & n & E). eauto. }
    destruct Hlast as (z0 & n & El).
    replace (length zA + length zo =? length R) with true by (cbn [length] in Hlen; lia).
    assert (Hrb : match length zA + length zo with O => Undef OobIndex | S b' => vat R b' end = Ok (list_sum zA + list_sum z0, n)).
    { rewrite El, app_length. cbn [length]. replace (length zA + (length z0 + 1)) with (S (length zA + length z0)) by lia. unfold vat. rewrite HR, El, numbered_app, tab_ranges_app.
      rewrite nth_error_app2 by (rewrite tab_ranges_length, numbered_length; lia). rewrite tab_ranges_length, numbered_length. rewrite nth_error_app1 by (rewrite app_length, !tab_ranges_length, !numbered_length; cbn; lia).
      rewrite nth_error_app2 by (rewrite tab_ranges_length, numbered_length; lia). rewrite tab_ranges_length, numbered_length. replace (length zA + length z0 - length zA - length z0) with 0 by lia. cbn. rewrite numbered_size. reflexivity. }
    rewrite Hrb. cbn [bind fst]. rewrite Hoff. cbn [bind].
    assert (HO2 : O = tab_offsets (numbered 0 zA) ++ tab_offsets (numbered (length zA) z0) ++ (tab_offsets (numbered (length zA + length z0) [n]) ++ junk)).
    { rewrite HO, El, numbered_app, tab_offsets_app, <- !app_assoc. reflexivity. }
    assert (Hv : verase O (list_sum zA) (list_sum zA + list_sum z0) = Ok (tab_offsets (numbered 0 zA) ++ (tab_offsets (numbered (length zA + length z0) [n]) ++ junk))).
    { rewrite HO2. rewrite <- HlA. replace (list_sum z0) with (length (tab_offsets (numbered (length zA) z0))) by (rewrite tab_offsets_length, numbered_size; reflexivity). apply verase_mid. }
    rewrite Hv. cbn [bind]. rewrite (Hvi (tab_offsets (numbered (length zA + length z0) [n]) ++ junk)). cbn [bind]. rewrite Hranges.
    exists (tab_offsets (numbered (length zA + length z0) [n]) ++ junk). do 2 f_equal. rewrite (numbered_app 0 zA), tab_offsets_app, app_nil_r. cbn [Nat.add]. rewrite <- app_assoc. reflexivity.
  - replace (length zA + length zo =? length R) with false by (cbn [length] in Hlen; lia).
    assert (Hrb : vat R (length zA + length zo) = Ok (list_sum zA + list_sum zo, nB)).
    { unfold vat. rewrite HR, app_assoc, nth_error_app2 by (rewrite app_length, !tab_ranges_length, !numbered_length; lia). rewrite app_length, !tab_ranges_length, !numbered_length, Nat.sub_diag. reflexivity. }
    rewrite Hrb. cbn [bind fst]. rewrite Hoff. cbn [bind].
    assert (Hv : verase O (list_sum zA) (list_sum zA + list_sum zo) = Ok (tab_offsets (numbered 0 zA) ++ (tab_offsets (numbered (length zA + length zo) (nB :: zB)) ++ junk))).
    { rewrite HO. rewrite <- HlA. replace (list_sum zo) with (length (tab_offsets (numbered (length zA) zo))) by (rewrite tab_offsets_length, numbered_size; reflexivity). apply verase_mid. }
    rewrite Hv. cbn [bind]. rewrite Hvi. cbn [bind]. rewrite Hranges. exists junk. do 2 f_equal. rewrite !numbered_app, !tab_offsets_app, <- !app_assoc, Hlz. reflexivity.
Qed.

(** ** The loop over the stretches *)
Definition tokened (p : option Z * (nat * nat)) : bool := match fst p with Some _ => true | None => false end.
Definition seg_slice (s : wstr) (p : option Z * (nat * nat)) : wstr := slice s (fst (snd p)) (snd (snd p)).
Inductive items_from (E : env) (norm : option normalizer) (trie : list (bytes * Z)) (s : wstr) : nat -> list (option Z * (nat * nat)) -> list (list ((nat * wstr) * bool)) -> Prop :=
| if_nil e : items_from E norm trie s e [] []
| if_token e p segs LL : tokened p = true -> items_from E norm trie s (e + length (seg_slice s p)) segs LL -> items_from E norm trie s e (p :: segs) ([((e, seg_slice s p), true)] :: LL)
| if_stretch e p n segs LL : tokened p = false -> in_place_to E norm (seg_slice s p) n -> Forall plane n -> items_from E norm trie s (e + length n) segs LL ->
    items_from E norm trie s e (p :: segs) (map (seg_item n e) (segs_of trie n) :: LL).
Lemma seg_item_holds n e : forall segs, Forall2 item_holds (map (seg_item n e) segs) (map (seg_split n e) segs).
Proof.
  induction segs as [|q l IH]; [constructor|]. cbn [map]. constructor; [|exact IH]. unfold item_holds, seg_item, seg_split. cbn [fst snd sp_text sp_off sp_tokens]. split; [reflexivity|]. split; [lia|]. destruct (fst q); [discriminate | reflexivity].
Qed.
Lemma laid_loop E norm trie map_r s : plain_ids map_r trie -> Forall plane s -> works_in_place E norm s ->
  forall segs a e z junk, chained a (length s) (map snd segs) -> Forall (fun p : option Z * (nat * nat) => fst (snd p) < snd (snd p)) segs -> Forall (fun p => tokened p = true -> Forall printable (seg_slice s p)) segs ->
  e <= a -> length z = length s -> Forall (fun n => 0 < n) z ->
  exists z' junk' out LL, normalize_splits E norm trie (numbered_ns z junk s) map_r e (map (seg_split s 0) segs) = Ok (numbered_ns z' junk' s, map_r, out) /\ length z' = length s /\ Forall (fun n => 0 < n) z' /\
    items_from E norm trie s e segs LL /\ Forall2 item_holds (concat LL) out.
Proof.
  intros HP Hs Hw. induction segs as [|[o [x y]] segs IH]; intros a e z junk Hc Hn Ht He Hlz Hz.
  - exists z, junk, [], []. split; [reflexivity|]. split; [exact Hlz|]. split; [exact Hz|]. split; constructor.
  - cbn [map snd chained] in Hc. destruct Hc as (-> & H1 & H2). pose proof (chained_le _ _ _ H2) as H3. pose proof (Forall_inv Hn) as N1. pose proof (Forall_inv_tail Hn) as N2. pose proof (Forall_inv Ht) as T1. pose proof (Forall_inv_tail Ht) as T2. cbn [fst snd] in N1. cbn beta in T1.
    assert (Hlx : length (slice s a y) = y - a) by (apply slice_length; assumption).
    assert (Hhd : seg_split s 0 (o, (a, y)) = mkSplit (utf8_encs (slice s a y)) (a, y) (match o with Some i => [mkTok i (utf8_encs (slice s a y)) (0, length (utf8_encs (slice s a y)))] | None => [] end))
      by (unfold seg_split; cbn [fst snd]; rewrite !Nat.add_0_r; reflexivity).
    cbn [map]. rewrite Hhd. clear Hhd. cbn [normalize_splits]. destruct o as [i|]; cbn [sp_tokens sp_text sp_off fst snd].
    + assert (Hpr : Forall printable (slice s a y)) by exact (T1 eq_refl). assert (Hb : length (utf8_encs (slice s a y)) = length (slice s a y)) by (rewrite (proj1 (ascii_encs _ (printable_ascii _ Hpr))); reflexivity).
      destruct (IH y (e + length (slice s a y)) z junk H2 N2 T2) as (z' & junk' & out & LL & I1 & I2 & I3 & I4 & I5); [lia | exact Hlz | exact Hz|].
      rewrite Hb, I1. cbn [bind]. do 3 eexists. exists ([((e, slice s a y), true)] :: LL). split; [reflexivity|]. split; [exact I2|]. split; [exact I3|]. split; [apply if_token; [reflexivity | exact I4]|].
      cbn [concat app]. constructor; [|exact I5]. split; [reflexivity|]. split; [reflexivity | discriminate].
    + destruct (Hw (firstn a s) (slice s a y) (skipn y s)) as (n & W1 & W2 & W3); [rewrite <- (skip_slice s a y H1 H3), firstn_skipn; reflexivity | intros E0; rewrite E0 in Hlx; cbn in Hlx; lia|].
      destruct (in_place_norm E norm _ n W1) as [R1 R2]. rewrite (proj2 (convert_from_string_iff _ (slice s a y))) by (split; [reflexivity | apply plane_valid, plane_slice; exact Hs]). cbn [bind].
      fold (run_norm E norm (slice s a y)). rewrite R1. cbn [bind].
      assert (Ez : z = firstn e z ++ firstn (y - a) (skipn e z) ++ skipn (e + (y - a)) z).
      { rewrite <- (firstn_skipn e z) at 1. f_equal. rewrite <- (firstn_skipn (y - a) (skipn e z)) at 1. f_equal. rewrite skipn_skipn'. first [reflexivity | f_equal; lia]. }
      assert (L1 : length (firstn e z) = e) by (rewrite firstn_length; lia). assert (L2 : length (firstn (y - a) (skipn e z)) = y - a) by (rewrite firstn_length, skipn_length; lia).
      assert (L3 : length (unit_sizes (slice s a y)) = y - a) by (rewrite sizes_len by (apply plane_bmp, plane_slice; exact Hs); exact Hlx).
      destruct (transform_over (firstn e z) (firstn (y - a) (skipn e z)) (unit_sizes (slice s a y)) (skipn (e + (y - a)) z) junk s (set_text (new_nstring (slice s a y)) n)) as (junk1 & Hj).
      { intros E0. rewrite E0 in L3. cbn in L3. lia. }
      { congruence. }
      { rewrite <- Ez. exact Hz. }
      { apply unit_sizes_pos. }
      { rewrite fresh_numbered. reflexivity. }
      { rewrite fresh_numbered. cbn [set_text ns_offsets numbered_ns]. apply app_nil_r. }
      rewrite <- Ez, L1, L2 in Hj. replace (e + y - a) with (e + (y - a)) by lia. rewrite Hj. cbn [bind ns_text set_text]. clear Hj.
      unfold convert_to_string at 1. rewrite W3. cbn [bind]. destruct (find_plain map_r (utf8_encs n) trie HP) as [Hfind _]. rewrite Hfind. cbn [bind]. clear Hfind.
      rewrite from_utf8_encs, bmp_utf16 by assumption. rewrite (norm_splits_ok _ _ _ 0 W3 (segs_chained _ _)). cbn [bind].
      destruct (IH y (e + length n) (firstn e z ++ unit_sizes (slice s a y) ++ skipn (e + (y - a)) z) junk1 H2 N2 T2) as (z' & junk' & out & LL & I1 & I2 & I3 & I4 & I5).
      { lia. }
      { rewrite Ez in Hlz. rewrite !app_length in Hlz |- *. lia. }
      { rewrite Ez in Hz. apply Forall_app in Hz as [Z1 Z2]. apply Forall_app in Z2 as [_ Z3]. apply Forall_app. split; [exact Z1|]. apply Forall_app. split; [apply unit_sizes_pos | exact Z3]. }
      rewrite I1. cbn [bind]. do 3 eexists. exists (map (seg_item n e) (segs_of trie n) :: LL). split; [reflexivity|]. split; [exact I2|]. split; [exact I3|]. split; [apply if_stretch; [reflexivity | exact W1 | apply plane_text; assumption | exact I4]|].
      cbn [concat]. apply Forall2_app; [apply seg_item_holds | exact I5].
Qed.

(** ** The words of the pieces *)
Lemma divided_none pos x ms segs : divided pos x ms segs -> Forall (fun q : (nat * wstr) * bool => snd q = false) segs -> ms = [].
Proof. induction 1; intros HF; try reflexivity; [apply IHdivided; exact (Forall_inv_tail HF) | apply Forall_inv in HF; discriminate]. Qed.
Lemma divided_whole s segs : s <> [] -> divided 0 s [] segs -> segs = [((0, s), false)].
Proof. intros Hne H. inversion H; subst; congruence. Qed.
Lemma item_words_any E pre : (forall t, pre = Some t -> cuttable E t) -> forall items, Forall item_ok items -> exists out, Forall2 (item_words E pre) items out.
Proof.
  intros Hpre items H. apply pick. eapply Forall_impl; [|exact H]. intros [[pos x] f] [H1 _]. unfold item_words. cbn [fst snd] in *. destruct f; [eauto | apply words_at_total; assumption].
Qed.
Lemma no_segs known : segs_of known [] = [].
Proof. reflexivity. Qed.

Section Laid.
Variables (E : env) (norm : option normalizer) (pre : option pre_tokenizer) (s : wstr) (v : smap Z) (ops : list added_token) (av : added_vocab).
Hypothesis Hpre : forall t, pre = Some t -> cuttable E t.
Hypothesis (Hne : s <> []) (Hs : Forall plane s) (Hd : dense v) (Hv : v <> []) (HH : history v ops av) (Hf : one_flag ops) (Hsim : Forall printable_token ops).
Hypothesis Hw : works_in_place E norm s.
Lemma seg_items_ok (b : bool) u d : Forall plane u ->
  (exists tokens, fields (takes_part v ops b) (fun _ _ none => none = []) d u tokens /\
    divided d u (map (fun p => (fst p, fst p + units (snd p))) tokens) (map (seg_item u d) (segs_of (if b then av_trie_norm av else av_trie_raw av) u))) /\
  Forall item_ok (map (seg_item u d) (segs_of (if b then av_trie_norm av else av_trie_raw av) u)).
Proof.
  intros Hu. pose proof (trie_nonempty v ops av Hd Hv HH (all_simple ops Hsim)) as (T1 & T2 & _ & _).
  destruct (trie_plane (takes_part v ops b) (if b then av_trie_norm av else av_trie_raw av) u d Hu) as [H1 H].
  - destruct b; assumption.
  - intros c Hc Hn. apply (known_plane v ops av b c Hd Hv HH Hf Hsim Hc Hn).
  - split; [exact H1|]. rewrite Forall_map in H |- *. eapply Forall_impl; [|exact H]. intros p K. split; [unfold seg_item; cbn [fst snd]; apply valid_slice, plane_valid; exact Hu|]. intros Ht. destruct (K Ht) as [(_ & t & K1 & K2 & _) K3]. split; [|exact K3]. rewrite <- K2. apply (proj1 (Forall_forall _ _) Hsim t K1).
Qed.
Lemma stretch_laid n e out : Forall plane n -> Forall2 (item_words E pre) (map (seg_item n e) (segs_of (av_trie_norm av) n)) out -> parts (takes_part v ops true) (words_at E pre) e n (concat out).
Proof.
  intros Hn HO. destruct (seg_items_ok true n e Hn) as [(tokens & F1 & F2) _]. exists tokens, (map (seg_item n e) (segs_of (av_trie_norm av) n)), out. split; [exact F1|]. split; [exact F2|]. split; [|reflexivity].
  clear - HO. induction HO as [|[[pos x] f] ws l out H _ IH]; constructor; [exact H | exact IH].
Qed.
Lemma laid_items : forall e segs LL, items_from E norm (av_trie_norm av) s e segs LL -> Forall item_ok (map (seg_item s 0) segs) ->
  Forall item_ok (concat LL) /\ forall out, Forall2 (item_words E pre) (concat LL) out -> laid E v ops norm pre e (map (seg_item s 0) segs) (concat out).
Proof.
  induction 1 as [e|e p segs LL Hp _ IH|e p n segs LL Hp Hi Hn _ IH]; intros HG.
  - split; [constructor|]. intros out HO. inversion HO; subst. constructor.
  - pose proof (Forall_inv HG) as G1. destruct (IH (Forall_inv_tail HG)) as [I1 I2]. assert (Ei : seg_item s 0 p = ((0 + fst (snd p), seg_slice s p), true)) by (unfold seg_item, seg_slice, tokened in *; destruct (fst p); [f_equal; f_equal; lia | discriminate]).
    split.
    + cbn [concat app]. constructor; [|exact I1]. rewrite Ei in G1. exact G1.
    + intros out HO. cbn [concat app] in HO. inversion HO as [|? ws ? out' H1 H2]; subst. unfold item_words in H1. cbn [fst snd] in H1. subst ws. cbn [map concat app]. rewrite Ei. constructor. exact (I2 out' H2).
  - destruct (IH (Forall_inv_tail HG)) as [I1 I2]. assert (Ei : seg_item s 0 p = ((0 + fst (snd p), seg_slice s p), false)) by (unfold seg_item, seg_slice, tokened in *; destruct (fst p); [discriminate | f_equal; f_equal; lia]).
    split.
    + cbn [concat]. apply Forall_app. split; [apply (seg_items_ok true n e Hn) | exact I1].
    + intros out HO. cbn [concat] in HO. apply Forall2_app_inv_l in HO as (o1 & o2 & O1 & O2 & ->). rewrite concat_app. cbn [map]. rewrite Ei. apply laid_stretch with (n := n); [exact Hi | apply stretch_laid; assumption | exact (I2 o2 O2)].
Qed.
Lemma items_cut ns items ss out : Forall2 item_holds items ss -> Forall item_ok items -> Forall2 (item_words E pre) items out ->
  exists ss', match pre with Some pt => pre_tokenize E pt (mkPt ns ss) | None => Ok (mkPt ns ss) end = Ok (mkPt ns ss') /\
    Forall2 (fun p x => sp_text x = utf8_encs (snd p) /\ fst (sp_off x) = fst p) (concat out) ss' /\ all_valid (concat out).
Proof.
  intros H0 HG HO. destruct pre as [pt|].
  - destruct (pre_items E pt ns (cuttable_no_prefix E pt (Hpre pt eq_refl)) items out ss H0 HG) as (ss' & S1 & S2 & S3).
    { clear - HO. induction HO as [|[[pos x] f] ws l out H _ IH]; constructor; [exact H | exact IH]. }
    exists ss'. auto.
  - exists ss. split; [reflexivity|]. assert (Ew : concat out = map fst items) by (clear - HO; induction HO as [|[[pos x] f] ws l out H _ IH]; [reflexivity|]; cbn [concat map]; rewrite IH; unfold item_words in H; cbn [fst snd words_at] in H; destruct f; subst ws; reflexivity).
    rewrite Ew. split.
    + clear - H0. induction H0 as [|q x l l' (A1 & A2 & _) _ IH]; cbn [map]; constructor; [split; assumption | exact IH].
    + unfold all_valid. rewrite Forall_map. eapply Forall_impl; [|exact HG]. intros q [Q _]. exact Q.
Qed.
(** what is handed to the model *)
Lemma prepare_laid t : tz_av t = Some av -> tz_norm t = norm -> tz_pre t = pre ->
  exists l z junk ss, laid_words E v ops norm pre s l /\ prepare E t s = Ok (Some (set_map_r av (av_map_r av)), mkPt (numbered_ns z junk s) ss) /\ length z = length s /\ Forall (fun n => 0 < n) z /\
    Forall2 (fun p x => sp_text x = utf8_encs (snd p) /\ fst (sp_off x) = fst p) l ss /\ all_valid l.
Proof.
  intros Hav Hno Hpr. pose proof (plane_valid s Hs) as Hvs. pose proof (plane_bmp s Hs) as Hb. destruct (history_plain _ _ _ Hd Hv HH (all_simple ops Hsim)) as (HP2 & HP1 & _).
  destruct (seg_items_ok false s 0 Hs) as [(tokens & F1 & F2) HG]. cbn match in F2, HG. pose proof (segs_chained (av_trie_raw av) s) as Hc. pose proof (trie_nonempty v ops av Hd Hv HH (all_simple ops Hsim)) as (_ & _ & _ & T4). pose proof (seg_nonempty (av_trie_raw av) s T4) as Hn.
  assert (HT : Forall (fun p => tokened p = true -> Forall printable (seg_slice s p)) (segs_of (av_trie_raw av) s)).
  { clear - HG. rewrite Forall_map in HG. eapply Forall_impl; [|exact HG]. intros p [_ K] Ht. unfold seg_item, seg_slice, tokened in *. cbn [fst snd] in K. destruct (fst p); [apply K; reflexivity | discriminate]. }
  destruct (laid_loop E norm (av_trie_norm av) (av_map_r av) s HP1 Hs Hw (segs_of (av_trie_raw av) s) 0 0 (unit_sizes s) [] Hc Hn HT (le_n 0) (sizes_len s Hb) (unit_sizes_pos s)) as (z & junk & out & LL & L1 & L2 & L3 & L4 & L5).
  assert (Hx : extract_and_normalize E av norm s = Ok (av_map_r av, mkPt (numbered_ns z junk s) match out with [] => map (seg_split s 0) (segs_of (av_trie_raw av) s) | _ => out end)).
  { unfold extract_and_normalize. rewrite fresh_numbered. unfold new_pretok. cbn [ns_text numbered_ns]. unfold convert_to_string at 1.
    rewrite Hvs. cbn [bind pt_norm pt_splits ns_text numbered_ns]. unfold convert_to_string at 1. rewrite Hvs. cbn [bind].
    destruct (find_plain (av_map_r av) (utf8_encs s) (av_trie_raw av) HP2) as [Hfp _]. rewrite Hfp. cbn [bind]. rewrite from_utf8_encs, bmp_utf16 by assumption.
    rewrite (raw_splits_ok s _ 0 Hvs Hc). cbn [bind].
    assert (Hr : map (seg_split s 0) (segs_of (av_trie_raw av) s) <> []). { destruct (segs_of (av_trie_raw av) s); [cbn in Hc; destruct s; [congruence | discriminate] | discriminate]. }
    assert (Hm : forall d : list split, match map (seg_split s 0) (segs_of (av_trie_raw av) s) with [] => d | _ => map (seg_split s 0) (segs_of (av_trie_raw av) s) end = map (seg_split s 0) (segs_of (av_trie_raw av) s)) by (destruct (map (seg_split s 0) (segs_of (av_trie_raw av) s)); [congruence | reflexivity]).
    rewrite Hm. clear Hm. fold (numbered_ns (unit_sizes s) [] s). rewrite L1. reflexivity. }
  assert (HE : exists items ss0, Forall2 item_holds items ss0 /\ Forall item_ok items /\ extract_and_normalize E av norm s = Ok (av_map_r av, mkPt (numbered_ns z junk s) ss0) /\
    forall out', Forall2 (item_words E pre) items out' -> laid_words E v ops norm pre s (concat out')).
  { clear Hav Hno Hpr. destruct (laid_items 0 _ LL L4 HG) as [I1 I2]. destruct out as [|o out].
    - assert (EL : concat LL = []) by (inversion L5; reflexivity).
      assert (HN : Forall (fun p : option Z * (nat * nat) => fst p = None) (segs_of (av_trie_raw av) s)).
      { clear - L4 EL. induction L4 as [|e p segs LL Hp _ IH|e p n segs LL Hp Hi Hn _ IH]; [constructor | discriminate EL|]. cbn [concat] in EL. apply app_eq_nil in EL as [_ EL]. constructor; [|exact (IH EL)]. unfold tokened in Hp. destruct (fst p); [discriminate | reflexivity]. }
      pose proof (no_tokens_whole _ s Hne HN) as ES. assert (EW : slice s 0 (length s) = s) by (unfold slice; cbn [skipn]; rewrite Nat.sub_0_r; apply firstn_all).
      assert (EI : map (seg_item s 0) (segs_of (av_trie_raw av) s) = [((0, s), false)]) by (rewrite ES; unfold seg_item; cbn [map fst snd]; rewrite EW; reflexivity).
      exists (map (seg_item s 0) (segs_of (av_trie_raw av) s)), (map (seg_split s 0) (segs_of (av_trie_raw av) s)). split; [apply seg_item_holds|]. split; [exact HG|]. split; [exact Hx|].
      intros out' HO. exists tokens, (map (seg_item s 0) (segs_of (av_trie_raw av) s)). split; [exact F1|]. split; [exact F2|]. left. split; [split|].
      + rewrite EI in F2. apply divided_none in F2; [destruct tokens; [reflexivity | discriminate] | repeat constructor].
      + rewrite ES in L4. inversion L4 as [| |? ? n ? LL' _ Hi Hn' L4']; subst; [discriminate|]. unfold seg_slice in Hi. cbn [fst snd] in Hi. rewrite EW in Hi. cbn [concat] in EL. apply app_eq_nil in EL as [EL _]. apply map_eq_nil in EL.
        pose proof (segs_chained (av_trie_norm av) n) as K. rewrite EL in K. cbn in K. destruct n; [exact Hi | discriminate].
      + rewrite EI in HO. inversion HO as [|? ws ? out'' O1 O2]; subst. inversion O2; subst. cbn [concat]. rewrite app_nil_r. exact O1.
    - exists (concat LL), (o :: out). split; [exact L5|]. split; [exact I1|]. split; [exact Hx|]. intros out' HO. exists tokens, (map (seg_item s 0) (segs_of (av_trie_raw av) s)). split; [exact F1|]. split; [exact F2|]. right. split; [|exact (I2 out' HO)].
      intros [-> Hi]. apply divided_whole in F2; [|exact Hne]. destruct (segs_of (av_trie_raw av) s) as [|p [|p' segs]]; cbn [map] in F2; try discriminate. injection F2 as F2. inversion L4 as [|? ? ? LL' Hp L4'|? ? n ? LL' Hp Hi' Hn' L4']; subst.
      + unfold tokened in Hp. unfold seg_item in F2. destruct (fst p); [discriminate | discriminate].
      + inversion L4'; subst. assert (Es : seg_slice s p = s) by (unfold seg_item, seg_slice in *; congruence). rewrite Es in Hi'. rewrite (in_place_one E norm s n [] Hi' Hi), no_segs in L5. inversion L5. }
  destruct HE as (items & ss0 & E1 & E2 & E3 & E4). destruct (item_words_any E pre Hpre items E2) as (out' & HO). destruct (items_cut (numbered_ns z junk s) items ss0 out' E1 E2 HO) as (ss & S1 & S2 & S3).
  exists (concat out'), z, junk, ss. split; [exact (E4 out' HO)|]. split.
  - unfold prepare. rewrite Hav, Hno, Hpr, E3. unfold new_pretok. rewrite fresh_numbered. cbn [ns_text numbered_ns]. unfold convert_to_string. rewrite Hvs. cbn [bind]. rewrite S1. reflexivity.
  - auto.
Qed.
End Laid.

(** ** The words are determined *)
Lemma fields_tokens_fun tok s pos t t' : fields tok (fun _ _ none => none = []) pos s t -> fields tok (fun _ _ none => none = []) pos s t' -> t = t'.
Proof. intros H H'. eapply fields_fun; [|exact H|exact H']. intros p x a b -> ->. reflexivity. Qed.
Lemma laid_fun E v ops norm pre : forall pos segs l, laid E v ops norm pre pos segs l -> forall l', laid E v ops norm pre pos segs l' -> l = l'.
Proof.
  induction 1 as [pos|pos o x segs l _ IH|pos o x n segs l k Hi Hp _ IH]; intros l' H'; inversion H'; subst.
  - reflexivity.
  - f_equal. apply IH. assumption.
  - match goal with K : in_place_to E norm x ?m |- _ => first [constr_eq m n; fail 1 | pose proof (in_place_one E norm x m n K Hi); subst m] | _ => idtac end. f_equal; [|apply IH; assumption]. eapply parts_fun; [|eassumption|eassumption]. intros p y a b. apply words_at_fun.
Qed.
Theorem C139_determined : forall E v ops norm pre s l l', laid_words E v ops norm pre s l -> laid_words E v ops norm pre s l' -> l = l'.
Proof.
  intros E v ops norm pre s l l' (tk & sg & F & D & H) (tk' & sg' & F' & D' & H'). pose proof (fields_tokens_fun _ _ _ _ _ F F'). subst tk'. pose proof (divided_fun _ _ _ _ D _ D'). subst sg'. cbn beta in H, H'.
  destruct H as [[N H]|[N H]], H' as [[N' H']|[N' H']]; try contradiction; [exact (words_at_fun _ _ _ _ _ _ H H') | exact (laid_fun _ _ _ _ _ _ _ _ H _ H')].
Qed.
Print Assumptions C139_determined.

(** ** Rows *)
Lemma bases_z z junk s q : Forall (fun n => 0 < n) z -> forall x o ts, In (x, o) q ->
  Forall (fun p : nat * wstr => fst p < length z) (map (fun p : wstr * (nat * nat) => (fst (snd p), fst p)) q) -> split_base (numbered_ns z junk s) (mkSplit x o ts) = Ok (fst o).
Proof. intros Hz x o ts Hin HF. apply base_numbered; [exact Hz|]. cbn [sp_off]. apply (proj1 (Forall_forall _ _) HF (fst o, x)). apply in_map_iff. exists (x, o). auto. Qed.
Lemma into_rows_past_z z junk s : Forall (fun n => 0 < n) z -> forall l i, Exists (fun x => length z <= fst (sp_off x)) l -> into_rows (numbered_ns z junk s) 0 i l = Undef OobIndex.
Proof.
  intros Hz. induction l as [|x l IH]; intros i H; [inversion H|]. cbn [into_rows]. destruct (Nat.lt_ge_cases (fst (sp_off x)) (length z)) as [Hlt|Hge].
  - rewrite base_numbered by assumption. cbn [bind]. rewrite IH; [reflexivity|]. inversion H as [? ? Hx|? ? Hx]; subst; [lia | exact Hx].
  - rewrite base_past by exact Hge. reflexivity.
Qed.
Lemma not_all_before {A} (f : A -> nat) k (l : list A) : ~ Forall (fun p => f p < k) l -> Exists (fun p => k <= f p) l.
Proof.
  induction l as [|a l IH]; intros H; [exfalso; apply H; constructor|]. destruct (Nat.lt_ge_cases (f a) k) as [Hlt|Hge]; [right; apply IH; intros K; apply H; constructor; assumption | left; exact Hge].
Qed.
Lemma all_before_dec {A} (f : A -> nat) k (l : list A) : Forall (fun p => f p < k) l \/ ~ Forall (fun p => f p < k) l.
Proof. destruct (Forall_dec (fun p => f p < k) (fun a => lt_dec (f a) k) l); auto. Qed.

Section Rows.
Variables (E : env) (s : wstr) (v : smap Z) (ops : list added_token) (av : added_vocab) (t : tokenizer).
Hypothesis (Hav : tz_av t = Some av) (Hpre : forall p, tz_pre t = Some p -> cuttable E p) (Hne : s <> []) (Hs : Forall plane s) (Hd : dense v) (Hv : v <> []) (HH : history v ops av) (Hf : one_flag ops) (Hsim : Forall printable_token ops).
Hypothesis Hw : works_in_place E (tz_norm t) s.
Lemma wp_laid w : tz_model t = Some (MWordPiece w) -> exists l, laid_words E v ops (tz_norm t) (tz_pre t) s l /\
  (Forall (fun p => fst p < length s) l -> exists core, text_encoding E t s = Ok core /\ rows_of_words (word_tokens w) 0 l (rows core)) /\
  (~ Forall (fun p => fst p < length s) l -> text_encoding E t s = Undef OobIndex).
Proof.
  intros Hm. destruct (prepare_laid E (tz_norm t) (tz_pre t) s v ops av Hpre Hne Hs Hd Hv HH Hf Hsim Hw t Hav eq_refl eq_refl) as (l & z & junk & ss & W1 & W2 & W3 & W4 & W5 & W6).
  exists l. split; [exact W1|]. unfold text_encoding. rewrite W2. cbn [bind]. rewrite Hm. cbn [model_tokenize snd]. destruct (splits_shape l ss W5) as (q & Q1 & <-).
  destruct (wp_tokenize_ok w (mkPt (numbered_ns z junk s) ss)) as (out & Hl & HF). cbn [pt_splits pt_norm] in HF, Hl. apply tokenized_untokened in HF. rewrite Q1 in HF. rewrite Hl. cbn [bind]. unfold into_encoding. cbn [pt_norm pt_splits]. split; intros HB; rewrite <- W3 in HB.
  - destruct (wp_rows w (numbered_ns z junk s) q out 0 W6 HF) as (e & E1 & E2); [intros x o ts Hin; exact (bases_z z junk s q W4 x o ts Hin HB)|]. exists e. split; [exact E1 | exact E2].
  - apply not_all_before in HB. apply into_rows_past_z; [exact W4|]. clear - HF HB. revert out HF. induction q as [|[x o] q IH]; intros out HF; cbn [map] in *; inversion HF as [|? s' ? out' (A1 & A2 & A3) HF']; subst; inversion HB as [? ? H|? ? H]; subst; [left; rewrite A2; exact H | right; apply IH; assumption].
Qed.
Lemma bpe_laid vocab merges d unk bpre suf fu bf ig b c : pq_ok E -> new_bpe vocab merges d unk bpre suf fu bf ig = Ok b -> reach_cache E b c -> tz_model t = Some (MBpe b c) ->
  exists l, laid_words E v ops (tz_norm t) (tz_pre t) s l /\
  (Forall (fun p => fst p < length s /\ encodable b (snd p)) l -> exists core, text_encoding E t s = Ok core /\ rows_of_words (bpe_tokens b) 0 l (rows core)) /\
  (~ Forall (fun p => fst p < length s /\ encodable b (snd p)) l -> text_encoding E t s = Undef OobIndex).
Proof.
  intros Hq Hb Hr Hm. destruct (prepare_laid E (tz_norm t) (tz_pre t) s v ops av Hpre Hne Hs Hd Hv HH Hf Hsim Hw t Hav eq_refl eq_refl) as (l & z & junk & ss & W1 & W2 & W3 & W4 & W5 & W6).
  exists l. split; [exact W1|]. destruct (splits_shape l ss W5) as (q & Q1 & <-).
  assert (Hmt : forall p, snd (model_tokenize E (MBpe b c) p) = snd (bpe_tokenize E b c p)) by (intros p; cbn [model_tokenize]; destruct (bpe_tokenize E b c p); reflexivity).
  assert (HT : text_encoding E t s = (l <- plain_words E b (map (fun p => mkSplit (utf8_encs (fst p)) (snd p) []) q) ;; into_rows (numbered_ns z junk s) 0 0 l)).
  { unfold text_encoding. rewrite W2. cbn [bind]. rewrite Hm, Hmt, (proj1 (bpe_tokenize_transparent E b c _ (reach_cache_ok E b c Hr))). cbn [pt_splits pt_norm]. rewrite plain_untokened, Q1. destruct (plain_words E b _); reflexivity. }
  destruct (words_cases E b vocab merges d unk bpre suf fu bf ig Hq Hb q) as [(Hl & out & O1 & O2)|(Hl & O1)]; rewrite O1 in HT; cbn [bind] in HT; rewrite HT.
  - destruct (all_before_dec (fun p : nat * wstr => fst p) (length z) (map (fun p : wstr * (nat * nat) => (fst (snd p), fst p)) q)) as [HB|HB].
    + split; [|intros K; exfalso; apply K; clear - Hl HB W3; rewrite <- W3; rewrite Forall_map in *; induction Hl; inversion HB; subst; constructor; auto]. intros _.
      destruct (bpe_into_rows E b (numbered_ns z junk s) q out 0 O2) as (e & E1 & E2).
      { apply Forall_forall. intros [x o] Hin tx ts. cbn [fst snd]. pose proof (bases_z z junk s q W4 x o ts Hin HB) as K. unfold split_base in *. exact K. }
      exists e. split; [exact E1|]. eapply words_weaken; [|exact E2]. intros [pos x] ts _ Hx. cbn [snd] in *. unfold runs in Hx.
      destruct (word_cases E b vocab merges d unk bpre suf fu bf ig Hq Hb x) as [(_ & ts' & T1 & T2)|(_ & T1)]; [|congruence]. assert (ts' = ts) by congruence. subst ts'. exact T2.
    + split; [intros K; exfalso; apply HB; rewrite W3; eapply Forall_impl; [|exact K]; intros p [K1 _]; exact K1|]. intros _. apply not_all_before in HB. apply into_rows_past_z; [exact W4|].
      clear - O2 HB. induction O2 as [|[x o] y q out [A1 A2] _ IH]; cbn [map] in HB; inversion HB as [? ? H|? ? H]; subst; [left; rewrite A1; exact H | right; apply IH; assumption].
  - split; [|intros _; reflexivity]. intros K. exfalso. apply Hl. rewrite Forall_map in K. eapply Forall_impl; [|exact K]. intros p [_ K2]. exact K2.
Qed.
End Rows.

(** ** C139 *)
(** A tokenizer constructed from a configuration with WordPiece and special added tokens, at any later time, on any text of the basic plane in which added tokens may occur and whose stretches are normalized
    in place: the words and their positions exist and are determined by the text; if all positions lie inside the text, encode returns the rows of exactly these words at these positions, truncated, given the
    special tokens and padded; and otherwise it reads outside the alignment table. *)
Theorem C139_wordpiece : forall load parse path cfg text c t0 w toks E fuel0,
  source load path cfg (Some text) -> parse text = Some (render c) -> config_ok c -> build c = Ok t0 ->
  cf_model c = Some (CWordPiece w) -> dense (wp_vocab w) -> wp_vocab w <> [] -> (forall p, cf_pre c = Some p -> cuttable E p) ->
  cf_added c = Some toks -> Forall (fun x => at_special x = true) toks -> sane t0 -> (forall p, cf_post c = Some p -> specials_ok p) ->
  exists t, construct load parse path cfg = Ok t /\
  forall h s add, s <> [] -> bmp s -> forallb valid_cp s = true -> Forall printable_token (toks ++ given h) -> one_flag (toks ++ given h) -> works_in_place E (cf_norm c) s ->
  let outcome fuel := snd (encode E fuel (HistSpec.after E fuel0 t h) s add) in
  exists l, laid_words E (wp_vocab w) (toks ++ given h) (cf_norm c) (cf_pre c) s l /\
    (Forall (fun p => fst p < length s) l -> exists rs, rows_of_words (word_tokens w) 0 l rs /\
      ((Z.of_nat (length rs) < 2 ^ 31)%Z -> (forall k, k <= length rs -> (Z.of_nat (tz_post_length t0 add k) < 2 ^ 31)%Z) ->
       exists r, (forall fuel, length rs + 2 <= fuel -> outcome fuel = Ok r) /\ parallel r /\ finished t0 add rs (rows r))) /\
    (~ Forall (fun p => fst p < length s) l -> forall fuel, outcome fuel = Undef OobIndex).
Proof.
  intros load parse path cfg text c t0 w toks E fuel0 Hs Hp Hok Hb Hm Hd Hne Hpre Ha Hspec Hsane Hsp.
  assert (Ht0 : t0 = mkTz (cf_trunc c) (cf_pad c) (Some (new_added_vocab toks)) (cf_norm c) (cf_pre c) (Some (MWordPiece w)) (cf_dec c) (cf_post c)).
  { unfold build in Hb. rewrite Hm, Ha in Hb. cbn [build_model bind option_map] in Hb. injection Hb as <-. reflexivity. }
  assert (Ha0 : tz_av t0 = Some (new_added_vocab toks)) by (rewrite Ht0; reflexivity). assert (Hm0 : tz_model t0 = Some (MWordPiece w)) by (rewrite Ht0; reflexivity).
  destruct (proj1 (C45_construction t0 toks (MWordPiece w) Ha0 Hm0 Hd Hne)) as (t & Hc).
  { apply Forall_forall. intros x Hx. right. exists x. split; [exact Hx|]. split; [exact (proj1 (Forall_forall _ _) Hspec x Hx) | reflexivity]. }
  exists t. split; [rewrite (C79_construct load parse path cfg text c t0 Hs Hp Hok Hb); exact Hc|].
  intros h s add Hs0 Hbm Hvs Hsim Hf Hw outcome.
  destruct (C38_lifetime E fuel0 t0 (MWordPiece w) toks t Hd Hne Ha0 Hm0 ltac:(discriminate) Hc h) as ((av & A1 & A2) & (m & M1 & M2) & S). cbn [same_model model_vocab] in *.
  destruct m as [w'|b' c']; [|contradiction]. subst w'. unfold outcome. remember (HistSpec.after E fuel0 t h) as u eqn:Hu. clear outcome.
  assert (SN : tz_norm u = cf_norm c) by (destruct S as (_ & _ & S3 & _); rewrite S3, Ht0; reflexivity). assert (SP : tz_pre u = cf_pre c) by (destruct S as (_ & _ & _ & S4 & _); rewrite S4, Ht0; reflexivity).
  rewrite <- SN in Hw |- *. rewrite <- SP in Hpre |- *. destruct (wp_laid E s (wp_vocab w) (toks ++ given h) av u A1 Hpre Hs0 (plane_text s Hbm Hvs) Hd Hne A2 Hf Hsim Hw w M1) as (l & L1 & L2 & L3).
  exists l. split; [exact L1|]. split; intros HB.
  - destruct (L2 HB) as (core & K1 & K2). exists (rows core). split; [exact K2|]. intros B1 B2. destruct (text_encoding_parallel _ _ _ _ K1) as [Hfl _]. apply (bound_total E u t0 c s add core Hb Hok S Hsane Hsp); [rewrite encode_bare; exact K1 | exact Hfl | exact B1 | exact B2].
  - intros fuel. rewrite encode_stages, encode_bare, (L3 HB). reflexivity.
Qed.
Print Assumptions C139_wordpiece.
(** The same for BPE, where every word must also have something in the vocabulary. *)
Theorem C139_bpe : forall load parse path cfg text c t0 vocab merges d unk pre suf fu bf ig b toks E fuel0,
  source load path cfg (Some text) -> parse text = Some (render c) -> config_ok c -> build c = Ok t0 -> pq_ok E ->
  cf_model c = Some (CBpe vocab merges d unk pre suf fu bf ig) -> new_bpe vocab merges d unk pre suf fu bf ig = Ok b -> dense vocab -> vocab <> [] -> (forall p, cf_pre c = Some p -> cuttable E p) ->
  cf_added c = Some toks -> Forall (fun x => at_special x = true) toks -> sane t0 -> (forall p, cf_post c = Some p -> specials_ok p) ->
  exists t, construct load parse path cfg = Ok t /\
  forall h s add, s <> [] -> bmp s -> forallb valid_cp s = true -> Forall printable_token (toks ++ given h) -> one_flag (toks ++ given h) -> works_in_place E (cf_norm c) s ->
  let outcome fuel := snd (encode E fuel (HistSpec.after E fuel0 t h) s add) in
  exists l, laid_words E vocab (toks ++ given h) (cf_norm c) (cf_pre c) s l /\
    (Forall (fun p => fst p < length s /\ encodable b (snd p)) l -> exists rs, rows_of_words (bpe_tokens b) 0 l rs /\
      ((Z.of_nat (length rs) < 2 ^ 31)%Z -> (forall k, k <= length rs -> (Z.of_nat (tz_post_length t0 add k) < 2 ^ 31)%Z) ->
       exists r, (forall fuel, length rs + 2 <= fuel -> outcome fuel = Ok r) /\ parallel r /\ finished t0 add rs (rows r))) /\
    (~ Forall (fun p => fst p < length s /\ encodable b (snd p)) l -> forall fuel, outcome fuel = Undef OobIndex).
Proof.
  intros load parse path cfg text c t0 vocab merges d unk pre suf fu bf ig b toks E fuel0 Hs Hp Hok Hb Hq Hm Hbp Hd Hne Hpre Ha Hspec Hsane Hsp.
  assert (Ht0 : t0 = mkTz (cf_trunc c) (cf_pad c) (Some (new_added_vocab toks)) (cf_norm c) (cf_pre c) (Some (MBpe b [])) (cf_dec c) (cf_post c)).
  { unfold build in Hb. rewrite Hm, Ha in Hb. cbn [build_model bind option_map] in Hb. rewrite Hbp in Hb. cbn [bind] in Hb. injection Hb as <-. reflexivity. }
  assert (Hvo : model_vocab (MBpe b []) = vocab) by (apply new_bpe_vocab in Hbp as (_ & Ev & _); exact Ev).
  assert (Ha0 : tz_av t0 = Some (new_added_vocab toks)) by (rewrite Ht0; reflexivity). assert (Hm0 : tz_model t0 = Some (MBpe b [])) by (rewrite Ht0; reflexivity). rewrite <- Hvo in Hd, Hne |- *.
  destruct (proj1 (C45_construction t0 toks (MBpe b []) Ha0 Hm0 Hd Hne)) as (t & Hc).
  { apply Forall_forall. intros x Hx. right. exists x. split; [exact Hx|]. split; [exact (proj1 (Forall_forall _ _) Hspec x Hx) | reflexivity]. }
  exists t. split; [rewrite (C79_construct load parse path cfg text c t0 Hs Hp Hok Hb); exact Hc|].
  intros h s add Hs0 Hbm Hvs Hsim Hf Hw outcome.
  destruct (C38_lifetime E fuel0 t0 (MBpe b []) toks t Hd Hne Ha0 Hm0 ltac:(congruence) Hc h) as ((av & A1 & A2) & (m & M1 & M2) & S).
  destruct m as [w'|b' c']; [contradiction|]. cbn [same_model] in M2. destruct M2 as [<- M2]. unfold outcome. remember (HistSpec.after E fuel0 t h) as u eqn:Hu. clear outcome.
  assert (SN : tz_norm u = cf_norm c) by (destruct S as (_ & _ & S3 & _); rewrite S3, Ht0; reflexivity). assert (SP : tz_pre u = cf_pre c) by (destruct S as (_ & _ & _ & S4 & _); rewrite S4, Ht0; reflexivity).
  rewrite <- SN in Hw |- *. rewrite <- SP in Hpre |- *. destruct (bpe_laid E s (model_vocab (MBpe b [])) (toks ++ given h) av u A1 Hpre Hs0 (plane_text s Hbm Hvs) Hd Hne A2 Hf Hsim Hw vocab merges d unk pre suf fu bf ig b c' Hq Hbp M2 M1) as (l & L1 & L2 & L3).
  exists l. split; [exact L1|]. split; intros HB.
  - destruct (L2 HB) as (core & K1 & K2). exists (rows core). split; [exact K2|]. intros B1 B2. destruct (text_encoding_parallel _ _ _ _ K1) as [Hfl _]. apply (bound_total E u t0 c s add core Hb Hok S Hsane Hsp); [rewrite encode_bare; exact K1 | exact Hfl | exact B1 | exact B2].
  - intros fuel. rewrite encode_stages, encode_bare, (L3 HB). reflexivity.
Qed.
Print Assumptions C139_bpe.
