(** C135: BERT normalizers on every text. Specification: WholeSpec.v. *)
From Verif Require Import Base BaseFacts Unicode UnicodeProofs Common Utils PostProcessor Decoder Normalizer PreTokenizer WordPiece Bpe AddedVocab Tokenizer Spec
  NormSpec NormProofs DecSpec PreSpec PreProofs AvSpec AvProofs ExtractProofs TzSpec TzProofs WpSpec WpProofs OffSpec OffProofs RefSpec RefProofs TextProofs BpeSpec BpeProofs BpeWord UnkSpec
  BpeRefSpec PropsBpe PropsUnknown PropsReference PropsBpeText Env CutSpec PropsCut DropSpec StripSpec PropsStrip AccentSpec PropsAccent BertSpec PropsBertOffsets PropsLlama PropsByteDec FormSpec PropsForm UncasedSpec PropsNorm PropsDeleted PropsUncased EraseSpec PropsErase WholeSpec.
From Coq Require Import ZifyBool ZifyNat ZifyN.
Import ListNotations.

Definition rb (a : nat) (z : list nat) : list (nat * nat) := rebase_ranges a (map (fun n => (0, n)) z).
Lemma rb_snd : forall z a, map snd (rb a z) = z.
Proof. induction z as [|n z IH]; intros a; [reflexivity|]. unfold rb. cbn [map rebase_ranges snd]. fold (rb (a + n) z). rewrite IH. reflexivity. Qed.
Lemma rebase_rb : forall l a, rebase_ranges a l = rb a (map snd l).
Proof. induction l as [|[x n] l IH]; intros a; [reflexivity|]. unfold rb. cbn [map rebase_ranges snd]. fold (rb (a + n) (map snd l)). rewrite IH. reflexivity. Qed.
Lemma skipn_nth {A} : forall (l : list A) a, nth_error l a = match skipn a l with [] => None | x :: _ => Some x end.
Proof. induction l as [|x l IH]; intros [|a]; [reflexivity..|]. exact (IH a). Qed.
Lemma pad_step ns pre a n rest : ns_ranges ns = pre ++ (a, n) :: rest ->
  transform ns (length pre) OpPad = match nth_error (ns_offsets ns) a with
    | None => Undef OobIndex
    | Some o => Ok (mkNs (ns_text ns) (pre ++ rb a (1 :: n :: 1 :: map snd rest)) (firstn a (ns_offsets ns) ++ [o; o] ++ skipn a (ns_offsets ns))) end.
Proof.
  intros HR. unfold transform. rewrite HR. unfold vat at 1. rewrite nth_error_app2, Nat.sub_diag by lia. cbn [nth_error bind]. unfold vat. destruct (nth_error (ns_offsets ns) a) as [o|] eqn:Eo; [|reflexivity]. cbn [bind].
  assert (Ha : a < length (ns_offsets ns)) by (apply nth_error_Some; congruence). unfold vinsert at 1. replace (a <=? length (ns_offsets ns)) with true by lia. cbn [bind].
  unfold verase. replace (length pre <=? length pre + 1) with true by lia. rewrite app_length. cbn [length]. replace (length pre + 1 <=? length pre + S (length rest)) with true by lia. cbn [andb bind].
  rewrite firstn_app, Nat.sub_diag, firstn_all. cbn [firstn]. rewrite app_nil_r. rewrite skipn_app. rewrite (skipn_all2 pre) by lia. replace (length pre + 1 - length pre) with 1 by lia. cbn [skipn app].
  unfold vinsert. rewrite app_length. replace (length pre <=? length pre + length rest) with true by lia. cbn [bind]. do 2 f_equal.
  rewrite firstn_app, Nat.sub_diag, firstn_all. cbn [firstn]. rewrite app_nil_r, skipn_app, skipn_all, Nat.sub_diag. cbn [skipn app].
  set (mid := [(a, 1); (a + 1, n); (a + n + 1, 1)]). unfold refresh_from. replace (length pre + 3) with (S (length pre + 2)) by lia. 
  assert (HN : nth (length pre + 2) (pre ++ mid ++ rest) (0, 0) = (a + n + 1, 1)) by (rewrite app_nth2 by lia; replace (length pre + 2 - length pre) with 2 by lia; reflexivity).
  change (pre ++ (a, 1) :: (a + 1, n) :: (a + n + 1, 1) :: rest) with (pre ++ mid ++ rest). rewrite HN. unfold pair_end. cbn [fst snd].
  assert (HL : length (pre ++ mid) = S (length pre + 2)) by (rewrite app_length; cbn; lia). rewrite app_assoc, <- HL, firstn_app, Nat.sub_diag, firstn_all, skipn_app, skipn_all, Nat.sub_diag. cbn [firstn skipn app]. rewrite app_nil_r, <- app_assoc. f_equal. rewrite rebase_rb.
  unfold rb. cbn [map rebase_ranges]. unfold mid. cbn [app]. fold (rb (a + 1 + n + 1) (map snd rest)). replace (a + 1 + n) with (a + n + 1) by lia. reflexivity.
Qed.
Lemma firstn_plus {A} (l : list A) a n : firstn (a + n) l = firstn a l ++ firstn n (skipn a l).
Proof. revert l. induction a as [|a IH]; intros [|x l]; cbn [Nat.add firstn skipn app]; [reflexivity | reflexivity | rewrite firstn_nil; reflexivity | rewrite IH; reflexivity]. Qed.
Lemma skipn_plus {A} (l : list A) a n : skipn (a + n) l = skipn n (skipn a l).
Proof. revert l. induction a as [|a IH]; intros [|x l]; cbn [Nat.add skipn]; [reflexivity | reflexivity | rewrite skipn_nil; reflexivity | apply IH]. Qed.
Lemma pads_walk : forall m ns pre a z i multi, ns_ranges ns = pre ++ rb a z -> length pre = i + multi -> length m <= length z ->
  match pad_walk is_chinese_char m z (skipn a (ns_offsets ns)) with
  | None => apply_pad ns (chinese_ids m i) multi = Undef OobIndex
  | Some (s, bs) => exists ns', apply_pad ns (chinese_ids m i) multi = Ok ns' /\ ns_text ns' = ns_text ns /\ ns_ranges ns' = pre ++ rb a s /\ ns_offsets ns' = firstn a (ns_offsets ns) ++ bs
  end.
Proof.
  induction m as [|c m IH]; intros ns pre a z i multi HR HL Hm.
  - cbn [pad_walk chinese_ids apply_pad]. exists ns. split; [reflexivity|]. split; [reflexivity|]. split; [exact HR|]. symmetry. apply firstn_skipn.
  - destruct z as [|n z]; [cbn in Hm; lia|]. cbn [length] in Hm. cbn [pad_walk chinese_ids]. assert (HR' : ns_ranges ns = pre ++ (a, n) :: rb (a + n) z) by exact HR. destruct (is_chinese_char c).
    + cbn [apply_pad]. rewrite <- HL, (pad_step _ _ _ _ _ HR'), skipn_nth. rewrite rb_snd. destruct (skipn a (ns_offsets ns)) as [|b bs0] eqn:Eb; [reflexivity|]. cbn [bind].
      set (ns1 := mkNs (ns_text ns) (pre ++ rb a (1 :: n :: 1 :: z)) (firstn a (ns_offsets ns) ++ [b; b] ++ b :: bs0)).
      assert (HR1 : ns_ranges ns1 = (pre ++ [(a, 1); (a + 1, n); (a + 1 + n, 1)]) ++ rb (a + n + 2) z) by (rewrite <- app_assoc; cbn [ns1 ns_ranges]; f_equal; unfold rb; cbn [map rebase_ranges app]; replace (a + n + 2) with (a + 1 + n + 1) by lia; reflexivity).
      assert (La : length (firstn a (ns_offsets ns)) = a). { rewrite firstn_length. assert (a < length (ns_offsets ns)); [|lia]. apply nth_error_Some. rewrite skipn_nth, Eb. discriminate. }
      assert (HS : skipn (a + n + 2) (ns_offsets ns1) = skipn n (b :: bs0)). { cbn [ns1 ns_offsets]. rewrite skipn_app, La. rewrite skipn_all2 by lia. replace (a + n + 2 - a) with (2 + n) by lia. reflexivity. }
      assert (HF : firstn (a + n + 2) (ns_offsets ns1) = firstn a (ns_offsets ns) ++ [b; b] ++ firstn n (b :: bs0)). { cbn [ns1 ns_offsets]. rewrite firstn_app, La. rewrite firstn_all2 by lia. replace (a + n + 2 - a) with (2 + n) by lia. reflexivity. }
      specialize (IH ns1 _ _ _ (S i) (multi + 2) HR1). rewrite HS in IH. specialize (IH ltac:(rewrite app_length; cbn [length]; lia) ltac:(lia)). destruct (pad_walk is_chinese_char m z (skipn n (b :: bs0))) as [[s bs]|]; [|exact IH].
      destruct IH as (ns' & A1 & A2 & A3 & A4). exists ns'. split; [exact A1|]. split; [exact A2|]. split.
      * rewrite A3, <- app_assoc. f_equal. unfold rb. cbn [map rebase_ranges app]. replace (a + 1 + n + 1) with (a + n + 2) by lia. reflexivity.
      * rewrite A4, HF, <- !app_assoc. reflexivity.
    + specialize (IH ns (pre ++ [(a, n)]) (a + n) z (S i) multi). rewrite skipn_plus, firstn_plus in IH. specialize (IH ltac:(rewrite <- app_assoc; exact HR') ltac:(rewrite app_length; cbn; lia) ltac:(lia)).
      destruct (pad_walk is_chinese_char m z (skipn n (skipn a (ns_offsets ns)))) as [[s bs]|]; [|exact IH]. destruct IH as (ns' & A1 & A2 & A3 & A4). exists ns'. split; [exact A1|]. split; [exact A2|]. split; [rewrite A3, <- app_assoc; reflexivity | rewrite A4, <- app_assoc; reflexivity].
Qed.
Lemma first_such_split f : forall m, match first_such f m with None => Forall (fun c => f c = false) m | Some i => i < length m /\ Forall (fun c => f c = false) (firstn i m) /\ (exists c r, skipn i m = c :: r /\ f c = true) end.
Proof.
  induction m as [|c m IH]; [constructor|]. cbn [first_such]. destruct (f c) eqn:Ec; [cbn; split; [lia|]; split; [constructor | eauto]|]. destruct (first_such f m) as [i|]; cbn [option_map]; [|constructor; assumption].
  destruct IH as (H1 & H2 & H3). cbn [length firstn skipn]. split; [lia|]. split; [constructor; assumption | exact H3].
Qed.
Lemma chinese_ids_app a b i : chinese_ids (a ++ b) i = chinese_ids a i ++ chinese_ids b (i + length a).
Proof. revert i. induction a as [|c a IH]; intros i; cbn [app chinese_ids length]; [rewrite Nat.add_0_r; reflexivity|]. rewrite IH. replace (S i + length a) with (i + S (length a)) by lia. destruct (is_chinese_char c); reflexivity. Qed.
Lemma chinese_ids_none a i : Forall (fun c => is_chinese_char c = false) a -> chinese_ids a i = [].
Proof. intros H. revert i. induction H as [|c a Hc _ IH]; intros i; [reflexivity|]. cbn [chinese_ids]. rewrite Hc. apply IH. Qed.
Lemma pad_table_ok m ns : length m <= length (ns_ranges ns) ->
  match pad_table is_chinese_char m (map fst (ns_ranges ns)) (map snd (ns_ranges ns)) (ns_offsets ns) with
  | None => apply_pad ns (chinese_ids m 0) 0 = Undef OobIndex
  | Some (s, bs) => exists ns', apply_pad ns (chinese_ids m 0) 0 = Ok ns' /\ ns_text ns' = ns_text ns /\ map snd (ns_ranges ns') = s /\ ns_offsets ns' = bs
  end.
Proof.
  intros Hm. unfold pad_table. pose proof (first_such_split is_chinese_char m) as HS. destruct (first_such is_chinese_char m) as [i|].
  - destruct HS as (Hi & Hf & c & r & Hs & Hc). assert (Hir : i < length (ns_ranges ns)) by lia. destruct (nth_error (ns_ranges ns) i) as [[a n]|] eqn:Ei; [|apply nth_error_None in Ei; lia].
    assert (Hsp : ns_ranges ns = firstn i (ns_ranges ns) ++ (a, n) :: skipn (S i) (ns_ranges ns)). { apply nth_error_split in Ei as (x & y & E0 & <-). rewrite E0 at 1. rewrite E0. rewrite firstn_app, Nat.sub_diag, firstn_all. cbn [firstn]. rewrite app_nil_r. f_equal. f_equal. change (S (length x)) with (1 + length x). rewrite Nat.add_comm, skipn_plus, skipn_app, skipn_all, Nat.sub_diag. reflexivity. }
    set (pre := firstn i (ns_ranges ns)) in *. set (rest := skipn (S i) (ns_ranges ns)) in *. assert (HL : length pre = i) by (unfold pre; rewrite firstn_length; lia).
    assert (Hst : nth i (map fst (ns_ranges ns)) 0 = a) by (rewrite Hsp, map_app, app_nth2, map_length, HL, Nat.sub_diag by (rewrite map_length; lia); reflexivity).
    assert (Hsk : skipn i (map snd (ns_ranges ns)) = n :: map snd rest) by (rewrite Hsp, map_app, skipn_app, map_length, HL, Nat.sub_diag, skipn_all2 by (rewrite map_length; lia); reflexivity).
    assert (Hfi : firstn i (map snd (ns_ranges ns)) = map snd pre) by (unfold pre; symmetry; apply firstn_map || (rewrite firstn_map; reflexivity)).
    rewrite Hst, Hsk, Hfi, Hs. set (ns1 := mkNs (ns_text ns) (pre ++ rb a (n :: map snd rest)) (ns_offsets ns)).
    assert (HA : apply_pad ns (chinese_ids m 0) 0 = apply_pad ns1 (chinese_ids (c :: r) i) 0).
    { rewrite <- (firstn_skipn i m), Hs, chinese_ids_app, (chinese_ids_none (firstn i m)) by exact Hf. rewrite firstn_length. replace (0 + Nat.min i (length m)) with i by lia. cbn [app chinese_ids]. rewrite Hc. cbn [apply_pad]. rewrite Nat.add_0_r.
      replace (transform ns i OpPad) with (transform ns1 i OpPad); [reflexivity|]. rewrite <- HL, (pad_step ns _ _ _ _ Hsp). unfold rb in ns1. rewrite (pad_step ns1 pre a n (rb (a + n) (map snd rest)) eq_refl). cbn [ns1 ns_text ns_offsets]. rewrite rb_snd. reflexivity. }
    rewrite HA. assert (Hl : length (c :: r) <= length (n :: map snd rest)). { rewrite <- Hs. cbn [length]. rewrite map_length. unfold rest. rewrite !skipn_length. lia. }
    pose proof (pads_walk (c :: r) ns1 pre a (n :: map snd rest) i 0 eq_refl ltac:(lia) Hl) as HW. cbn [ns1 ns_offsets] in HW. destruct (pad_walk is_chinese_char (c :: r) (n :: map snd rest) (skipn a (ns_offsets ns))) as [[s bs]|]; [|exact HW].
    destruct HW as (ns' & A1 & A2 & A3 & A4). exists ns'. split; [exact A1|]. split; [exact A2|]. split; [rewrite A3, map_app, rb_snd; reflexivity | exact A4].
  - exists ns. rewrite chinese_ids_none by exact HS. auto.
Qed.
(** ** Transport *)
Lemma pad_walk_ext {A} f g (H : forall c, f c = g c) : forall m z (l : list A), pad_walk f m z l = pad_walk g m z l.
Proof. induction m as [|c m IH]; intros [|n z] l; [reflexivity..|]. cbn [pad_walk]. rewrite H, IH. reflexivity. Qed.
Lemma pad_walk_map {A B} f (h : A -> B) : forall m z l, pad_walk f m z (map h l) = option_map (fun p => (fst p, map h (snd p))) (pad_walk f m z l).
Proof.
  induction m as [|c m IH]; intros [|n z] l; [reflexivity..|]. cbn [pad_walk]. rewrite skipn_map, IH, firstn_map. destruct (f c).
  - destruct l as [|b l]; [reflexivity|]. cbn [map]. destruct (pad_walk f m z (skipn n (b :: l))) as [[s bs]|]; [|reflexivity]. cbn [option_map fst snd map]. rewrite map_app. reflexivity.
  - destruct (pad_walk f m z (skipn n l)) as [[s bs]|]; [|reflexivity]. cbn [option_map fst snd]. rewrite map_app. reflexivity.
Qed.
Lemma first_such_ext f g (H : forall c, f c = g c) : forall m, first_such f m = first_such g m.
Proof. induction m as [|c m IH]; [reflexivity|]. cbn [first_such]. rewrite H, IH. reflexivity. Qed.
Lemma pad_table_ext {A} f g (H : forall c, f c = g c) m st z (l : list A) : pad_table f m st z l = pad_table g m st z l.
Proof. unfold pad_table. rewrite (first_such_ext f g H). destruct (first_such g m); [|reflexivity]. rewrite (pad_walk_ext f g H). reflexivity. Qed.
Lemma pad_table_map {A B} f (h : A -> B) m st z l : pad_table f m st z (map h l) = option_map (fun p => (fst p, map h (snd p))) (pad_table f m st z l).
Proof.
  unfold pad_table. destruct (first_such f m) as [i|]; [|reflexivity]. rewrite skipn_map, pad_walk_map, firstn_map. destruct (pad_walk f (skipn i m) (skipn i z) (skipn (nth i st 0) l)) as [[s bs]|]; [|reflexivity]. cbn [option_map fst snd]. rewrite map_app. reflexivity.
Qed.
Lemma pad_walk_length {A} f : forall m z (l : list A) s bs, length m <= length z -> pad_walk f m z l = Some (s, bs) -> length s + length m = length z + length (spaced f m).
Proof.
  induction m as [|c m IH]; intros z l s bs Hm H; [cbn in H; injection H as <- <-; cbn; lia|]. destruct z as [|n z]; [cbn in Hm; lia|]. cbn [length] in Hm. cbn [pad_walk spaced] in *. destruct (f c).
  - destruct l as [|b l]; [discriminate|]. destruct (pad_walk f m z (skipn n (b :: l))) as [[s0 bs0]|] eqn:E0; [|discriminate]. injection H as <- <-. apply IH in E0; [|lia]. cbn [app length] in *. lia.
  - destruct (pad_walk f m z (skipn n l)) as [[s0 bs0]|] eqn:E0; [|discriminate]. injection H as <- <-. apply IH in E0; [|lia]. cbn [app length] in *. lia.
Qed.
Lemma pad_table_length {A} f m st z (l : list A) s bs : length m <= length z -> pad_table f m st z l = Some (s, bs) -> length (spaced f m) <= length s.
Proof.
  intros Hm H. unfold pad_table in H. pose proof (first_such_split f m) as HS. destruct (first_such f m) as [i|].
  - destruct HS as (Hi & Hf & _). destruct (pad_walk f (skipn i m) (skipn i z) (skipn (nth i st 0) l)) as [[s0 bs0]|] eqn:E0; [|discriminate]. injection H as <- <-. apply pad_walk_length in E0; [|rewrite !skipn_length; lia].
    rewrite <- (firstn_skipn i m). assert (Ha : forall a b, Forall (fun c => f c = false) a -> length (spaced f (a ++ b)) = length a + length (spaced f b)). { clear. induction 1 as [|c a Hc _ IH]; [reflexivity|]. cbn [app spaced]. rewrite Hc. cbn [app length]. rewrite IH. reflexivity. }
    rewrite Ha by exact Hf. rewrite app_length, !firstn_length. rewrite !skipn_length in E0. lia.
  - injection H as <- <-. rewrite spaced_none; [exact Hm|]. intros c Hc. exact (proj1 (Forall_forall _ _) HS c Hc).
Qed.
Lemma left_of_map {A B} (f : A -> B) ps : forall l, map f (left_of l ps) = left_of (map f l) ps.
Proof. induction ps as [|p ps IH]; intros l; [reflexivity|]. unfold left_of in *. cbn [fold_left]. rewrite IH, map_app, firstn_map, skipn_map. reflexivity. Qed.
Lemma erase_pairs l : forall ns ns', apply_erase ns l = Ok ns' -> ns_ranges ns' = left_of (ns_ranges ns) l.
Proof.
  induction l as [|i l IH]; intros ns ns' H; [cbn in H; injection H as <-; reflexivity|]. cbn [apply_erase] in H. apply bind_ok in H as (n1 & H1 & H2). rewrite (IH _ _ H2). unfold left_of. cbn [fold_left]. f_equal.
  unfold transform in H1. apply bind_ok in H1 as ([st li] & E1 & H1). apply bind_ok in H1 as (o & E2 & H1). apply bind_ok in H1 as (r & E3 & H1). injection H1 as <-. cbn [ns_ranges]. unfold verase in E3. destruct ((i <=? i + 1) && (i + 1 <=? length (ns_ranges ns))); [|discriminate]. injection E3 as <-. rewrite Nat.add_1_r. reflexivity.
Qed.
Lemma starts_ok : forall z a k, map fst (tab_ranges a (numbered k z)) = map (fun j => a + list_sum (firstn j z)) (seq 0 (length z)).
Proof.
  induction z as [|n z IH]; intros a k; [reflexivity|]. cbn [numbered tab_ranges map fst length seq]. f_equal; [cbn; lia|]. rewrite IH, <- seq_shift, map_map. apply map_ext. intros j. cbn [firstn]. change (list_sum (n :: firstn j z)) with (n + list_sum (firstn j z)). cbn [snd]. lia.
Qed.
(** ** Clean-up and padding *)
Lemma clean_pairs E (cl : bool) s : s <> [] -> forallb valid_cp s = true -> let u := unit_bytes s in let ps := numbers_gone E cl s in
  (deletions_fit u 0 0 ps -> exists n1, (if cl then do_clean_text E (new_nstring s) else Ok (new_nstring s)) = Ok n1 /\ ns_text n1 = text_left E cl s /\ map fst (ns_ranges n1) = left_of (starts u) ps /\ map snd (ns_ranges n1) = left_of u ps /\
     ns_offsets n1 = spanned (bytes_left u 0 ps (units_of_bytes u 0)) /\ length (text_left E cl s) <= length (ns_ranges n1)) /\
  (~ deletions_fit u 0 0 ps -> (if cl then do_clean_text E (new_nstring s) else Ok (new_nstring s)) = Undef OobIndex).
Proof.
  intros Hne Hv u ps. assert (Ht : ns_text (new_nstring s) = s) by (apply (fresh_packed s)). assert (HN : new_nstring s = numbered_ns u [] s) by (rewrite fresh_numbered, unit_sizes_bytes by exact Hv; reflexivity).
  assert (HF : map fst (ns_ranges (new_nstring s)) = starts u) by (rewrite HN; cbn [numbered_ns ns_ranges]; rewrite starts_ok; reflexivity).
  assert (HS : map snd (ns_ranges (new_nstring s)) = u) by (rewrite HN; cbn [numbered_ns ns_ranges]; rewrite map_snd_ranges, numbered_snd; reflexivity).
  split; intros HD.
  - unfold numbers_gone, text_left in *. destruct cl; cbn [numbers_gone] in *.
    + destruct (clean_exact E s Hne Hv HD) as (n1 & A1 & A2 & A3 & A4 & A5 & _). exists n1. split; [exact A1|]. split; [exact A2|].
      assert (HE : ns_ranges n1 = left_of (ns_ranges (new_nstring s)) ps).
      { unfold do_clean_text in A1. rewrite Ht, clean_erase in A1. replace (positions (removed_by_clean E) s 0) with (doomed E s) in A1 by (apply positions_ext; intros; symmetry; apply unwanted_ok).
        destruct (apply_erase (new_nstring s) (doomed E s)) as [n0| | |] eqn:E0; cbn [bind] in A1; try discriminate. injection A1 as <-. exact (erase_pairs _ _ _ E0). }
      split; [rewrite HE, left_of_map, HF; reflexivity|]. split; [rewrite HE, left_of_map, HS; reflexivity|]. split; [exact A4 | exact A5].
    + exists (new_nstring s). split; [reflexivity|]. split; [exact Ht|]. split; [exact HF|]. split; [exact HS|]. split; [rewrite HN; cbn [numbered_ns ns_offsets]; rewrite app_nil_r; apply units_of_blocks|].
      rewrite <- (map_length snd), HS. unfold u, unit_bytes. clear. induction s as [|c s IH]; cbn [flat_map length]; [lia|]. rewrite app_length. destruct (c <? 0x10000)%N; cbn [length]; lia.
  - unfold ps, numbers_gone in HD. destruct cl; [|exfalso; apply HD; exact I]. apply (proj2 (C49_defined_iff E s)). rewrite widths_bytes by exact Hv. exact HD.
Qed.
Lemma spaced_pad (ch : bool) m : spaced (is_padded ch) m = if ch then spaced is_chinese_char m else m.
Proof. apply (spaced_flag ch m). Qed.
Lemma table_made E (cl ch : bool) s : s <> [] -> forallb valid_cp s = true ->
  let run := (n1 <- (if cl then do_clean_text E (new_nstring s) else Ok (new_nstring s)) ;; if ch then do_handle_chinese_chars n1 else Ok n1) in
  (forall z b, table_padded E cl ch s z b -> exists n2, run = Ok n2 /\ ns_text n2 = text_padded E cl ch s /\ map snd (ns_ranges n2) = z /\ ns_offsets n2 = spanned b /\ length (text_padded E cl ch s) <= length (ns_ranges n2)) /\
  ((forall z b, ~ table_padded E cl ch s z b) -> run = Undef OobIndex).
Proof.
  intros Hne Hv run. destruct (clean_pairs E cl s Hne Hv) as [HC HU]. cbn zeta in HC, HU. set (u := unit_bytes s) in *. set (ps := numbers_gone E cl s) in *.
  assert (HX : deletions_fit u 0 0 ps -> match pad_table (is_padded ch) (text_left E cl s) (left_of (starts u) ps) (left_of u ps) (bytes_left u 0 ps (units_of_bytes u 0)) with
    | None => run = Undef OobIndex
    | Some (z, b) => exists n2, run = Ok n2 /\ ns_text n2 = text_padded E cl ch s /\ map snd (ns_ranges n2) = z /\ ns_offsets n2 = spanned b /\ length (text_padded E cl ch s) <= length (ns_ranges n2) end).
  { intros HD. destruct (HC HD) as (n1 & A1 & A2 & A3 & A4 & A5 & A6). unfold run. rewrite A1. cbn [bind]. unfold text_padded. destruct ch.
    - rewrite (pad_table_ext (is_padded true) is_chinese_char) by (intros c; symmetry; apply chinese_cjk). pose proof (pad_table_ok (text_left E cl s) n1 A6) as HP. rewrite A3, A4, A5 in HP. unfold spanned at 1 in HP. rewrite pad_table_map in HP.
      rewrite spaced_pad. unfold do_handle_chinese_chars. rewrite A2. pose proof (fun z b => @pad_table_length nat is_chinese_char (text_left E cl s) (left_of (starts u) ps) (left_of u ps) (bytes_left u 0 ps (units_of_bytes u 0)) z b) as HLn.
      destruct (pad_table is_chinese_char (text_left E cl s) (left_of (starts u) ps) (left_of u ps) (bytes_left u 0 ps (units_of_bytes u 0))) as [[z b]|]; cbn [option_map fst snd] in HP; [|rewrite HP; reflexivity].
      destruct HP as (n2 & B1 & B2 & B3 & B4). rewrite B1. cbn [bind]. rewrite B2, A2. pose proof (apply_changes_spec (text_left E cl s) []) as Ha. cbn [app length] in Ha. rewrite Ha. cbn [bind]. eexists. split; [reflexivity|]. cbn [set_text ns_text ns_ranges ns_offsets]. split; [reflexivity|]. split; [exact B3|]. split; [exact B4|].
      rewrite <- (map_length snd (ns_ranges n2)), B3. apply (HLn z b); [|reflexivity]. rewrite <- A4, map_length. exact A6.
    - unfold pad_table. assert (HF : first_such (is_padded false) (text_left E cl s) = None). { clear. induction (text_left E cl s) as [|c m IH]; [reflexivity|]. cbn [first_such]. change (is_padded false c) with false. cbn iota. rewrite IH. reflexivity. }
      rewrite HF, spaced_pad. exists n1. auto. }
  split.
  - intros z b [HD HT]. specialize (HX HD). fold u ps in HT. rewrite HT in HX. exact HX.
  - intros HN. destruct (deletions_fit_dec u ps 0 0) as [HD|HD]; [|unfold run; rewrite (HU HD); reflexivity]. specialize (HX HD).
    destruct (pad_table (is_padded ch) (text_left E cl s) (left_of (starts u) ps) (left_of u ps) (bytes_left u 0 ps (units_of_bytes u 0))) as [[z b]|] eqn:ET; [|exact HX]. exfalso. exact (HN z b (conj HD ET)).
Qed.
(** ** The rest of the normalizer *)
Lemma finish_ok E (st lo : bool) n2 p z n e : ns_text n2 = p -> forallb valid_cp p = true -> map snd (ns_ranges n2) = z -> length p <= length (ns_ranges n2) ->
  (if st || lo then exists r, e_norm E NFD p = Some r /\ marks_fit (e_is_mn E) r (entry_sizes z (changed p r)) /\
    n = (let kept := filter (fun c => negb (e_is_mn E c)) r in if lo then map (e_towlower E) kept else kept) /\ e = kept_entries (e_is_mn E) r (entry_sizes z (changed p r)) else n = p /\ e = z) ->
  exists R, (n3 <- (if st || lo then do_strip_accents E n2 else Ok n2) ;; (if lo then do_lowercase E n3 else Ok n3)) = Ok (mkNs n R (ns_offsets n2)) /\ map snd R = e.
Proof.
  intros A2 A6 A3 A7 HR. destruct (st || lo) eqn:Esl.
  - destruct HR as (r & HN & Hf & -> & ->). unfold do_strip_accents, normalize_nf. rewrite A2, (fixed _ A6), HN, grow_changed by lia. cbn [skipn].
    destruct (apply_grow_flags (changed p r) n2 [] (ns_ranges n2) 0 0) as (ns' & B & H1 & H2 & H3 & H4 & H5); [reflexivity | pose proof (changed_length p r); lia | reflexivity|]. rewrite H1. cbn [bind]. cbn [app] in H4. rewrite A3 in H5. cbn [set_text ns_text].
    destruct (apply_shrink_fit E r (set_text ns' r) [] B 0 0) as (n3 & C & G1 & G2 & G3 & G4 & G5); [exact H4 | rewrite H5; exact Hf | reflexivity|]. rewrite G1. cbn [bind app] in *. exists C. split; [|rewrite G5, H5; reflexivity].
    cbn [set_text ns_offsets] in G3. rewrite H3 in G3. destruct lo; cbn [do_lowercase]; unfold do_lowercase; cbn [set_text ns_text ns_ranges ns_offsets]; unfold set_text; rewrite G3, G4; reflexivity.
  - destruct HR as [-> ->]. apply orb_false_elim in Esl as [-> ->]. cbn [bind]. exists (ns_ranges n2). split; [rewrite <- A2; destruct n2; reflexivity | exact A3].
Qed.
Lemma finish_fails E (st lo : bool) n2 p z : ns_text n2 = p -> forallb valid_cp p = true -> map snd (ns_ranges n2) = z -> length p <= length (ns_ranges n2) -> st || lo = true ->
  let rest := (n3 <- (if st || lo then do_strip_accents E n2 else Ok n2) ;; (if lo then do_lowercase E n3 else Ok n3)) in
  match e_norm E NFD p with None => rest = Throw RuntimeError | Some r => ~ marks_fit (e_is_mn E) r (entry_sizes z (changed p r)) -> rest = Undef OobIndex end.
Proof.
  intros A2 A6 A3 A7 Hsl rest. unfold rest. rewrite Hsl. destruct (e_norm E NFD p) as [r|] eqn:HN.
  - intros Hf. pose proof (strip_accents_exact E n2 r) as HS. cbn zeta in HS. rewrite A2, (fixed _ A6) in HS. specialize (HS A7 HN). destruct HS as [_ HS]. rewrite HS; [reflexivity|]. rewrite grow_changed by lia. cbn [skipn].
    assert (HL : length (entry_sizes z (changed p r)) = length (ns_ranges n2) + length (trues (changed p r) 0)). { rewrite <- A3, (entries_count _ _ 0), map_length; [reflexivity|]. rewrite map_length. pose proof (changed_length p r). lia. }
    unfold marks_fit in Hf. rewrite HL in Hf. set (room := length (ns_ranges n2) + length (trues (changed p r) 0)) in *. clearbody room. clear - Hf.
    assert (D : forall l, (forall i c, nth_error l i = Some c -> e_is_mn E c = true -> i < room) \/ exists i c, nth_error l i = Some c /\ e_is_mn E c = true /\ room <= i).
    { intros l. induction l as [|c l IH] using rev_ind; [left; intros [|i] c H; discriminate|]. destruct IH as [IH|(i & x & H1 & H2 & H3)].
      - destruct (e_is_mn E c && (room <=? length l)) eqn:Ec.
        + right. exists (length l), c. rewrite nth_error_app2, Nat.sub_diag by lia. split; [reflexivity | lia].
        + left. intros i x Hi Hx. destruct (Nat.lt_ge_cases i (length l)); [rewrite nth_error_app1 in Hi by lia; eauto|]. rewrite nth_error_app2 in Hi by lia. destruct (i - length l) eqn:Ei; [|destruct n; discriminate]. cbn in Hi. injection Hi as <-. rewrite Hx in Ec. lia.
      - right. exists i, x. rewrite nth_error_app1 by (apply nth_error_Some; congruence). auto. }
    destruct (D r) as [H|H]; [contradiction | exact H].
  - unfold do_strip_accents, normalize_nf. rewrite A2, (fixed _ A6), HN. reflexivity.
Qed.
Lemma text_left_valid E cl s : forallb valid_cp s = true -> forallb valid_cp (text_left E cl s) = true.
Proof. intros Hv. unfold text_left. destruct cl; [apply cleaned_valid; exact Hv | exact Hv]. Qed.
Lemma text_padded_valid E cl ch s : forallb valid_cp s = true -> forallb valid_cp (text_padded E cl ch s) = true.
Proof. intros Hv. unfold text_padded. apply spaced_valid, text_left_valid. exact Hv. Qed.
Lemma bert_split E (cl ch st lo : bool) ns : bert_normalize E cl ch st lo ns =
  (n2 <- (n1 <- (if cl then do_clean_text E ns else Ok ns) ;; if ch then do_handle_chinese_chars n1 else Ok n1) ;; n3 <- (if st || lo then do_strip_accents E n2 else Ok n2) ;; (if lo then do_lowercase E n3 else Ok n3)).
Proof. unfold bert_normalize. destruct (if cl then do_clean_text E ns else Ok ns) as [n1| | |]; cbn [bind]; reflexivity. Qed.
Lemma whole_run E cl ch st lo s n e bytes : s <> [] -> forallb valid_cp s = true -> bert_made E cl ch st lo s n e bytes ->
  exists R O0 O, normalize E (NBert cl ch st lo) (new_nstring s) = Ok (mkNs n R O0) /\ map snd R = e /\ renumbered O0 O /\ map fst (O ++ again s) = bytes.
Proof.
  intros Hne Hv (z & b & HT & -> & HR). destruct (table_made E cl ch s Hne Hv) as [HM _]. cbn zeta in HM. destruct (HM z b HT) as (n2 & A1 & A2 & A3 & A4 & A5). cbn [normalize]. rewrite bert_split, A1. cbn [bind].
  destruct (finish_ok E st lo n2 (text_padded E cl ch s) z n e A2 (text_padded_valid E cl ch s Hv) A3 A5 HR) as (R & H1 & H2). exists R, (ns_offsets n2), (spanned (ranked b)). split; [exact H1|]. split; [exact H2|]. split; [rewrite A4; apply renumbered_ranked|].
  rewrite map_app, spanned_fst, again_fst. reflexivity.
Qed.
Lemma whole_breaks E cl ch st lo s : s <> [] -> forallb valid_cp s = true -> bert_breaks E cl ch st lo s -> normalize E (NBert cl ch st lo) (new_nstring s) = Undef OobIndex.
Proof.
  intros Hne Hv HB. destruct (table_made E cl ch s Hne Hv) as [HM HU]. cbn zeta in HM, HU. cbn [normalize]. rewrite bert_split. destruct HB as [HB | (z & b & r & HT & Hsl & HN & Hf)]; [rewrite (HU HB); reflexivity|].
  destruct (HM z b HT) as (n2 & A1 & A2 & A3 & A4 & A5). rewrite A1. cbn [bind]. pose proof (finish_fails E st lo n2 (text_padded E cl ch s) z A2 (text_padded_valid E cl ch s Hv) A3 A5 Hsl) as HF. cbn zeta in HF. rewrite HN in HF. exact (HF Hf).
Qed.
Lemma whole_throws E cl ch st lo s z b : s <> [] -> forallb valid_cp s = true -> table_padded E cl ch s z b -> st || lo = true -> e_norm E NFD (text_padded E cl ch s) = None -> normalize E (NBert cl ch st lo) (new_nstring s) = Throw RuntimeError.
Proof.
  intros Hne Hv HT Hsl HN. destruct (table_made E cl ch s Hne Hv) as [HM _]. cbn zeta in HM. cbn [normalize]. rewrite bert_split. destruct (HM z b HT) as (n2 & A1 & A2 & A3 & A4 & A5). rewrite A1. cbn [bind].
  pose proof (finish_fails E st lo n2 (text_padded E cl ch s) z A2 (text_padded_valid E cl ch s Hv) A3 A5 Hsl) as HF. cbn zeta in HF. rewrite HN in HF. exact HF.
Qed.

(** ** C135 *)
Theorem C135_wordpiece : forall E fuel t w cl ch st lo s n e bytes l add, tz_model t = Some (MWordPiece w) -> tz_norm t = Some (NBert cl ch st lo) -> s <> [] -> forallb valid_cp s = true ->
  bert_made E cl ch st lo s n e bytes -> n <> [] -> forallb valid_cp n = true -> nothing_added t s n -> words_of E (tz_pre t) n l ->
  (forall ks, Forall2 (fun p k => place e bytes (fst p) = Some k) l ks ->
     exists r, snd (encode E fuel (bare t) s add) = Ok r /\ en_overflowing r = [] /\ flat_parallel r /\ rows_of_words (word_tokens w) 0 (combine ks (map snd l)) (rows r)) /\
  (Exists (fun p => place e bytes (fst p) = None) l -> snd (encode E fuel t s add) = Undef OobIndex).
Proof.
  intros E fuel t w cl ch st lo s n e bytes l add Hm Hno Hne Hv HB Hnn Hvn Ha HW. destruct (whole_run E cl ch st lo s n e bytes Hne Hv HB) as (R & O0 & O & H1 & <- & H3 & <-).
  apply (wp_placed E s n R O0 O Hne Hv H3 Hnn Hvn fuel t w l add Hm Ha); [rewrite Hno; exact H1 | exact HW].
Qed.
Print Assumptions C135_wordpiece.
Theorem C135_bpe : forall E fuel t vocab merges d unk pre suf fu bf ig b c cl ch st lo s n e bytes l add, pq_ok E -> new_bpe vocab merges d unk pre suf fu bf ig = Ok b ->
  tz_model t = Some (MBpe b c) -> reach_cache E b c -> tz_norm t = Some (NBert cl ch st lo) -> s <> [] -> forallb valid_cp s = true ->
  bert_made E cl ch st lo s n e bytes -> n <> [] -> forallb valid_cp n = true -> nothing_added t s n -> words_of E (tz_pre t) n l ->
  (forall ks, Forall2 (fun p k => place e bytes (fst p) = Some k) l ks -> Forall (fun p => encodable b (snd p)) l ->
     exists r, snd (encode E fuel (bare t) s add) = Ok r /\ en_overflowing r = [] /\ flat_parallel r /\ rows_of_words (bpe_tokens b) 0 (combine ks (map snd l)) (rows r)) /\
  (Exists (fun p => place e bytes (fst p) = None \/ ~ encodable b (snd p)) l -> snd (encode E fuel t s add) = Undef OobIndex).
Proof.
  intros E fuel t vocab merges d unk pre suf fu bf ig b c cl ch st lo s n e bytes l add Hq Hb Hm Hr Hno Hne Hv HB Hnn Hvn Ha HW. destruct (whole_run E cl ch st lo s n e bytes Hne Hv HB) as (R & O0 & O & H1 & <- & H3 & <-).
  apply (bpe_placed E s n R O0 O Hne Hv H3 Hnn Hvn fuel t vocab merges d unk pre suf fu bf ig b c l add Hq Hb Hm Hr Ha); [rewrite Hno; exact H1 | exact HW].
Qed.
Print Assumptions C135_bpe.
(** Nothing to work on: out of bounds. *)
Theorem C135_breaks : forall E fuel t av cl ch st lo s add, tz_norm t = Some (NBert cl ch st lo) -> tz_av t = Some av -> s <> [] -> forallb valid_cp s = true ->
  no_added_token (av_trie_raw av) (flat_map utf16_enc s) -> bert_breaks E cl ch st lo s -> snd (encode E fuel t s add) = Undef OobIndex.
Proof.
  intros E fuel t av cl ch st lo s add Hno Hav Hne Hv Hr HB.
  assert (HX : extract_and_normalize E av (tz_norm t) s = Undef OobIndex) by (apply extract_fails; [exact Hne | exact Hv | exact Hr | rewrite Hno; apply whole_breaks; assumption]).
  rewrite encode_stages, encode_bare. unfold text_encoding, prepare. unfold new_pretok at 1. assert (Ht : ns_text (new_nstring s) = s) by (apply (fresh_packed s)). rewrite Ht. unfold convert_to_string. rewrite Hv. cbn [bind]. rewrite Hav, HX. reflexivity.
Qed.
Print Assumptions C135_breaks.
Lemma extract_throws E av norm s x : s <> [] -> forallb valid_cp s = true -> no_added_token (av_trie_raw av) (flat_map utf16_enc s) -> run_norm E norm s = Throw x -> extract_and_normalize E av norm s = Throw x.
Proof.
  intros Hne Hv Hr HF. unfold extract_and_normalize. assert (Ht : ns_text (new_nstring s) = s) by (apply (fresh_packed s)). unfold new_pretok. rewrite Ht. unfold convert_to_string at 1. rewrite Hv. cbn [bind pt_norm pt_splits]. rewrite Ht. unfold convert_to_string at 1. rewrite Hv. cbn [bind].
  rewrite find_none by (rewrite from_utf8_encs by exact Hv; exact Hr). rewrite from_utf8_encs by exact Hv. fold (units s).
  assert (Hu : 0 < units s) by (pose proof (proj1 (units_0 s)); destruct (units s); [exfalso; auto | lia]).
  replace (0 =? units s) with false by lia. cbn [bind raw_splits]. rewrite substr_all by apply length_units. cbn [bind]. unfold convert_to_string at 1. rewrite Hv. cbn [bind normalize_splits sp_tokens sp_text sp_off fst snd].
  rewrite (proj2 (convert_from_string_iff _ s)) by (split; [reflexivity | exact Hv]). cbn [bind]. unfold run_norm in HF. rewrite HF. reflexivity.
Qed.
Theorem C135_unavailable : forall E fuel t av cl ch st lo s z b add, tz_norm t = Some (NBert cl ch st lo) -> tz_av t = Some av -> s <> [] -> forallb valid_cp s = true ->
  no_added_token (av_trie_raw av) (flat_map utf16_enc s) -> table_padded E cl ch s z b -> st || lo = true -> e_norm E NFD (text_padded E cl ch s) = None -> snd (encode E fuel t s add) = Throw RuntimeError.
Proof.
  intros E fuel t av cl ch st lo s z b add Hno Hav Hne Hv Hr HT Hsl HN.
  assert (HX : extract_and_normalize E av (tz_norm t) s = Throw RuntimeError) by (apply extract_throws; [exact Hne | exact Hv | exact Hr | rewrite Hno; apply (whole_throws E cl ch st lo s z b); assumption]).
  rewrite encode_stages, encode_bare. unfold text_encoding, prepare. unfold new_pretok at 1. assert (Ht : ns_text (new_nstring s) = s) by (apply (fresh_packed s)). rewrite Ht. unfold convert_to_string. rewrite Hv. cbn [bind]. rewrite Hav, HX. reflexivity.
Qed.
Print Assumptions C135_unavailable.
(** There is no other case. *)
Theorem C135_all_cases : forall E cl ch st lo s,
  (exists n e bytes, bert_made E cl ch st lo s n e bytes) \/ bert_breaks E cl ch st lo s \/ (exists z b, table_padded E cl ch s z b /\ st || lo = true /\ e_norm E NFD (text_padded E cl ch s) = None).
Proof.
  intros E cl ch st lo s. unfold bert_made, bert_breaks. assert (HT : (exists z b, table_padded E cl ch s z b) \/ (forall z b, ~ table_padded E cl ch s z b)).
  { unfold table_padded. cbn zeta. destruct (deletions_fit_dec (unit_bytes s) (numbers_gone E cl s) 0 0) as [HD|HD]; [|right; intros z b [H _]; contradiction].
    destruct (pad_table (is_padded ch) (text_left E cl s) (left_of (starts (unit_bytes s)) (numbers_gone E cl s)) (left_of (unit_bytes s) (numbers_gone E cl s)) (bytes_left (unit_bytes s) 0 (numbers_gone E cl s) (units_of_bytes (unit_bytes s) 0))) as [[z b]|]; [left; eauto | right; intros z b [_ H]; discriminate]. }
  destruct HT as [(z & b & HT)|HT]; [|right; left; left; exact HT]. destruct (st || lo) eqn:Esl; [|left; do 3 eexists; exists z, b; split; [exact HT|]; split; [reflexivity|]; split; reflexivity].
  destruct (e_norm E NFD (text_padded E cl ch s)) as [r|] eqn:HN; [|right; right; exists z, b; auto].
  assert (HM : marks_fit (e_is_mn E) r (entry_sizes z (changed (text_padded E cl ch s) r)) \/ ~ marks_fit (e_is_mn E) r (entry_sizes z (changed (text_padded E cl ch s) r))).
  { unfold marks_fit. generalize (length (entry_sizes z (changed (text_padded E cl ch s) r))). clear. intros room. induction r as [|c r IH] using rev_ind; [left; intros [|i] c H; discriminate|]. destruct IH as [IH|IH].
    - destruct (e_is_mn E c && (room <=? length r)) eqn:Ec.
      + right. intros H. specialize (H (length r) c). rewrite nth_error_app2, Nat.sub_diag in H by lia. specialize (H eq_refl ltac:(lia)). lia.
      + left. intros i x Hi Hx. destruct (Nat.lt_ge_cases i (length r)); [rewrite nth_error_app1 in Hi by lia; eauto|]. rewrite nth_error_app2 in Hi by lia. destruct (i - length r) eqn:Ei; [|destruct n; discriminate]. cbn in Hi. injection Hi as <-. rewrite Hx in Ec. lia.
    - right. intros H. apply IH. intros i x Hi Hx. apply (H i x); [rewrite nth_error_app1 by (apply nth_error_Some; congruence); exact Hi | exact Hx]. }
  destruct HM as [HM|HM]; [left; do 3 eexists; exists z, b; split; [exact HT|]; split; [reflexivity|]; exists r; split; [reflexivity|]; split; [exact HM|]; split; reflexivity|].
  right; left; right. exists z, b, r. auto.
Qed.
Print Assumptions C135_all_cases.

(** *** Cases *)
(** NUL, e-acute, a Chinese character, " play", uncased: a deletion, a padding and a decomposition. "play" starts at unit 4 of the given text and is reported at 2; the Chinese character at 1 (it is unit 2). *)
Example C135_case : let s := ([0; 233; 0x4E2D; 32]%N ++ str "play") in let n := ([101; 32; 0x4E2D; 32; 32]%N ++ str "play") in let t := strip_tz (NBert true true true true) in
  let e := [1; 1; 3; 1; 1; 1; 1; 1; 1] in let bytes := [0; 0; 1; 1; 1; 1; 1; 2; 3; 4; 5; 6; 7] in
  forallb valid_cp s = true /\ table_padded test_env true true s [2; 1; 3; 1; 1; 1; 1; 1; 1] [1; 1; 2; 2; 2; 2; 2; 3; 4; 5; 6; 7] /\ bert_made test_env true true true true s n e bytes /\ nothing_added t s n /\ words_of test_env (Some TBert) n [(0, str "e"); (2, [0x4E2D]%N); (5, str "play")] /\
  Forall2 (fun p k => place e bytes (fst p) = Some k) [(0, str "e"); (2, [0x4E2D]%N); (5, str "play")] [0; 1; 2] /\
  exists r, snd (encode test_env 10 t s false) = Ok r /\ en_tokens r = [str "[UNK]"; str "[UNK]"; str "play"] /\ en_offsets r = [(0, 1); (1, 2); (2, 6)].
Proof.
  cbn zeta. split; [reflexivity|]. assert (HT : table_padded test_env true true ([0; 233; 0x4E2D; 32]%N ++ str "play") [2; 1; 3; 1; 1; 1; 1; 1; 1] [1; 1; 2; 2; 2; 2; 2; 3; 4; 5; 6; 7]) by (split; [vm_compute; lia | reflexivity]). split; [exact HT|].
  split; [eexists _, _; split; [exact HT|]; split; [reflexivity|]; exists ([101; 0x301; 32; 0x4E2D; 32; 32]%N ++ str "play"); split; [reflexivity|]; split; [|split; reflexivity]|].
  { intros i c Hi Hc. vm_compute. do 10 (destruct i as [|i]; [lia|]). destruct i; discriminate. }
  split; [apply strip_tz_plain|]. split.
  { exists [[(0, str "e"); (2, [0x4E2D]%N); (5, str "play")]]. split; [|reflexivity]. constructor; [|constructor].
    apply (bs_word _ _ 0 (str "e") ([32; 0x4E2D; 32; 32]%N ++ str "play") [(2, [0x4E2D]%N); (5, str "play")]); [discriminate | repeat (constructor; [split; reflexivity|]); constructor | left; reflexivity|]. apply bs_space; [reflexivity|].
    apply (bs_word _ _ 2 [0x4E2D]%N (str "  play") [(5, str "play")]); [discriminate | repeat (constructor; [split; reflexivity|]); constructor | left; reflexivity|]. apply bs_space; [reflexivity|]. apply bs_space; [reflexivity|].
    apply (bs_word _ _ 5 (str "play") [] []); [discriminate | repeat (constructor; [split; reflexivity|]); constructor | exact I | constructor]. }
  split; [repeat (constructor; [reflexivity|]); constructor|]. eexists. split; [vm_compute; reflexivity | split; reflexivity].
Qed.
(** Two NULs, a dash of three bytes, a Chinese character: the deletions fit, but take the bytes of the NUL and of the dash; the entry of the Chinese character then starts beyond the bytes left. *)
Example C135_breaks_case : let s := [0; 0; 0x2014; 0x4E2D]%N in deletions_fit (unit_bytes s) 0 0 (doomed test_env s) /\ bert_breaks test_env true true false false s /\
  snd (encode test_env 10 (strip_tz (NBert true true false false)) s false) = Undef OobIndex /\ exists r, snd (encode test_env 10 (strip_tz (NBert true false false false)) s false) = Ok r.
Proof. cbn zeta. split; [vm_compute; lia|]. split; [left; intros z b [_ H]; discriminate|]. split; [vm_compute; reflexivity|]. eexists. vm_compute. reflexivity. Qed.
(** BPE: NUL, "a", a Chinese character, " a". *)
Example C135_bpe_case : let s := [0; 97; 0x4E2D; 32; 97]%N in let n := [97; 32; 0x4E2D; 32; 32; 97]%N in
  exists e bytes, bert_made test_env true true true true s n e bytes /\ place e bytes 0 = Some 0 /\ place e bytes 2 = Some 1 /\ place e bytes 5 = Some 3 /\
  exists r, snd (encode test_env 10 (zh_bpe_tz true) s false) = Ok r /\ en_offsets r = [(0, 1); (1, 4); (3, 4)].
Proof.
  cbn zeta. exists [1; 1; 3; 1; 1; 1], [0; 1; 1; 1; 1; 1; 2; 3; 4]. split.
  { exists [1; 1; 3; 1; 1; 1], [1; 2; 2; 2; 2; 2; 3; 4]. split; [split; [vm_compute; lia | reflexivity]|]. split; [reflexivity|]. exists [97; 32; 0x4E2D; 32; 32; 97]%N. split; [reflexivity|]. split; [|split; reflexivity].
    intros i c Hi Hc. vm_compute. do 6 (destruct i as [|i]; [lia|]). destruct i; discriminate. }
  split; [reflexivity|]. split; [reflexivity|]. split; [reflexivity|]. eexists. split; [vm_compute; reflexivity | reflexivity].
Qed.
Example C135_unavailable_case : let s := [0; 97; 0x4E2D]%N in table_padded broken_env true true s [1; 1; 3; 1] [1; 2; 2; 2; 2; 2] /\ e_norm broken_env NFD (text_padded broken_env true true s) = None /\
  snd (encode broken_env 10 (strip_tz (NBert true true false true)) s false) = Throw RuntimeError.
Proof. cbn zeta. split; [split; [vm_compute; lia | reflexivity]|]. split; [reflexivity | vm_compute; reflexivity]. Qed.
