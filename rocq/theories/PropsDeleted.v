(** C110: characters that clean_text deletes. Specification: DropSpec.v. *)
From Verif Require Import Base BaseFacts Unicode UnicodeProofs Common Utils PostProcessor Decoder Normalizer PreTokenizer WordPiece Bpe AddedVocab Tokenizer Spec
  NormSpec NormProofs DecSpec PreSpec PreProofs AvSpec AvProofs ExtractProofs TzSpec TzProofs WpSpec WpProofs OffSpec OffProofs RefSpec RefProofs TextProofs BpeSpec UnkSpec
  BpeRefSpec PropsReference PropsNorm Env CutSpec PropsCut AccentSpec PropsAccent BertSpec PropsBertOffsets DropSpec.
From Coq Require Import ZifyBool ZifyNat ZifyN.

(** *** Tables with missing sources *)
Fixpoint keyed (ks z : list nat) : blocks := match ks, z with k :: ks', n :: z' => ((k, S k), n) :: keyed ks' z' | _, _ => [] end.
Definition gapped (R O : list (nat * nat)) : Prop :=
  exists ks z, length ks = length z /\ Sorted.StronglySorted lt ks /\ Forall (fun n => 0 < n) z /\ map snd R = z /\ O = tab_offsets (keyed ks z).
Lemma rebase_keyed : forall ks z k0 j n0, length ks = length z -> Sorted.StronglySorted lt (k0 :: ks) -> Forall (fun n => 0 < n) z ->
  rebase_offsets (k0, S k0) (j, S j) (repeat (k0, S k0) n0 ++ tab_offsets (keyed ks z)) = repeat (j, S j) n0 ++ tab_offsets (numbered (S j) z).
Proof.
  assert (Hrep : forall k0 j n0 x, rebase_offsets (k0, S k0) (j, S j) (repeat (k0, S k0) n0 ++ x) = repeat (j, S j) n0 ++ rebase_offsets (k0, S k0) (j, S j) x).
  { intros k0 j n0 x. induction n0 as [|n0 IH]; [reflexivity|]. cbn [repeat app rebase_offsets fst snd]. rewrite !Nat.eqb_refl. cbn [andb]. rewrite IH. reflexivity. }
  induction ks as [|k ks IH]; intros [|n z] k0 j n0 HL HS Hz; cbn in HL; try lia; rewrite Hrep; apply f_equal; [reflexivity|].
  inversion HS as [|? ? HS' Hlt]; subst. pose proof (Forall_inv Hlt) as Hk. cbn beta in Hk. pose proof (Forall_inv Hz) as Hn. cbn beta in Hn.
  cbn [keyed tab_offsets flat_map fst snd numbered]. fold (tab_offsets (keyed ks z)). fold (tab_offsets (numbered (S (S j)) z)). destruct n as [|n]; [lia|]. cbn [repeat app rebase_offsets fst snd].
  replace (k0 =? k) with false by lia. cbn [andb]. rewrite Nat.add_1_r. f_equal. apply IH; [lia | exact HS' | exact (Forall_inv_tail Hz)].
Qed.
Lemma transform_gapped z text sub R O : z <> [] -> R <> [] -> Forall (fun n => 0 < n) z -> gapped R O -> ns_ranges sub = R -> ns_offsets sub = O ->
  exists junk, transform_range (numbered_ns z [] text) (0, length z) sub = Ok (mkNs text (rebase_ranges 0 R) (tab_offsets (numbered 0 (map snd R)) ++ junk)).
Proof.
  intros Hz HRne Hpos HG HR HO. unfold transform_range, numbered_ns. cbn [ns_ranges ns_offsets ns_text]. rewrite app_nil_r.
  destruct z as [|n0 z0] eqn:Ez; [congruence|]. rewrite <- Ez in *. assert (Hn0 : 0 < n0) by (rewrite Ez in Hpos; exact (Forall_inv Hpos)).
  assert (Hra : vat (tab_ranges 0 (numbered 0 z)) 0 = Ok (0, n0)) by (rewrite Ez; reflexivity). rewrite Hra. cbn [bind fst].
  rewrite tab_ranges_length, numbered_length, Nat.eqb_refl. destruct (exists_last Hz) as (z1 & nl & El).
  assert (Hrb : match length z with O => Undef OobIndex | S b' => vat (tab_ranges 0 (numbered 0 z)) b' end = Ok (list_sum z1, nl)).
  { rewrite El, app_length. cbn [length]. rewrite Nat.add_1_r. unfold vat. rewrite numbered_app, tab_ranges_app, nth_error_app2 by (rewrite tab_ranges_length, numbered_length; lia). rewrite tab_ranges_length, numbered_length, Nat.sub_diag, numbered_size. reflexivity. }
  rewrite Hrb. cbn [bind fst]. rewrite skipn_all2 by (rewrite tab_ranges_length, numbered_length; lia). rewrite HR.
  destruct HG as (ks & zz & G1 & G2 & G3 & G4 & G5).
  destruct R as [|[a0 k0] R]; [congruence|]. destruct zz as [|m zz]; [discriminate|]. destruct ks as [|k ks]; [discriminate|]. pose proof (Forall_inv G3) as Hm. cbn beta in Hm. destruct m as [|m]; [lia|].
  assert (Hb : vat (tab_offsets (numbered 0 z)) 0 = Ok (0, 1)) by (rewrite Ez; cbn [numbered tab_offsets flat_map fst snd]; destruct n0; [lia | reflexivity]).
  assert (Ho : match ns_offsets sub with [] => Ok [] | o :: r => base <- vat (tab_offsets (numbered 0 z)) 0 ;; Ok (base :: rebase_offsets o base r) end = Ok (tab_offsets (numbered 0 (map snd ((a0, k0) :: R))))).
  { rewrite HO, G5, G4. cbn [keyed tab_offsets flat_map fst snd numbered repeat app]. fold (tab_offsets (keyed ks zz)). rewrite Hb. cbn [bind]. f_equal. f_equal. apply rebase_keyed; [cbn in G1; lia | exact G2 | exact (Forall_inv_tail G3)]. }
  cbn [rebase_ranges bind]. rewrite Ho. cbn [bind]. set (O' := tab_offsets (numbered 0 (map snd ((a0, k0) :: R)))).
  assert (Hv : verase (tab_offsets (numbered 0 z)) 0 (list_sum z1) = Ok (tab_offsets (numbered (length z1) [nl]))).
  { rewrite El, numbered_app, tab_offsets_app. cbn [Nat.add]. replace (list_sum z1) with (length (@nil (nat * nat)) + length (tab_offsets (numbered 0 z1))) by (rewrite tab_offsets_length, numbered_size; reflexivity).
    exact (verase_mid [] (tab_offsets (numbered 0 z1)) (tab_offsets (numbered (length z1) [nl]))). }
  rewrite Hv. cbn [bind]. pose proof (vinsert_mid [] (tab_offsets (numbered (length z1) [nl])) O') as Hi. cbn [app length] in Hi. rewrite Hi. cbn [bind firstn app]. rewrite app_nil_r. eexists (tab_offsets (numbered (length z1) [nl])). reflexivity.
Qed.
Lemma extract_gapped E av norm s text R O : s <> [] -> forallb valid_cp s = true -> no_added_token (av_trie_raw av) (flat_map utf16_enc s) ->
  run_norm E norm s = Ok (mkNs text R O) -> gapped R O -> R <> [] -> text <> [] -> forallb valid_cp text = true -> no_added_token (av_trie_norm av) (flat_map utf16_enc text) ->
  exists junk, extract_and_normalize E av norm s = Ok (av_map_r av, mkPt (mkNs s (rebase_ranges 0 R) (tab_offsets (numbered 0 (map snd R)) ++ junk)) [mkSplit (utf8_encs text) (0, units text) []]).
Proof.
  intros Hne Hv Hr Hn Hbl HR Htne Htv Hnn. unfold extract_and_normalize. rewrite fresh_numbered. unfold new_pretok. cbn [ns_text numbered_ns]. unfold convert_to_string at 1. rewrite Hv. cbn [bind pt_norm pt_splits].
  cbn [ns_text numbered_ns]. unfold convert_to_string at 1. rewrite Hv. cbn [bind].
  rewrite find_none by (rewrite from_utf8_encs by exact Hv; exact Hr). rewrite from_utf8_encs by exact Hv. fold (units s).
  assert (Hu : 0 < units s) by (pose proof (proj1 (units_0 s)); destruct (units s); [exfalso; auto | lia]).
  replace (0 =? units s) with false by lia. cbn [bind raw_splits]. rewrite substr_all by apply length_units. cbn [bind]. unfold convert_to_string at 1. rewrite Hv. cbn [bind normalize_splits sp_tokens sp_text sp_off fst snd].
  rewrite (proj2 (convert_from_string_iff _ s)) by (split; [reflexivity | exact Hv]). cbn [bind]. fold (run_norm E norm s). rewrite Hn. cbn [bind].
  destruct (transform_gapped (unit_sizes s) s (mkNs text R O) R O) as (junk & Hj).
  { intros E0. apply (f_equal (@length nat)) in E0. rewrite valid_unit_sizes in E0 by exact Hv. cbn in E0. lia. }
  { exact HR. }
  { apply unit_sizes_pos. }
  { exact Hbl. }
  { reflexivity. }
  { reflexivity. }
  rewrite valid_unit_sizes in Hj by exact Hv. replace (0 + units s - 0) with (units s) by lia. rewrite Hj. cbn [bind ns_text set_text].
  unfold convert_to_string at 1. rewrite Htv. cbn [bind]. rewrite find_none by (rewrite from_utf8_encs by exact Htv; exact Hnn). rewrite from_utf8_encs by exact Htv. fold (units text).
  assert (Hu' : 0 < units text) by (pose proof (proj1 (units_0 text)); destruct (units text); [exfalso; auto | lia]).
  replace (0 =? units text) with false by lia. cbn [bind norm_splits]. rewrite substr_all by apply length_units. cbn [bind]. unfold convert_to_string at 1. rewrite Htv. cbn [bind app].
  exists junk. rewrite !Nat.add_0_r. reflexivity.
Qed.
Lemma prepare_gapped E t s n R O l : s <> [] -> forallb valid_cp s = true -> forallb valid_cp n = true -> n <> [] -> R <> [] -> gapped R O -> nothing_added t s n -> run_norm E (tz_norm t) s = Ok (mkNs n R O) -> words_of E (tz_pre t) n l ->
  all_valid l /\ exists av junk q, prepare E t s = Ok (av, mkPt (mkNs s (rebase_ranges 0 R) (tab_offsets (numbered 0 (map snd R)) ++ junk)) (map (fun p => mkSplit (utf8_encs (fst p)) (snd p) []) q)) /\ map (fun p : wstr * (nat * nat) => (fst (snd p), fst p)) q = l.
Proof.
  intros Hne Hv Hvn Hnn HR Hbl (av & Hav & H1 & H2) HN HW. destruct (extract_gapped E av (tz_norm t) s n R O Hne Hv H1 HN Hbl HR Hnn Hvn H2) as (junk & Hx).
  set (ns := mkNs s (rebase_ranges 0 R) (tab_offsets (numbered 0 (map snd R)) ++ junk)) in *.
  assert (Hprep : prepare E t s = (p2 <- match tz_pre t with Some pt => pre_tokenize E pt (mkPt ns [mkSplit (utf8_encs n) (0, units n) []]) | None => Ok (mkPt ns [mkSplit (utf8_encs n) (0, units n) []]) end ;; Ok (Some (set_map_r av (av_map_r av)), p2))).
  { unfold prepare. unfold new_pretok at 1. assert (Ht : ns_text (new_nstring s) = s) by (apply (fresh_packed s)). rewrite Ht. unfold convert_to_string. rewrite Hv. cbn [bind]. rewrite Hav, Hx. reflexivity. }
  unfold words_of in HW. assert (V0 : all_valid [(0, n)]) by (constructor; [exact Hvn | constructor]).
  assert (H0 : Forall2 holds [(0, n)] [mkSplit (utf8_encs n) (0, units n) []]) by (constructor; [repeat split | constructor]).
  destruct (tz_pre t) as [pt|].
  - destruct (pre_cuts E pt _ _ ns _ HW V0 H0) as (A & ss & B & C). rewrite B in Hprep. cbn [bind] in Hprep. destruct (holds_shape _ _ C) as (q & -> & Q). split; [exact A|]. exists (Some (set_map_r av (av_map_r av))), junk, q. auto.
  - subst l. split; [exact V0|]. cbn [bind] in Hprep. exists (Some (set_map_r av (av_map_r av))), junk, [(n, (0, units n))]. split; [exact Hprep | reflexivity].
Qed.

(** *** The tables after clean_text *)
Lemma sorted_app_drop (a b : list nat) x : Sorted.StronglySorted lt (a ++ x :: b) -> Sorted.StronglySorted lt (a ++ b).
Proof.
  induction a as [|y a IH]; cbn [app]; intros H; inversion H as [|? ? H' Hf]; subst; [exact H'|]. constructor; [apply IH; exact H'|].
  apply Forall_app in Hf as [F1 F2]. apply Forall_app. split; [exact F1 | exact (Forall_inv_tail F2)].
Qed.
Lemma seq_sorted : forall n k, Sorted.StronglySorted lt (seq k n).
Proof. induction n as [|n IH]; intros k; cbn [seq]; constructor; [apply IH|]. apply Forall_forall. intros x Hx. apply in_seq in Hx. lia. Qed.
Lemma numbered_keyed : forall z k, numbered k z = keyed (seq k (length z)) z.
Proof. induction z as [|n z IH]; intros k; [reflexivity|]. cbn [numbered length seq keyed]. rewrite IH. reflexivity. Qed.
Lemma keyed_app : forall a za b zb, length a = length za -> keyed (a ++ b) (za ++ zb) = keyed a za ++ keyed b zb.
Proof. induction a as [|k a IH]; intros [|n za] b zb H; cbn in H; try lia; [reflexivity|]. cbn [app keyed]. rewrite IH by lia. reflexivity. Qed.
(** one-byte tables *)
Definition spans (ks : list nat) : list (nat * nat) := map (fun k => (k, S k)) ks.
Lemma keyed_ones ks : tab_offsets (keyed ks (repeat 1 (length ks))) = spans ks.
Proof. induction ks as [|k ks IH]; [reflexivity|]. cbn [length repeat keyed tab_offsets flat_map fst snd app spans map]. fold (tab_offsets (keyed ks (repeat 1 (length ks)))). rewrite IH. reflexivity. Qed.
Lemma verase_one {A} (l l' : list A) a : verase l a (a + 1) = Ok l' -> exists x y z, l = x ++ y :: z /\ l' = x ++ z.
Proof.
  unfold verase. destruct (_ && _) eqn:E; [|discriminate]. intros H. injection H as <-. apply andb_prop in E as [_ E]. exists (firstn a l). destruct (skipn a l) as [|y z] eqn:Es.
  - apply (f_equal (@length A)) in Es. rewrite skipn_length in Es. cbn in Es. lia.
  - exists y, z. rewrite <- Es, firstn_skipn. split; [reflexivity|]. f_equal. rewrite Nat.add_1_r. change (S a) with (1 + a). clear -Es. revert l Es. induction a as [|a IH]; intros [|x l] H; cbn in *; try discriminate; [congruence | apply IH; exact H].
Qed.
Lemma erase_ones ns ns' i L k b : thin ns L k b -> b <= i -> transform ns i OpErase = Ok ns' -> Forall (fun r => snd r = 1) (ns_ranges ns) -> (exists ks, Sorted.StronglySorted lt ks /\ length ks = length (ns_ranges ns) /\ ns_offsets ns = spans ks) ->
  Forall (fun r => snd r = 1) (ns_ranges ns') /\ exists ks, Sorted.StronglySorted lt ks /\ length ks = length (ns_ranges ns') /\ ns_offsets ns' = spans ks.
Proof.
  intros (_ & _ & Hr) Hi H H1 (ks & K1 & K2 & K3). unfold transform, vat in H. rewrite (Hr i Hi) in H. destruct (i + k <? L); [|discriminate]. cbn [bind] in H.
  destruct (verase (ns_offsets ns) (i + k) (i + k + 1)) as [o| | |] eqn:Eo; cbn [bind] in H; try discriminate.
  destruct (verase (ns_ranges ns) i (i + 1)) as [r| | |] eqn:Er; cbn [bind] in H; try discriminate. injection H as <-. cbn [ns_ranges ns_offsets].
  apply verase_one in Eo as (x & y & z & E1 & ->). apply verase_one in Er as (x' & y' & z' & E2 & ->). rewrite E2 in H1, K2. rewrite K3 in E1.
  split. { apply Forall_app in H1 as [A1 A2]. apply Forall_app. split; [exact A1 | exact (Forall_inv_tail A2)]. }
  unfold spans in E1. apply map_eq_app in E1 as (kx & kr & -> & <- & E3). apply map_eq_cons in E3 as (ky & kz & -> & _ & <-).
  exists (kx ++ kz). split; [exact (sorted_app_drop _ _ _ K1)|]. split; [rewrite !app_length in K2; cbn [length] in K2; rewrite !app_length; lia|]. unfold spans. rewrite map_app. reflexivity.
Qed.
Lemma erases_ones l : forall ns L k b ns', thin ns L k b -> Sorted.StronglySorted lt l -> Forall (fun i => b <= i) l -> apply_erase ns l = Ok ns' ->
  Forall (fun r => snd r = 1) (ns_ranges ns) -> (exists ks, Sorted.StronglySorted lt ks /\ length ks = length (ns_ranges ns) /\ ns_offsets ns = spans ks) ->
  Forall (fun r => snd r = 1) (ns_ranges ns') /\ exists ks, Sorted.StronglySorted lt ks /\ length ks = length (ns_ranges ns') /\ ns_offsets ns' = spans ks.
Proof.
  induction l as [|i l IH]; intros ns L k b ns' HT HS HF H H1 H2; cbn [apply_erase] in H; [injection H as <-; auto|].
  inversion HS as [|? ? HS' Hlt]; subst. inversion HF as [|? ? Hi _]; subst. pose proof (erase_thin ns L k b i HT Hi) as He.
  destruct (i + 2 * k + 1 <=? L); [|rewrite He in H; discriminate]. destruct He as (n1 & E1 & HT'). rewrite E1 in H. cbn [bind] in H.
  destruct (erase_ones ns n1 i L k b HT Hi E1 H1 H2) as [A1 A2]. eapply IH; [exact HT' | exact HS' | exact Hlt | exact H | exact A1 | exact A2].
Qed.
Lemma ones_repeat (l : list (nat * nat)) : Forall (fun r => snd r = 1) l -> map snd l = repeat 1 (length l).
Proof. induction 1 as [|x l H _ IH]; [reflexivity|]. cbn [map length repeat]. rewrite H, IH. reflexivity. Qed.
Lemma ones_gapped R O ks : Forall (fun r => snd r = 1) R -> Sorted.StronglySorted lt ks -> length ks = length R -> O = spans ks -> gapped R O.
Proof.
  intros H1 H2 H3 ->. exists ks, (map snd R). split; [rewrite map_length; exact H3|]. split; [exact H2|]. split; [apply Forall_map; eapply Forall_impl; [|exact H1]; cbn beta; intros; lia|]. split; [reflexivity|].
  rewrite ones_repeat, <- H3 by exact H1. symmetry. apply keyed_ones.
Qed.
Lemma fresh_ones s : Forall (fun c => (c < 0x80)%N) s -> Forall (fun r => snd r = 1) (ns_ranges (new_nstring s)) /\
  exists ks, Sorted.StronglySorted lt ks /\ length ks = length (ns_ranges (new_nstring s)) /\ ns_offsets (new_nstring s) = spans ks.
Proof.
  intros H. assert (Hz : unit_sizes s = repeat 1 (length s)).
  { assert (Hb : bmp s) by (eapply Forall_impl; [|exact H]; cbn; lia). rewrite bmp_widths; [| exact Hb |].
    - clear Hb. induction H as [|c s Hc _ IH]; [reflexivity|]. cbn [map length repeat]. rewrite IH. f_equal. unfold width, utf8_enc. replace (c <? 0x80)%N with true by lia. reflexivity.
    - apply forallb_forall. intros c Hc. pose proof (proj1 (Forall_forall _ _) H c Hc) as Hlt. cbn beta in Hlt. unfold valid_cp, is_surrogate. lia. }
  rewrite fresh_numbered, Hz. cbn [numbered_ns ns_ranges ns_offsets]. split.
  - apply Forall_forall. intros r Hr. apply (in_map snd) in Hr. rewrite map_snd_ranges, numbered_snd in Hr. apply repeat_spec in Hr. exact Hr.
  - exists (seq 0 (length s)). split; [apply seq_sorted|]. split; [rewrite seq_length, tab_ranges_length, numbered_length, repeat_length; reflexivity|].
    rewrite app_nil_r, numbered_keyed, repeat_length. rewrite <- (seq_length (length s) 0) at 2. apply keyed_ones.
Qed.
Lemma kept_count E s : length (filter (fun c => negb (unwanted E c)) s) + length (positions (unwanted E) s 0) = length s.
Proof. generalize 0. induction s as [|c s IH]; intros i; [reflexivity|]. cbn [filter positions length]. specialize (IH (S i)). destruct (unwanted E c); cbn [negb length]; lia. Qed.
Lemma erase_lengths l : forall ns ns', apply_erase ns l = Ok ns' -> length (ns_ranges ns') + length l = length (ns_ranges ns).
Proof.
  induction l as [|i l IH]; intros ns ns' H; cbn [apply_erase] in H; [injection H as <-; cbn; lia|]. destruct (transform ns i OpErase) as [n1| | |] eqn:E1; cbn [bind] in H; try discriminate.
  specialize (IH n1 ns' H). unfold transform in E1. destruct (vat (ns_ranges ns) i) as [[a n]| | |]; cbn [bind] in E1; try discriminate. destruct (verase (ns_offsets ns) a (a + n)) as [o| | |]; cbn [bind] in E1; try discriminate.
  destruct (verase (ns_ranges ns) i (i + 1)) as [r| | |] eqn:Er; cbn [bind] in E1; try discriminate. injection E1 as <-. cbn [ns_ranges] in IH. apply verase_one in Er as (x & y & z & -> & ->). rewrite app_length in *. cbn [length] in *. lia.
Qed.
(** clean_text on a fresh string *)
Lemma clean_gapped E s : s <> [] -> bmp s -> forallb valid_cp s = true -> gets_through E s ->
  exists ns', do_clean_text E (new_nstring s) = Ok ns' /\ ns_text ns' = cleaned E s /\ gapped (ns_ranges ns') (ns_offsets ns') /\ length (ns_ranges ns') = length (cleaned E s).
Proof.
  intros Hne Hb Hv HG. assert (Ht : ns_text (new_nstring s) = s) by (apply (fresh_packed s)).
  assert (Hp : positions (removed_by_clean E) s 0 = positions (unwanted E) s 0) by (apply positions_ext; intros; apply unwanted_ok).
  assert (Hlen : length (ns_ranges (new_nstring s)) = length s) by (rewrite fresh_numbered, bmp_widths by assumption; cbn [numbered_ns ns_ranges]; rewrite tab_ranges_length, numbered_length, map_length; reflexivity).
  assert (K : exists n1, apply_erase (new_nstring s) (positions (unwanted E) s 0) = Ok n1 /\ gapped (ns_ranges n1) (ns_offsets n1)).
  { destruct HG as [HG|[Ha Hf]].
    - rewrite fresh_numbered, bmp_widths by assumption. pose proof (positions_ge (unwanted E) s 0) as Hge. destruct (positions (unwanted E) s 0) as [|p [|p' l]] eqn:Ep; [| |cbn in HG; lia].
      + exists (numbered_ns (map width s) [] s). split; [reflexivity|]. cbn [numbered_ns ns_ranges ns_offsets]. rewrite app_nil_r. exists (seq 0 (length (map width s))), (map width s).
        split; [apply seq_length|]. split; [apply seq_sorted|]. split; [exact (sized_pos _ _ (whitened_sized E false s))|]. split; [rewrite map_snd_ranges, numbered_snd; reflexivity|]. rewrite numbered_keyed. reflexivity.
      + pose proof (Forall_inv Hge) as Hp0. cbn beta in Hp0. pose proof (sized_pos _ _ (whitened_sized E false s)) as Hpos. assert (HL : length (map width s) = length s) by apply map_length. cbn [apply_erase].
        destruct (nth_error (map width s) p) as [n|] eqn:En; [|apply nth_error_None in En; lia]. apply nth_error_split in En as (z1 & z2 & Ez & Hz1). rewrite Ez in *. subst p.
        assert (HT : transform (numbered_ns (z1 ++ n :: z2) [] s) (length z1) OpErase = Ok (mkNs s (tab_ranges 0 (numbered 0 z1) ++ tab_ranges (list_sum z1 + n) (numbered (S (length z1)) z2)) (tab_offsets (numbered 0 z1) ++ tab_offsets (numbered (S (length z1)) z2)))).
        { unfold transform, numbered_ns. cbn [ns_ranges ns_offsets ns_text]. rewrite app_nil_r, numbered_app. cbn [Nat.add numbered]. rewrite tab_ranges_app, tab_offsets_app, numbered_size. cbn [Nat.add tab_ranges]. unfold vat.
          rewrite nth_error_app2 by (rewrite tab_ranges_length, numbered_length; lia). rewrite tab_ranges_length, numbered_length, Nat.sub_diag. cbn [nth_error bind].
          cbn [tab_offsets flat_map fst snd]. fold (tab_offsets (numbered (S (length z1)) z2)).
          pose proof (verase_mid (tab_offsets (numbered 0 z1)) (repeat (length z1, S (length z1)) n) (tab_offsets (numbered (S (length z1)) z2))) as H1. rewrite tab_offsets_length, numbered_size, repeat_length in H1. rewrite H1. cbn [bind].
          pose proof (verase_mid (tab_ranges 0 (numbered 0 z1)) [(list_sum z1, n)] (tab_ranges (list_sum z1 + n) (numbered (S (length z1)) z2))) as H2. rewrite tab_ranges_length, numbered_length in H2. cbn [length app] in H2. rewrite H2. reflexivity. }
        rewrite HT. cbn [bind]. eexists. split; [reflexivity|]. cbn [ns_ranges ns_offsets]. exists (seq 0 (length z1) ++ seq (S (length z1)) (length z2)), (z1 ++ z2).
        split; [rewrite !app_length, !seq_length; reflexivity|]. split. { pose proof (seq_sorted (length z1 + S (length z2)) 0) as Hs. rewrite seq_app in Hs. cbn [Nat.add seq] in Hs. exact (sorted_app_drop _ _ _ Hs). }
        apply Forall_app in Hpos as [P1 P2]. split; [apply Forall_app; split; [exact P1 | exact (Forall_inv_tail P2)]|]. split; [rewrite map_app, !map_snd_ranges, !numbered_snd; reflexivity|].
        rewrite keyed_app by apply seq_length. rewrite tab_offsets_app, !numbered_keyed. reflexivity.
    - destruct (apply_erase_thin (positions (unwanted E) s 0) (new_nstring s) (length s) 0 0 (fresh_thin s Ha) (positions_sorted _ _ 0)) as [H1 _]; [apply Forall_forall; intros; lia|].
      destruct (H1 Hf) as [n1 En]. exists n1. split; [exact En|]. destruct (fresh_ones s Ha) as [F1 F2].
      destruct (erases_ones _ _ (length s) 0 0 n1 (fresh_thin s Ha) (positions_sorted _ _ 0) ltac:(apply Forall_forall; intros; lia) En F1 F2) as (G1 & ks & G2 & G3 & G4). exact (ones_gapped _ _ ks G1 G2 G3 G4). }
  destruct K as (n1 & En & Hg). pose proof (erase_lengths _ _ _ En) as HL. rewrite Hlen in HL. pose proof (kept_count E s) as HK.
  assert (HC : do_clean_text E (new_nstring s) = Ok (set_text n1 (cleaned E s))).
  { unfold do_clean_text. rewrite Ht, clean_erase, Hp, En. cbn [bind]. rewrite cleaned_ok. reflexivity. }
  eexists. split; [exact HC|]. cbn [set_text ns_text ns_ranges ns_offsets]. split; [reflexivity|]. split; [exact Hg|]. unfold cleaned. rewrite map_length. lia.
Qed.
(** the other steps *)
Lemma rest_lowered E ch st lo ns c n : ns_text ns = c -> forallb valid_cp c = true -> only_lowered E ch st lo c n ->
  (n2 <- (if ch then do_handle_chinese_chars ns else Ok ns) ;; n3 <- (if st || lo then do_strip_accents E n2 else Ok n2) ;; (if lo then do_lowercase E n3 else Ok n3)) = Ok (set_text ns n).
Proof.
  intros Ht Hv (H1 & H2 & ->). subst c. remember (ns_text ns) as c eqn:Ht.
  assert (Hsame : set_text ns c = ns) by (rewrite Ht; apply set_text_same).
  assert (K1 : (if ch then do_handle_chinese_chars ns else Ok ns) = Ok ns).
  { destruct ch; [|reflexivity]. specialize (H1 eq_refl). unfold do_handle_chinese_chars. rewrite <- Ht.
    assert (Hin : forall x, In x c -> is_chinese_char x = false) by (intros x Hx; rewrite chinese_cjk; rewrite (proj1 (Forall_forall _ _) H1 x Hx); reflexivity).
    assert (Hc : chinese_ids c 0 = []). { generalize 0. clear -Hin. induction c as [|x c IH]; intros i; [reflexivity|]. cbn [chinese_ids]. rewrite (Hin x) by (left; reflexivity). apply IH. intros; apply Hin; right; assumption. }
    rewrite Hc. cbn [apply_pad bind]. rewrite <- Ht. pose proof (apply_changes_spec c []) as Ha. cbn [app length] in Ha. rewrite Ha. cbn [bind]. rewrite spaced_none by exact Hin. rewrite Hsame. reflexivity. }
  rewrite K1. cbn [bind].
  assert (K2 : (if st || lo then do_strip_accents E ns else Ok ns) = Ok ns).
  { destruct (st || lo); [|reflexivity]. destruct (H2 eq_refl) as [A1 A2]. unfold do_strip_accents, normalize_nf. rewrite <- Ht.
    assert (Hfix : map fix_cp c = c). { rewrite <- (map_id c) at 2. apply map_ext_in. intros x Hx. unfold fix_cp. rewrite (proj1 (forallb_forall _ _) Hv x Hx). reflexivity. }
    rewrite Hfix, A1, grow_ids_same. cbn [apply_grow bind]. rewrite Hsame, <- Ht. rewrite mark_ids_none by (intros x Hx; exact (proj1 (Forall_forall _ _) A2 x Hx)). cbn [apply_shrink bind].
    rewrite filter_all by (intros x Hx; rewrite (proj1 (Forall_forall _ _) A2 x Hx); reflexivity). rewrite Hsame. reflexivity. }
  rewrite K2. cbn [bind]. destruct lo; [unfold do_lowercase; rewrite <- Ht; reflexivity | rewrite Hsame; reflexivity].
Qed.

(** ** C110 *)
(** A WordPiece tokenizer with a BERT normalizer that cleans encodes a text clean_text gets through word by word over the normalized text, and reports every word at its position there. *)
Theorem C110_deleted : forall E fuel t w ch st lo s n l add, tz_model t = Some (MWordPiece w) -> tz_norm t = Some (NBert true ch st lo) ->
  s <> [] -> bmp s -> forallb valid_cp s = true -> gets_through E s -> cleaned E s <> [] -> only_lowered E ch st lo (cleaned E s) n -> forallb valid_cp n = true -> nothing_added t s n ->
  words_of E (tz_pre t) n l -> Forall (fun p => fst p < length n) l ->
  exists r, snd (encode E fuel (bare t) s add) = Ok r /\ en_overflowing r = [] /\ flat_parallel r /\ rows_of_words (word_tokens w) 0 l (rows r).
Proof.
  intros E fuel t w ch st lo s n l add Hm Hno Hs0 Hb Hv HG Hc HL Hvn Ha HW HP.
  destruct (clean_gapped E s Hs0 Hb Hv HG) as (n1 & C1 & C2 & C3 & C4).
  assert (Hlen : length n = length (cleaned E s)) by (destruct HL as (_ & _ & ->); destruct lo; [apply map_length | reflexivity]).
  assert (Hvc : forallb valid_cp (cleaned E s) = true).
  { unfold cleaned. apply forallb_forall. intros x Hx. apply in_map_iff in Hx as (y & <- & Hy). apply filter_In in Hy as [Hy _]. destruct (blank E y); [reflexivity | exact (proj1 (forallb_forall _ _) Hv y Hy)]. }
  assert (HN : normalize E (NBert true ch st lo) (new_nstring s) = Ok (mkNs n (ns_ranges n1) (ns_offsets n1))).
  { cbn [normalize]. unfold bert_normalize. rewrite C1. cbn [bind]. exact (rest_lowered E ch st lo n1 _ n C2 Hvc HL). }
  assert (Hne : n <> []) by (intros ->; destruct (cleaned E s); [congruence | discriminate]).
  assert (HRne : ns_ranges n1 <> []) by (intros E0; rewrite E0 in C4; destruct (cleaned E s); [congruence | discriminate]).
  destruct (prepare_gapped E t s n _ _ l Hs0 Hv Hvn Hne HRne C3 Ha) as (A & av & junk & q & Q1 & <-); [rewrite Hno; exact HN | exact HW|].
  rewrite encode_bare. unfold text_encoding. rewrite Q1. cbn [bind]. rewrite Hm. cbn [model_tokenize snd].
  set (R := ns_ranges n1) in *. set (ns := mkNs s (rebase_ranges 0 R) (tab_offsets (numbered 0 (map snd R)) ++ junk)).
  assert (Hpos : Forall (fun n => 0 < n) (map snd R)) by (destruct C3 as (ks & z & _ & _ & G & -> & _); exact G).
  destruct (wp_tokenize_ok w (mkPt ns (map (fun p => mkSplit (utf8_encs (fst p)) (snd p) []) q))) as (out & Hl & HF). cbn [pt_splits pt_norm] in HF, Hl. rewrite Hl. cbn [bind]. unfold into_encoding. cbn [pt_norm pt_splits].
  destruct (wp_rows_at w ns (fun j => j) q out 0 A HF) as (e & E1 & E2).
  { intros x [j hi] ts Hin. cbn [fst]. assert (Hj : j < length R) by (rewrite C4, <- Hlen; apply (proj1 (Forall_forall _ _) HP (j, x)); apply in_map_iff; exists (x, (j, hi)); auto).
    unfold ns. rewrite (block_base (numbered 0 (map snd R)) (seq 0 (length R)) R s junk j x hi ts).
    - unfold reported. rewrite numbered_snd, char_of_prefix by (assumption || rewrite map_length; exact Hj). rewrite seq_nth by exact Hj. reflexivity.
    - rewrite numbered_fst, map_length. reflexivity.
    - exact Hj.
    - rewrite numbered_snd. apply firstn_sum_lt; [exact Hpos | rewrite map_length; exact Hj]. }
  exists e. split; [exact E1|]. destruct (into_rows_flat _ _ _ _ _ E1) as [F1 F2]. split; [exact F2|]. split; [exact F1|].
  exact E2.
Qed.
Print Assumptions C110_deleted.
Lemma rows_functional (P : wstr -> list token -> Prop) : (forall x a b, P x a -> P x b -> a = b) -> forall l i a b, rows_of_words P i l a -> rows_of_words P i l b -> a = b.
Proof.
  intros HP. induction l as [|[pos x] l IH]; intros i a b Ha Hb; inversion Ha as [|? ? ? ? ts rs A1 A2]; inversion Hb as [|? ? ? ? ts' rs' B1 B2]; subst; [reflexivity|].
  rewrite (HP _ _ _ A1 B1), (IH _ _ _ A2 B2). reflexivity.
Qed.
Lemma same_rows a b : en_overflowing a = [] -> en_overflowing b = [] -> flat_parallel a -> flat_parallel b -> rows a = rows b -> a = b.
Proof.
  intros Oa Ob Fa Fb H. destruct (rows_cols a Fa) as (A1 & A2 & A3 & A4 & A5 & A6 & A7), (rows_cols b Fb) as (B1 & B2 & B3 & B4 & B5 & B6 & B7). rewrite H in *.
  destruct a, b. cbn in Oa, Ob, A1, A2, A3, A4, A5, A6, A7, B1, B2, B3, B4, B5, B6, B7. congruence.
Qed.
Lemma cleaned_again E s : unwanted E 32 = false -> positions (unwanted E) (cleaned E s) 0 = [] /\ cleaned E (cleaned E s) = cleaned E s.
Proof.
  intros H. assert (HF : forall c, In c (cleaned E s) -> unwanted E c = false).
  { intros c Hc. unfold cleaned in Hc. apply in_map_iff in Hc as (y & <- & Hy). apply filter_In in Hy as [_ Hy]. destruct (blank E y); [exact H | destruct (unwanted E y); [discriminate | reflexivity]]. }
  split; [apply (positions_none _ (cleaned E s)); exact HF|]. unfold cleaned at 1. rewrite filter_all by (intros c Hc; rewrite (HF c Hc); reflexivity). unfold cleaned. rewrite map_map. apply map_ext. intros c. destruct (blank E c) eqn:Eb; [destruct (blank E 32); reflexivity | rewrite Eb; reflexivity].
Qed.
Lemma cleaned_bmp E s : bmp s -> bmp (cleaned E s).
Proof. unfold bmp, cleaned. intros H. apply Forall_forall. intros x Hx. apply in_map_iff in Hx as (y & <- & Hy). apply filter_In in Hy as [Hy _]. destruct (blank E y); [lia | exact (proj1 (Forall_forall _ _) H y Hy)]. Qed.
Lemma cleaned_valid E s : forallb valid_cp s = true -> forallb valid_cp (cleaned E s) = true.
Proof. intros H. unfold cleaned. apply forallb_forall. intros x Hx. apply in_map_iff in Hx as (y & <- & Hy). apply filter_In in Hy as [Hy _]. destruct (blank E y); [reflexivity | exact (proj1 (forallb_forall _ _) H y Hy)]. Qed.
(** The text is encoded exactly as the cleaned text is: ids, tokens, words and offsets, through truncation, post-processing and padding. *)
Theorem C110_same : forall E fuel t w ch st lo s n add, tz_model t = Some (MWordPiece w) -> tz_norm t = Some (NBert true ch st lo) ->
  (forall p, tz_pre t = Some p -> cuttable E p /\ keeps_characters E p) -> unwanted E 32 = false ->
  bmp s -> forallb valid_cp s = true -> gets_through E s -> cleaned E s <> [] -> only_lowered E ch st lo (cleaned E s) n -> bmp n -> forallb valid_cp n = true ->
  nothing_added t s n -> nothing_added t (cleaned E s) n ->
  snd (encode E fuel t s add) = snd (encode E fuel t (cleaned E s) add) /\ exists r, snd (encode E fuel (bare t) s add) = Ok r.
Proof.
  intros E fuel t w ch st lo s n add Hm Hno Hp H32 Hb Hv HG Hc HL Hbn Hvn Ha Ha'.
  assert (Hs0 : s <> []) by (intros ->; apply Hc; reflexivity). destruct (cleaned_again E s H32) as [K1 K2].
  assert (Hn0 : n <> []) by (intros ->; destruct HL as (_ & _ & HL); apply (f_equal (@length N)) in HL; destruct lo; [rewrite map_length in HL|]; destruct (cleaned E s); [congruence | discriminate | congruence | discriminate]).
  destruct (C95_words E (tz_pre t) n (fun p H => proj1 (Hp p H)) Hvn) as (l & HW & _).
  assert (HP : Forall (fun p => fst p < length n) l).
  { pose proof (C95_inside E (tz_pre t) n l Hn0 (fun p H => proj2 (Hp p H)) HW) as HI. eapply Forall_impl; [|exact HI]. cbn beta. intros p (_ & H & _). unfold units in H. rewrite <- (bmp_len n Hbn). rewrite from_utf32_valid by assumption. exact H. }
  destruct (C110_deleted E fuel t w ch st lo s n l add Hm Hno Hs0 Hb Hv HG Hc HL Hvn Ha HW HP) as (r & R1 & R2 & R3 & R4).
  assert (HG' : gets_through E (cleaned E s)) by (left; rewrite K1; cbn; lia). assert (Hc' : cleaned E (cleaned E s) <> []) by (rewrite K2; exact Hc). assert (HL' : only_lowered E ch st lo (cleaned E (cleaned E s)) n) by (rewrite K2; exact HL).
  destruct (C110_deleted E fuel t w ch st lo (cleaned E s) n l add Hm Hno Hc (cleaned_bmp E s Hb) (cleaned_valid E s Hv) HG' Hc' HL' Hvn Ha' HW HP) as (r' & R1' & R2' & R3' & R4').
  assert (r = r') as <- by (apply same_rows; try assumption; eapply rows_functional; [exact (word_tokens_fun w) | exact R4 | exact R4']).
  split; [|eauto]. rewrite (encode_stages E fuel t s), (encode_stages E fuel t (cleaned E s)), R1, R1'. reflexivity.
Qed.
Print Assumptions C110_same.

(** A kept character stands in the text as many characters further to the right as are deleted before it. *)
Theorem C110_shift : forall E s j p, nth_error (kept_at E s) j = Some p ->
  p = j + deleted_before E s p /\ exists c, nth_error s p = Some c /\ unwanted E c = false /\ nth_error (cleaned E s) j = Some (if blank E c then 32%N else c).
Proof.
  intros E s. unfold kept_at, deleted_before, cleaned.
  assert (K : forall s k j p, nth_error (positions (fun c => negb (unwanted E c)) s k) j = Some p -> exists q, p = k + q /\ q = j + length (filter (unwanted E) (firstn q s)) /\
    exists c, nth_error s q = Some c /\ unwanted E c = false /\ nth_error (map (fun c => if blank E c then 32%N else c) (filter (fun c => negb (unwanted E c)) s)) j = Some (if blank E c then 32%N else c)).
  { clear s. induction s as [|c s IH]; intros k j p H; cbn [positions] in H; [destruct j; discriminate|]. destruct (unwanted E c) eqn:Eu; cbn [negb] in H.
    - destruct (IH (S k) j p H) as (q & -> & Hq & Hc). exists (S q). split; [lia|]. cbn [firstn filter nth_error]. rewrite Eu. cbn [negb length]. split; [lia | exact Hc].
    - destruct j as [|j]; cbn [nth_error] in H.
      + injection H as <-. exists 0. split; [lia|]. split; [reflexivity|]. exists c. cbn [nth_error filter]. rewrite Eu. cbn [negb map nth_error]. auto.
      + destruct (IH (S k) j p H) as (q & -> & Hq & Hc). exists (S q). split; [lia|]. cbn [firstn filter nth_error]. rewrite Eu. cbn [negb map nth_error]. split; [lia | exact Hc]. }
  intros j p H. destruct (K s 0 j p H) as (q & -> & Hq & Hc). cbn [Nat.add] in *. auto.
Qed.
Print Assumptions C110_shift.
(** So a word is reported where it stands exactly when nothing before it was deleted. *)
Theorem C110_true_position : forall E s j p, nth_error (kept_at E s) j = Some p -> j <= p /\ (j = p <-> Forall (fun c => unwanted E c = false) (firstn p s)).
Proof.
  intros E s j p H. destruct (C110_shift E s j p H) as [H1 _]. split; [lia|]. unfold deleted_before in H1. split.
  - intros Hj. apply Forall_forall. intros c Hc. destruct (unwanted E c) eqn:Eu; [|reflexivity]. assert (Hin : In c (filter (unwanted E) (firstn p s))) by (apply filter_In; auto). destruct (filter (unwanted E) (firstn p s)); [destruct Hin | cbn in H1; lia].
  - intros HF. assert (E0 : filter (unwanted E) (firstn p s) = []). { clear H1. induction HF as [|c l Hc _ IH]; [reflexivity|]. cbn [filter]. rewrite Hc. exact IH. } rewrite E0 in H1. cbn in H1. lia.
Qed.
Print Assumptions C110_true_position.
(** When clean_text does not get through, no tokenizer that starts with it encodes the text. *)
Theorem C110_undefined : forall E fuel t av ch st lo s add, tz_norm t = Some (NBert true ch st lo) -> tz_av t = Some av -> s <> [] -> forallb valid_cp s = true ->
  no_added_token (av_trie_raw av) (flat_map utf16_enc s) -> ~ deletions_fit (widths s) 0 0 (positions (unwanted E) s 0) -> snd (encode E fuel t s add) = Undef OobIndex.
Proof.
  intros E fuel t av ch st lo s add Hno Hav Hne Hv Hr HD.
  assert (HN : run_norm E (tz_norm t) s = Undef OobIndex) by (rewrite Hno; cbn [run_norm normalize]; unfold bert_normalize; rewrite (proj2 (C49_defined_iff E s) HD); reflexivity).
  assert (HX : extract_and_normalize E av (tz_norm t) s = Undef OobIndex).
  { unfold extract_and_normalize. rewrite fresh_numbered. unfold new_pretok. cbn [ns_text numbered_ns]. unfold convert_to_string at 1. rewrite Hv. cbn [bind pt_norm pt_splits].
    cbn [ns_text numbered_ns]. unfold convert_to_string at 1. rewrite Hv. cbn [bind].
    rewrite find_none by (rewrite from_utf8_encs by exact Hv; exact Hr). rewrite from_utf8_encs by exact Hv. fold (units s).
    assert (Hu : 0 < units s) by (pose proof (proj1 (units_0 s)); destruct (units s); [exfalso; auto | lia]).
    replace (0 =? units s) with false by lia. cbn [bind raw_splits]. rewrite substr_all by apply length_units. cbn [bind]. unfold convert_to_string at 1. rewrite Hv. cbn [bind normalize_splits sp_tokens sp_text sp_off fst snd].
    rewrite (proj2 (convert_from_string_iff _ s)) by (split; [reflexivity | exact Hv]). cbn [bind]. fold (run_norm E (tz_norm t) s). rewrite HN. reflexivity. }
  rewrite encode_stages, encode_bare. unfold text_encoding, prepare. unfold new_pretok at 1. assert (Ht : ns_text (new_nstring s) = s) by (apply (fresh_packed s)). rewrite Ht. unfold convert_to_string. rewrite Hv. cbn [bind]. rewrite Hav, HX. reflexivity.
Qed.
Print Assumptions C110_undefined.
(** A NUL after the first word: the words after it are reported one too far to the left. A run of NULs at the end of the text is an access out of bounds. *)
Definition nul_text : wstr := [97; 0; 32; 65; 32; 97]%N.
Example C110_case :
  bmp nul_text /\ forallb valid_cp nul_text = true /\ gets_through test_env nul_text /\ cleaned test_env nul_text = str "a A a" /\ only_lowered test_env true true true (str "a A a") (str "a a a") /\ unwanted test_env 32 = false /\
  cuttable test_env TBert /\ keeps_characters test_env TBert /\ nothing_added (zh_tz true) nul_text (str "a a a") /\ nothing_added (zh_tz true) (str "a A a") (str "a a a") /\
  (exists r, snd (encode test_env 10 (zh_tz true) nul_text false) = Ok r /\ en_ids r = [2; 2; 2]%Z /\ en_offsets r = [(0, 1); (2, 3); (4, 5)]) /\
  kept_at test_env nul_text = [0; 2; 3; 4; 5] /\ deleted_before test_env nul_text 3 = 1 /\
  ~ deletions_fit (widths [97; 0; 0]%N) 0 0 (positions (unwanted test_env) [97; 0; 0]%N 0) /\ snd (encode test_env 10 (zh_tz true) [97; 0; 0]%N false) = Undef OobIndex.
Proof.
  split; [repeat constructor; lia|]. split; [reflexivity|]. split; [left; cbn; lia|]. split; [reflexivity|].
  split. { split; [intros _; apply Forall_forall; intros c Hc; repeat (destruct Hc as [<-|Hc]; [reflexivity|]); destruct Hc|]. split; [|reflexivity]. intros _. split; [reflexivity|]. apply Forall_forall; intros c Hc; repeat (destruct Hc as [<-|Hc]; [reflexivity|]); destruct Hc. }
  split; [reflexivity|]. split; [exact I|]. split; [exact I|].
  assert (HA : forall x y, nothing_added (zh_tz true) x y) by (intros x y; exists (new_added_vocab []); split; [reflexivity|]; split; intros a b i _ _ Hin; destruct Hin).
  split; [apply HA|]. split; [apply HA|]. split; [eexists; split; [vm_compute; reflexivity|]; split; reflexivity|]. split; [reflexivity|]. split; [reflexivity|]. split; [|vm_compute; reflexivity].
  vm_compute. intros (_ & _ & H & _). lia.
Qed.
Example C110_two_case : gets_through test_env [0; 0; 97; 32; 97]%N /\ length (positions (unwanted test_env) [0; 0; 97; 32; 97]%N 0) = 2 /\ cleaned test_env [0; 0; 97; 32; 97]%N = str "a a" /\
  exists r, snd (encode test_env 10 (zh_tz true) [0; 0; 97; 32; 97]%N false) = Ok r /\ en_offsets r = [(0, 1); (2, 3)].
Proof.
  split. { right. split; [repeat constructor; lia|]. intros j p H. destruct j as [|[|j]]; cbn in H; [injection H as <- | injection H as <- | destruct j; discriminate]; cbn; lia. }
  split; [reflexivity|]. split; [reflexivity|]. eexists. split; [vm_compute; reflexivity | reflexivity].
Qed.
