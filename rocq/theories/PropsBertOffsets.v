(** C104: offsets of BERT tokenizers. Specification: BertSpec.v, CutSpec.v. *)
From Verif Require Import Base BaseFacts Unicode UnicodeProofs Common Utils PostProcessor Decoder Normalizer PreTokenizer WordPiece Bpe AddedVocab Tokenizer Spec
  NormSpec NormProofs DecSpec PreSpec PreProofs AvSpec AvProofs ExtractProofs TzSpec TzProofs WpSpec WpProofs OffSpec OffProofs RefSpec RefProofs TextProofs BpeSpec UnkSpec
  BpeRefSpec PropsReference PropsNorm Env CutSpec PropsCut AccentSpec PropsAccent BertSpec.
From Coq Require Import ZifyBool ZifyNat ZifyN.

(** *** Blocks whose sources are consecutive *)
Inductive gapless : nat -> blocks -> Prop :=
| gl_nil k : gapless k []
| gl_same k n bl : 0 < n -> gapless k bl -> gapless k (((k, S k), n) :: bl)
| gl_next k n bl : 0 < n -> gapless (S k) bl -> gapless k (((S k, S (S k)), n) :: bl).
Lemma rebase_same k x : forall n, rebase_offsets (k, S k) (k, S k) (repeat (k, S k) n ++ x) = repeat (k, S k) n ++ rebase_offsets (k, S k) (k, S k) x.
Proof. induction n as [|n IH]; [reflexivity|]. cbn [repeat app rebase_offsets fst snd]. rewrite !Nat.eqb_refl. cbn [andb]. rewrite IH. reflexivity. Qed.
Lemma rebase_gapless k bl : gapless k bl -> rebase_offsets (k, S k) (k, S k) (tab_offsets bl) = tab_offsets bl.
Proof.
  induction 1 as [k|k n bl Hn H IH|k n bl Hn H IH]; [reflexivity| |]; cbn [tab_offsets flat_map fst snd]; fold (tab_offsets bl).
  - rewrite rebase_same, IH. reflexivity.
  - destruct n as [|n]; [lia|]. cbn [repeat app rebase_offsets fst snd]. replace (k =? S k) with false by lia. cbn [andb]. rewrite Nat.add_1_r. rewrite rebase_same, IH. reflexivity.
Qed.
Lemma gapless_numbered z : Forall (fun n => 0 < n) z -> forall k, gapless k (numbered (S k) z).
Proof. induction 1 as [|n z Hn _ IH]; intros k; [constructor|]. cbn [numbered]. apply gl_next; [exact Hn | apply IH]. Qed.
Lemma gapless_padded : forall m z k, Forall (fun n => 0 < n) z -> gapless k (pad_blocks m (numbered (S k) z)).
Proof.
  induction m as [|c m IH]; intros [|n z] k Hz; [constructor | | constructor |].
  - apply (gapless_numbered (n :: z) Hz).
  - cbn [numbered pad_blocks]. pose proof (Forall_inv Hz) as Hn. cbn beta in Hn. specialize (IH z (S k) (Forall_inv_tail Hz)). destruct (is_chinese_char c); cbn [app]; repeat (apply gl_next || apply gl_same); try lia; assumption.
Qed.
(** the table that starts at source 0 *)
Definition gapless0 (bl : blocks) : Prop := exists n bl', bl = ((0, 1), n) :: bl' /\ 0 < n /\ gapless 0 bl'.
Lemma gapless0_numbered z : z <> [] -> Forall (fun n => 0 < n) z -> gapless0 (numbered 0 z).
Proof. destruct z as [|n z]; [congruence|]. intros _ H. exists n, (numbered 1 z). split; [reflexivity|]. split; [exact (Forall_inv H) | apply gapless_numbered; exact (Forall_inv_tail H)]. Qed.
Lemma gapless0_padded m z : z <> [] -> Forall (fun n => 0 < n) z -> gapless0 (pad_blocks m (numbered 0 z)).
Proof.
  destruct z as [|n z]; [congruence|]. intros _ H. pose proof (Forall_inv H) as Hn. cbn beta in Hn. pose proof (Forall_inv_tail H) as Hz. destruct m as [|c m]; [apply gapless0_numbered; [congruence | exact H]|]. cbn [numbered pad_blocks].
  destruct (is_chinese_char c); cbn [app]; eexists _, _; (split; [reflexivity|]); (split; [lia|]); repeat apply gl_same; try lia; apply gapless_padded; exact Hz.
Qed.
(** tables whose entries go up by one character or not at all *)
Inductive smooth : nat -> list (nat * nat) -> Prop :=
| sm_nil k : smooth k []
| sm_same k l : smooth k l -> smooth k ((k, S k) :: l)
| sm_next k l : smooth (S k) l -> smooth k ((S k, S (S k)) :: l).
Definition smooth0 (O : list (nat * nat)) : Prop := exists r, O = (0, 1) :: r /\ smooth 0 r.
Lemma rebase_smooth k l : smooth k l -> rebase_offsets (k, S k) (k, S k) l = l.
Proof.
  induction 1 as [k|k l H IH|k l H IH]; [reflexivity| |]; cbn [rebase_offsets fst snd].
  - rewrite !Nat.eqb_refl. cbn [andb]. rewrite IH. reflexivity.
  - replace (k =? S k) with false by lia. cbn [andb]. rewrite Nat.add_1_r. rewrite IH. reflexivity.
Qed.
Lemma smooth_repeat k l : smooth k l -> forall n, smooth k (repeat (k, S k) n ++ l).
Proof. intros H. induction n as [|n IH]; [exact H | apply sm_same; exact IH]. Qed.
Lemma smooth_gapless k bl : gapless k bl -> smooth k (tab_offsets bl).
Proof.
  induction 1 as [k|k n bl Hn H IH|k n bl Hn H IH]; [constructor| |]; cbn [tab_offsets flat_map fst snd]; fold (tab_offsets bl); [apply smooth_repeat; exact IH|].
  destruct n as [|n]; [lia|]. cbn [repeat app]. apply sm_next, smooth_repeat. exact IH.
Qed.
Lemma smooth0_gapless bl : gapless0 bl -> smooth0 (tab_offsets bl).
Proof.
  intros (n & bl' & -> & Hn & H). destruct n as [|n]; [lia|]. cbn [tab_offsets flat_map fst snd repeat app]. fold (tab_offsets bl'). eexists. split; [reflexivity|]. apply (smooth_repeat 0), smooth_gapless. exact H.
Qed.
Lemma transform_smooth z text sub R O : z <> [] -> R <> [] -> Forall (fun n => 0 < n) z -> smooth0 O -> ns_ranges sub = R -> ns_offsets sub = O ->
  exists junk, transform_range (numbered_ns z [] text) (0, length z) sub = Ok (mkNs text (rebase_ranges 0 R) (O ++ junk)).
Proof.
  intros Hz HRne Hpos Hbl HR HO. unfold transform_range, numbered_ns. cbn [ns_ranges ns_offsets ns_text]. rewrite app_nil_r.
  destruct z as [|n0 z0] eqn:Ez; [congruence|]. rewrite <- Ez in *. assert (Hn0 : 0 < n0) by (rewrite Ez in Hpos; exact (Forall_inv Hpos)).
  assert (Hra : vat (tab_ranges 0 (numbered 0 z)) 0 = Ok (0, n0)) by (rewrite Ez; reflexivity). rewrite Hra. cbn [bind fst].
  rewrite tab_ranges_length, numbered_length, Nat.eqb_refl. destruct (exists_last Hz) as (z1 & nl & El).
  assert (Hrb : match length z with O => Undef OobIndex | S b' => vat (tab_ranges 0 (numbered 0 z)) b' end = Ok (list_sum z1, nl)).
  { rewrite El, app_length. cbn [length]. rewrite Nat.add_1_r. unfold vat. rewrite numbered_app, tab_ranges_app, nth_error_app2 by (rewrite tab_ranges_length, numbered_length; lia). rewrite tab_ranges_length, numbered_length, Nat.sub_diag, numbered_size. reflexivity. }
  rewrite Hrb. cbn [bind fst]. rewrite skipn_all2 by (rewrite tab_ranges_length, numbered_length; lia). rewrite HR. destruct R as [|[a0 k0] R]; [congruence|]. cbn [rebase_ranges bind]. rewrite HO.
  destruct Hbl as (r & E1 & Er). assert (E2 : (0, 1) :: rebase_offsets (0, 1) (0, 1) r = O) by (rewrite (rebase_smooth 0 r Er); auto). rewrite E1. assert (Hb : vat (tab_offsets (numbered 0 z)) 0 = Ok (0, 1)) by (rewrite Ez; cbn [numbered tab_offsets flat_map fst snd]; destruct n0; [lia | reflexivity]).
  rewrite Hb. cbn [bind]. rewrite E2.
  assert (Hv : verase (tab_offsets (numbered 0 z)) 0 (list_sum z1) = Ok (tab_offsets (numbered (length z1) [nl]))).
  { rewrite El, numbered_app, tab_offsets_app. cbn [Nat.add]. replace (list_sum z1) with (length (@nil (nat * nat)) + length (tab_offsets (numbered 0 z1))) by (rewrite tab_offsets_length, numbered_size; reflexivity).
    exact (verase_mid [] (tab_offsets (numbered 0 z1)) (tab_offsets (numbered (length z1) [nl]))). }
  rewrite Hv. cbn [bind]. pose proof (vinsert_mid [] (tab_offsets (numbered (length z1) [nl])) O) as Hi. cbn [app length] in Hi. rewrite Hi. cbn [bind firstn app]. rewrite app_nil_r. eexists (tab_offsets (numbered (length z1) [nl])). rewrite E1. reflexivity.
Qed.

(** *** Extraction and positions *)
Lemma extract_smooth E av norm s text R O : s <> [] -> forallb valid_cp s = true -> no_added_token (av_trie_raw av) (flat_map utf16_enc s) ->
  run_norm E norm s = Ok (mkNs text R O) -> smooth0 O -> R <> [] -> text <> [] -> forallb valid_cp text = true -> no_added_token (av_trie_norm av) (flat_map utf16_enc text) ->
  exists junk, extract_and_normalize E av norm s = Ok (av_map_r av, mkPt (mkNs s (rebase_ranges 0 R) (O ++ junk)) [mkSplit (utf8_encs text) (0, units text) []]).
Proof.
  intros Hne Hv Hr Hn Hbl HR Htne Htv Hnn. unfold extract_and_normalize. rewrite fresh_numbered. unfold new_pretok. cbn [ns_text numbered_ns]. unfold convert_to_string at 1. rewrite Hv. cbn [bind pt_norm pt_splits].
  cbn [ns_text numbered_ns]. unfold convert_to_string at 1. rewrite Hv. cbn [bind].
  rewrite find_none by (rewrite from_utf8_encs by exact Hv; exact Hr). rewrite from_utf8_encs by exact Hv. fold (units s).
  assert (Hu : 0 < units s) by (pose proof (proj1 (units_0 s)); destruct (units s); [exfalso; auto | lia]).
  replace (0 =? units s) with false by lia. cbn [bind raw_splits]. rewrite substr_all by apply length_units. cbn [bind]. unfold convert_to_string at 1. rewrite Hv. cbn [bind normalize_splits sp_tokens sp_text sp_off fst snd].
  rewrite (proj2 (convert_from_string_iff _ s)) by (split; [reflexivity | exact Hv]). cbn [bind]. fold (run_norm E norm s). rewrite Hn. cbn [bind].
  destruct (transform_smooth (unit_sizes s) s (mkNs text R O) R O) as (junk & Hj).
  { intros E0. apply (f_equal (@length nat)) in E0. rewrite valid_unit_sizes in E0 by exact Hv. cbn in E0. lia. }
  { exact HR. }
  { apply unit_sizes_pos. }
  { exact Hbl. }
  { reflexivity. }
  { reflexivity. }
  rewrite valid_unit_sizes in Hj by exact Hv. replace (0 + units s - 0) with (units s) by lia. rewrite Hj. cbn [bind ns_text set_text].
  unfold convert_to_string at 1. rewrite Htv. cbn [bind]. rewrite find_none by (rewrite from_utf8_encs by exact Htv; exact Hnn). rewrite from_utf8_encs by exact Htv. fold (units text).
  assert (Hu' : 0 < units text) by (pose proof (proj1 (units_0 text)); destruct (units text); [exfalso; auto | lia]).
  replace (0 =? units text) with false by lia. cbn [bind norm_splits]. rewrite substr_all by apply length_units. cbn [bind]. unfold convert_to_string at 1. rewrite Htv. cbn [bind app].
  exists junk. rewrite !Nat.add_0_r. reflexivity.
Qed.
Lemma blocks_nth : forall bl b, b < list_sum (map snd bl) -> char_of_byte (map snd bl) b < length bl /\ nth_error (tab_offsets bl) b = nth_error (map fst bl) (char_of_byte (map snd bl) b).
Proof.
  induction bl as [|[o n] bl IH]; intros b H; [cbn in H; lia|]. cbn [map snd fst char_of_byte length tab_offsets flat_map]. cbn [map snd] in H. change (list_sum (n :: map snd bl)) with (n + list_sum (map snd bl)) in H. fold (tab_offsets bl). destruct (Nat.ltb_spec b n) as [Hb|Hb].
  - split; [lia|]. rewrite nth_error_app1 by (rewrite repeat_length; lia). rewrite nth_error_repeat by lia. reflexivity.
  - destruct (IH (b - n)) as [I1 I2]; [lia|]. split; [lia|]. rewrite nth_error_app2 by (rewrite repeat_length; lia). rewrite repeat_length. exact I2.
Qed.
Lemma tab_offsets_size bl : length (tab_offsets bl) = list_sum (map snd bl).
Proof. induction bl as [|[o n] bl IH]; [reflexivity|]. cbn [tab_offsets flat_map fst snd map]. fold (tab_offsets bl). rewrite app_length, repeat_length, IH. reflexivity. Qed.
Lemma block_base bl src R text junk j x hi ts : map fst bl = map (fun k => (k, S k)) src -> j < length R -> list_sum (firstn j (map snd R)) < list_sum (map snd bl) ->
  split_base (mkNs text (rebase_ranges 0 R) (tab_offsets bl ++ junk)) (mkSplit x (j, hi) ts) = Ok (reported src (map snd bl) (map snd R) j).
Proof.
  intros Hs Hj Hb. rewrite base_origin. unfold origin. cbn [ns_ranges ns_offsets sp_off fst]. destruct (rebase_nth R 0 j Hj) as (n & ->). cbn [Nat.add].
  rewrite nth_error_app1 by (rewrite tab_offsets_size; exact Hb). destruct (blocks_nth bl _ Hb) as [I1 I2]. rewrite I2, Hs, nth_error_map. unfold reported.
  assert (HL : length src = length bl) by (rewrite <- (map_length (fun k => (k, S k)) src), <- Hs, map_length; reflexivity). rewrite (nth_error_nth' src 0) by lia. reflexivity.
Qed.
Lemma prepare_smooth E t s n R O l : s <> [] -> forallb valid_cp s = true -> forallb valid_cp n = true -> n <> [] -> R <> [] -> smooth0 O -> nothing_added t s n -> run_norm E (tz_norm t) s = Ok (mkNs n R O) -> words_of E (tz_pre t) n l ->
  all_valid l /\ exists av junk q, prepare E t s = Ok (av, mkPt (mkNs s (rebase_ranges 0 R) (O ++ junk)) (map (fun p => mkSplit (utf8_encs (fst p)) (snd p) []) q)) /\ map (fun p : wstr * (nat * nat) => (fst (snd p), fst p)) q = l.
Proof.
  intros Hne Hv Hvn Hnn HR Hbl (av & Hav & H1 & H2) HN HW. destruct (extract_smooth E av (tz_norm t) s n R O Hne Hv H1 HN Hbl HR Hnn Hvn H2) as (junk & Hx).
  assert (Hprep : prepare E t s = (p2 <- match tz_pre t with Some pt => pre_tokenize E pt (mkPt (mkNs s (rebase_ranges 0 R) (O ++ junk)) [mkSplit (utf8_encs n) (0, units n) []]) | None => Ok (mkPt (mkNs s (rebase_ranges 0 R) (O ++ junk)) [mkSplit (utf8_encs n) (0, units n) []]) end ;; Ok (Some (set_map_r av (av_map_r av)), p2))).
  { unfold prepare. unfold new_pretok at 1. assert (Ht : ns_text (new_nstring s) = s) by (apply (fresh_packed s)). rewrite Ht. unfold convert_to_string. rewrite Hv. cbn [bind]. rewrite Hav, Hx. reflexivity. }
  unfold words_of in HW. assert (V0 : all_valid [(0, n)]) by (constructor; [exact Hvn | constructor]).
  assert (H0 : Forall2 holds [(0, n)] [mkSplit (utf8_encs n) (0, units n) []]) by (constructor; [repeat split | constructor]).
  destruct (tz_pre t) as [pt|].
  - destruct (pre_cuts E pt _ _ (mkNs s (rebase_ranges 0 R) (O ++ junk)) _ HW V0 H0) as (A & ss & B & C). rewrite B in Hprep. cbn [bind] in Hprep. destruct (holds_shape _ _ C) as (q & -> & Q). split; [exact A|]. eauto.
  - subst l. split; [exact V0|]. cbn [bind] in Hprep. eexists _, junk, [(n, (0, units n))]. split; [exact Hprep | reflexivity].
Qed.

(** *** The tables after the normalizer *)
Lemma padded_blocks : forall m z k, length m = length z -> map snd (pad_blocks m (numbered k z)) = padded_sizes is_chinese_char m z /\ map fst (pad_blocks m (numbered k z)) = map (fun k => (k, S k)) (spaced_src is_chinese_char m k).
Proof.
  induction m as [|c m IH]; intros [|n z] k H; cbn in H; try lia; [split; reflexivity|]. destruct (IH z (S k)) as [I1 I2]; [lia|]. cbn [numbered pad_blocks padded_sizes spaced_src]. destruct (is_chinese_char c); cbn [app map fst snd]; rewrite I1, I2; split; reflexivity.
Qed.
Lemma numbered_fst : forall z k, map fst (numbered k z) = map (fun k => (k, S k)) (seq k (length z)).
Proof. induction z as [|n z IH]; intros k; [reflexivity|]. cbn [numbered length seq map fst]. rewrite IH. reflexivity. Qed.
Lemma padded_sizes_ext f g m : (forall c, In c m -> f c = g c) -> forall z, padded_sizes f m z = padded_sizes g m z.
Proof. induction m as [|c m IH]; intros H [|n z]; try reflexivity. cbn [padded_sizes]. rewrite (H c) by (left; reflexivity). rewrite IH by (intros x Hx; apply H; right; exact Hx). reflexivity. Qed.
Lemma shrunk_parts E ps : Forall simple_piece ps -> forall R, length ps = length R -> map snd (shrunk E (after ps) (grown ps R)) = parts_counted (not_mark E) ps (map snd R).
Proof.
  induction 1 as [|[c p] ps Hp _ IH]; intros [|[st li] R] H; cbn in H; try lia; [reflexivity|].
  assert (HI : map snd (shrunk E (after ps) (grown ps R)) = parts_counted (not_mark E) ps (map snd R)) by (apply IH; lia).
  cbn [map snd parts_counted grown after concat]. fold (after ps). rewrite <- HI. destruct Hp as [Hp|(_ & x & y & Hp & _)]; cbn [snd fst] in *; subst p; unfold two; cbn [snd length Nat.eqb app shrunk filter]; unfold not_mark.
  - destruct (e_is_mn E c); reflexivity.
  - destruct (e_is_mn E x), (e_is_mn E y); reflexivity.
Qed.
Lemma strip_blocks E ps ns : ns_text ns = before ps -> forallb valid_cp (before ps) = true -> length (ns_ranges ns) = length ps -> Forall simple_piece ps -> e_norm E NFD (before ps) = Some (after ps) ->
  exists R, do_strip_accents E ns = Ok (mkNs (filter (not_mark E) (after ps)) R (ns_offsets ns)) /\ map snd R = parts_counted (not_mark E) ps (map snd (ns_ranges ns)).
Proof.
  intros Ht Hv HR Hp HN. set (s := before ps) in *.
  assert (Hfix : map fix_cp s = s). { rewrite <- (map_id s) at 2. apply map_ext_in. intros c Hc. unfold fix_cp. rewrite (proj1 (forallb_forall _ _) Hv c Hc). reflexivity. }
  unfold do_strip_accents, normalize_nf. rewrite Ht, Hfix, HN.
  pose proof (grow_ids_pieces ps Hp (length s) [] []) as HG. cbn [app length] in HG. fold s in HG. rewrite HG by (unfold s, before; rewrite map_length; lia).
  destruct (apply_grow_pieces ps ns [] (ns_ranges ns) 0 0) as (n1 & -> & H2 & H3 & H4); [reflexivity | lia | reflexivity|]. cbn [bind app] in *. cbn [set_text ns_text].
  destruct (apply_shrink_spec E (after ps) (set_text n1 (after ps)) [] (grown ps (ns_ranges ns)) 0 0) as (n2 & -> & H6 & H7 & H8).
  - exact H4.
  - rewrite grown_length by (assumption || lia). lia.
  - reflexivity.
  - cbn [bind app] in *. exists (ns_ranges n2). split; [unfold set_text at 1; rewrite H7; cbn [set_text ns_offsets]; rewrite H3; reflexivity|]. rewrite H8. apply shrunk_parts; [exact Hp | lia].
Qed.

Definition sized (c : N) (n : nat) : Prop := 0 < n /\ ((0x80 <= c)%N -> 2 <= n).
Lemma whitened_sized E cl s : Forall2 sized (whitened E cl s) (map width s).
Proof. unfold whitened. induction s as [|c s IH]; [constructor|]. cbn [map]. constructor; [|exact IH]. destruct (utf8_enc_width c) as [H1 H2]. destruct (cl && blank E c); split; auto; lia. Qed.
Lemma spaced_sized f m z : Forall2 sized m z -> Forall2 sized (spaced f m) (padded_sizes f m z).
Proof. induction 1 as [|c n m z H _ IH]; [constructor|]. cbn [spaced padded_sizes]. apply Forall2_app; [|exact IH]. destruct (f c); repeat constructor; try lia; apply H. Qed.
Lemma parts_length keep : forall ps z, length ps = length z -> length (parts_counted keep ps z) = length (filter keep (after ps)).
Proof. induction ps as [|p ps IH]; intros [|n z] H; cbn in H; try lia; [reflexivity|]. cbn [parts_counted after map concat]. fold (after ps). rewrite filter_app, !app_length, map_length, IH by lia. reflexivity. Qed.
Lemma parts_pos keep : forall ps z, Forall (fun n => 0 < n) z -> Forall (fun n => 0 < n) (parts_counted keep ps z).
Proof.
  induction ps as [|p ps IH]; intros [|n z] H; cbn [parts_counted]; try constructor. apply Forall_app. split; [|apply IH; exact (Forall_inv_tail H)].
  apply Forall_forall. intros k Hk. apply in_map_iff in Hk as (x & <- & _). pose proof (Forall_inv H) as Hn0. cbn beta in Hn0. destruct (snd p) as [|a [|b l]]; lia.
Qed.
Lemma part_le keep p n : simple_piece p -> sized (fst p) n -> list_sum (map (fun _ => match snd p with [_] => n | _ => 1 end) (filter keep (snd p))) <= n.
Proof.
  destruct p as [c l]. intros [H|(H & x & y & H1 & _)] [S1 S2]; cbn [fst snd] in *; subst l; cbn [filter].
  - destruct (keep c); cbn [map list_sum fold_right]; lia.
  - specialize (S2 H). destruct (keep x), (keep y); cbn [map list_sum fold_right]; lia.
Qed.
Lemma parts_le keep ps : Forall simple_piece ps -> forall z, Forall2 sized (before ps) z -> list_sum (parts_counted keep ps z) <= list_sum z.
Proof.
  induction 1 as [|p ps Hp _ IH]; intros z H; unfold before in H; cbn [map] in H; inversion H as [|? n ? z' Hn Hz]; subst; [cbn; lia|]. cbn [parts_counted]. rewrite list_sum_app. pose proof (part_le keep p n Hp Hn). specialize (IH z' Hz).
  change (list_sum (n :: z')) with (n + list_sum z'). lia.
Qed.
Lemma sized_pos m z : Forall2 sized m z -> Forall (fun n => 0 < n) z.
Proof. induction 1 as [|c n m z [H _] _ IH]; constructor; assumption. Qed.
Lemma sized_length m z : Forall2 sized m z -> length m = length z.
Proof. induction 1; cbn; congruence. Qed.
(** what is counted never exceeds what is there *)
Lemma stripped_bound E on lo m z n cnt : Forall2 sized m z -> stripped_to E on lo m z n cnt -> length cnt = length n /\ forall j, j < length n -> list_sum (firstn j cnt) < list_sum z.
Proof.
  intros HS H. pose proof (sized_pos _ _ HS) as Hpos. pose proof (sized_length _ _ HS) as HL. destruct H as [_|ps _ <- Hp HN].
  - split; [lia|]. intros j Hj. apply firstn_sum_lt; [exact Hpos | lia].
  - unfold before in HL. rewrite map_length in HL. assert (HC : length (parts_counted (not_mark E) ps z) = length (filter (not_mark E) (after ps))) by (apply parts_length; exact HL).
    assert (HLn : length (let kept := filter (fun c => negb (e_is_mn E c)) (after ps) in if lo then map (e_towlower E) kept else kept) = length (filter (not_mark E) (after ps))) by (cbn zeta; destruct lo; [apply map_length | reflexivity]).
    split; [etransitivity; [exact HC | symmetry; exact HLn]|]. intros j Hj. assert (Hj' : j < length (filter (not_mark E) (after ps))) by (rewrite <- HLn; exact Hj). eapply Nat.lt_le_trans; [|apply parts_le; [exact Hp | exact HS]]. apply firstn_sum_lt; [apply parts_pos; exact Hpos|]. exact (eq_ind_r (fun k => j < k) Hj' HC).
Qed.
Lemma bmp_widths s : bmp s -> forallb valid_cp s = true -> unit_sizes s = map width s.
Proof.
  intros Hb Hv. rewrite bmp_sizes by exact Hb. apply map_ext_in. intros c Hc. pose proof (proj1 (forallb_forall _ _) Hv c Hc) as Hvc. unfold fix_cp. rewrite Hvc. unfold width, utf8_of_cp. unfold valid_cp in Hvc. apply andb_prop in Hvc as [Hvc _]. destruct (is_surrogate c); [discriminate | reflexivity].
Qed.
Lemma whitened_bmp E cl s : bmp s -> bmp (whitened E cl s).
Proof. unfold bmp, whitened. intros H. apply Forall_map. eapply Forall_impl; [|exact H]. cbn beta. intros c Hc. destruct (cl && blank E c); lia. Qed.
Lemma whitened_valid E cl s : forallb valid_cp s = true -> forallb valid_cp (whitened E cl s) = true.
Proof. unfold whitened. induction s as [|c s IH]; [reflexivity|]. cbn [forallb map]. intros H. apply andb_prop in H as [H1 H2]. rewrite IH by exact H2. destruct (cl && blank E c); [reflexivity | rewrite H1; reflexivity]. Qed.
Lemma spaced_valid f m : forallb valid_cp m = true -> forallb valid_cp (spaced f m) = true.
Proof. induction m as [|c m IH]; [reflexivity|]. cbn [forallb spaced]. intros H. apply andb_prop in H as [H1 H2]. rewrite forallb_app, IH by exact H2. destruct (f c); cbn [forallb]; rewrite H1; reflexivity. Qed.
Lemma map_snd_ranges bl : forall a, map snd (tab_ranges a bl) = map snd bl.
Proof. induction bl as [|[o n] bl IH]; intros a; [reflexivity|]. cbn [tab_ranges map snd]. rewrite IH. reflexivity. Qed.
Lemma bert_blocks E cl ch st lo s n src z cnt : s <> [] -> bmp s -> forallb valid_cp s = true -> bert_steps E cl ch st lo s n src z cnt ->
  exists R bl, normalize E (NBert cl ch st lo) (new_nstring s) = Ok (mkNs n R (tab_offsets bl)) /\ map snd R = cnt /\ map snd bl = z /\ map fst bl = map (fun k => (k, S k)) src /\ gapless0 bl /\
    length cnt = length n /\ forall j, j < length n -> list_sum (firstn j cnt) < list_sum z.
Proof.
  intros Hne Hb Hv (Hcl & Hsrc & Hz & HS). cbn zeta in *. set (m := whitened E cl s) in *. cbn [normalize]. unfold bert_normalize.
  assert (Ht : ns_text (new_nstring s) = s) by (apply (fresh_packed s)).
  assert (HP : Packed (set_text (new_nstring s) m) (numbered 0 (map width s))).
  { rewrite fresh_numbered, bmp_widths by assumption. constructor; cbn [set_text numbered_ns ns_ranges ns_offsets]; [reflexivity | apply app_nil_r|]. apply (proj1 (Forall_map snd (fun n => 0 < n) _)). rewrite numbered_snd. exact (sized_pos _ _ (whitened_sized E cl s)). }
  assert (H1 : (if cl then do_clean_text E (new_nstring s) else Ok (new_nstring s)) = Ok (set_text (new_nstring s) m)).
  { unfold m, whitened. destruct cl; cbn [andb].
    - unfold do_clean_text. rewrite Ht. rewrite (clean_nothing E _ (new_nstring s) 0) by (eapply Forall_impl; [|apply Hcl; reflexivity]; cbn beta; intros c Hc; rewrite unwanted_ok; exact Hc). cbn [bind]. do 2 f_equal. apply map_ext. intros c. rewrite blank_ok. reflexivity.
    - rewrite map_id. transitivity (Ok (set_text (new_nstring s) (ns_text (new_nstring s)))); [rewrite set_text_same; reflexivity | rewrite Ht; reflexivity]. }
  rewrite H1. cbn [bind].
  assert (Hml : length m = length (map width s)) by (unfold m, whitened; rewrite !map_length; reflexivity).
  assert (Hwne : map width s <> []) by (destruct s; [congruence | discriminate]).
  pose proof (whitened_sized E cl s) as HSz. fold m in HSz.
  assert (H2 : exists n2 bl, (if ch then do_handle_chinese_chars (set_text (new_nstring s) m) else Ok (set_text (new_nstring s) m)) = Ok n2 /\ ns_text n2 = (if ch then spaced cjk m else m) /\ Packed n2 bl /\ map snd bl = z /\ map fst bl = map (fun k => (k, S k)) src /\ gapless0 bl /\ Forall2 sized (if ch then spaced cjk m else m) z).
  { destruct ch.
    - destruct (chinese_spec (set_text (new_nstring s) m) _ HP) as (n2 & A1 & A2 & A3); [cbn [set_text ns_text]; rewrite numbered_length; lia|]. cbn [set_text ns_text] in A2, A3. exists n2, (pad_blocks m (numbered 0 (map width s))).
      assert (Hcj : forall c, In c m -> is_chinese_char c = cjk c) by (intros c Hc; rewrite chinese_cjk; pose proof (proj1 (Forall_forall _ _) (whitened_bmp E cl s Hb) c Hc) as H; cbn beta in H; lia).
      destruct (padded_blocks m (map width s) 0 Hml) as [B1 B2]. rewrite (padded_sizes_ext _ _ _ Hcj) in B1. rewrite (spaced_src_ext _ _ _ Hcj) in B2. split; [exact A1|]. split; [rewrite A2; apply spaced_ext; exact Hcj|]. split; [exact A3|]. split; [congruence|]. split; [congruence|].
      split; [apply gapless0_padded; [exact Hwne | exact (sized_pos _ _ HSz)]|]. rewrite Hz. apply spaced_sized. exact HSz.
    - eexists _, _. split; [reflexivity|]. split; [reflexivity|]. split; [exact HP|]. split; [rewrite numbered_snd; congruence|]. split; [rewrite numbered_fst, map_length; congruence|]. split; [apply gapless0_numbered; [exact Hwne | exact (sized_pos _ _ HSz)]|]. rewrite Hz. exact HSz. }
  destruct H2 as (n2 & bl & -> & T2 & P2 & B1 & B2 & B3 & B4). cbn [bind]. pose proof (stripped_bound _ _ _ _ _ _ _ B4 HS) as HB. pose proof (sized_length _ _ B4) as HL.
  assert (Hmv : forallb valid_cp (if ch then spaced cjk m else m) = true) by (destruct ch; [apply spaced_valid|]; apply whitened_valid; exact Hv).
  destruct HS as [Hoff|ps Hon Hbe Hp HN].
  - apply orb_false_elim in Hoff as [Es El]. subst st lo. cbn [orb bind]. exists (ns_ranges n2), bl. destruct P2 as [Q1 Q2 _]. split; [rewrite <- T2, <- Q2; destruct n2; reflexivity|]. split; [rewrite Q1, map_snd_ranges; exact B1|]. auto.
  - rewrite Hon. destruct P2 as [Q1 Q2 _]. assert (Hmv' : forallb valid_cp (before ps) = true) by (rewrite Hbe; exact Hmv). assert (T2' : ns_text n2 = before ps) by (rewrite Hbe; exact T2). assert (HN' : e_norm E NFD (before ps) = Some (after ps)) by (rewrite Hbe; exact HN). assert (HL' : length (before ps) = length z) by (rewrite Hbe; exact HL).
    destruct (strip_blocks E ps n2 T2' Hmv') as (R & R1 & R2); [rewrite Q1, tab_ranges_length; rewrite <- (map_length snd bl), B1, <- HL'; unfold before; apply map_length | exact Hp | exact HN'|].
    rewrite R1. cbn [bind]. rewrite Q1, map_snd_ranges, B1 in R2. exists R, bl. rewrite <- Q2. split; [destruct lo; reflexivity|]. auto.
Qed.

(** ** C104 *)
(** Every BERT tokenizer (WordPiece, any flags, any cutting pre-tokenizer) encodes a text with no added token and nothing to delete word by word over its normalization, and reports a
    word at position [j] of the normalization at [reported src z cnt j]. *)
Theorem C104_bert_offsets : forall E fuel t w cl ch st lo s n src z cnt l add, tz_model t = Some (MWordPiece w) -> tz_norm t = Some (NBert cl ch st lo) ->
  s <> [] -> bmp s -> forallb valid_cp s = true -> bert_steps E cl ch st lo s n src z cnt -> n <> [] -> forallb valid_cp n = true -> nothing_added t s n ->
  words_of E (tz_pre t) n l -> Forall (fun p => fst p < length n) l ->
  exists r, snd (encode E fuel (bare t) s add) = Ok r /\ en_overflowing r = [] /\ flat_parallel r /\
    rows_of_words (word_tokens w) 0 (map (fun p => (reported src z cnt (fst p), snd p)) l) (rows r).
Proof.
  intros E fuel t w cl ch st lo s n src z cnt l add Hm Hno Hs0 Hb Hv HS Hne Hvn Ha HW HP.
  destruct (bert_blocks E cl ch st lo s n src z cnt Hs0 Hb Hv HS) as (R & bl & HR & R1 & R2 & R3 & R4 & R5 & R6).
  assert (HL : length R = length n) by (rewrite <- R5, <- R1, map_length; reflexivity).
  assert (HRne : R <> []) by (intros ->; destruct n; [congruence | discriminate]).
  destruct (prepare_smooth E t s n R _ l Hs0 Hv Hvn Hne HRne (smooth0_gapless _ R4) Ha) as (A & av & junk & q & Q1 & <-); [rewrite Hno; exact HR | exact HW|].
  rewrite encode_bare. unfold text_encoding. rewrite Q1. cbn [bind]. rewrite Hm. cbn [model_tokenize snd].
  set (ns := mkNs s (rebase_ranges 0 R) (tab_offsets bl ++ junk)).
  destruct (wp_tokenize_ok w (mkPt ns (map (fun p => mkSplit (utf8_encs (fst p)) (snd p) []) q))) as (out & Hl & HF). cbn [pt_splits pt_norm] in HF, Hl. rewrite Hl. cbn [bind]. unfold into_encoding. cbn [pt_norm pt_splits].
  destruct (wp_rows_at w ns (reported src z cnt) q out 0 A HF) as (e & E1 & E2).
  { intros x [j hi] ts Hin. cbn [fst]. assert (Hj : j < length n) by (apply (proj1 (Forall_forall _ _) HP (j, x)); apply in_map_iff; exists (x, (j, hi)); auto).
    unfold ns. rewrite (block_base bl src R s junk j x hi ts R3); [rewrite R1, R2; reflexivity | lia|]. rewrite R1, R2. apply R6. exact Hj. }
  exists e. split; [exact E1|]. destruct (into_rows_flat _ _ _ _ _ E1) as [F1 F2]. split; [exact F2|]. split; [exact F1|]. rewrite map_map. exact E2.
Qed.
Print Assumptions C104_bert_offsets.

(** *** When the reported position is the true one *)
Lemma char_of_byte_mono : forall z a b, a <= b -> char_of_byte z a <= char_of_byte z b.
Proof. induction z as [|n z IH]; intros a b H; [reflexivity|]. cbn [char_of_byte]. destruct (Nat.ltb_spec a n), (Nat.ltb_spec b n); try lia. apply le_n_S, IH. lia. Qed.
Lemma char_of_prefix : forall z j, Forall (fun n => 0 < n) z -> j < length z -> char_of_byte z (list_sum (firstn j z)) = j.
Proof.
  induction z as [|n z IH]; intros j Hz Hj; cbn [length] in Hj; [lia|]. pose proof (Forall_inv Hz) as Hn. cbn beta in Hn. destruct j as [|j]; cbn [firstn char_of_byte]; [change (list_sum []) with 0; replace (0 <? n) with true by lia; reflexivity|].
  change (list_sum (n :: firstn j z)) with (n + list_sum (firstn j z)). replace (n + list_sum (firstn j z) <? n) with false by lia. f_equal. replace (n + list_sum (firstn j z) - n) with (list_sum (firstn j z)) by lia. apply IH; [exact (Forall_inv_tail Hz) | lia].
Qed.
(** A cased tokenizer: the source of the character. *)
Theorem C104_cased : forall E cl ch s n src z cnt j, bert_steps E cl ch false false s n src z cnt -> j < length n -> reported src z cnt j = nth j src 0.
Proof.
  intros E cl ch s n src z cnt j (_ & Hsrc & Hz & HS) Hj. cbn zeta in *.
  assert (HSz : Forall2 sized (if ch then spaced cjk (whitened E cl s) else whitened E cl s) z) by (rewrite Hz; destruct ch; [apply spaced_sized|]; apply whitened_sized).
  pose proof (sized_length _ _ HSz) as HL. pose proof (sized_pos _ _ HSz) as Hpos. assert (K : n = (if ch then spaced cjk (whitened E cl s) else whitened E cl s) /\ cnt = z) by (inversion HS as [_|]; [auto | discriminate]). destruct K as [-> ->]. unfold reported. rewrite char_of_prefix; [reflexivity | exact Hpos | rewrite <- HL; exact Hj].
Qed.
Print Assumptions C104_cased.
(** all bytes of the character are counted for its kept parts *)
Definition all_counted (keep : N -> bool) (p : N * wstr) (n : nat) : Prop := list_sum (map (fun _ => match snd p with [_] => n | _ => 1 end) (filter keep (snd p))) = n.
Lemma firstn_lt_sum (l : list nat) j : Forall (fun n => 0 < n) l -> j < length l -> list_sum (firstn j l) < list_sum l.
Proof. apply firstn_sum_lt. Qed.
Lemma counted_exact keep : forall ps z k, Forall (fun n => 0 < n) z -> Forall2 (all_counted keep) ps z -> forall j, j < length (parts_counted keep ps z) ->
  nth j (kept_src keep ps k) 0 = k + char_of_byte z (list_sum (firstn j (parts_counted keep ps z))).
Proof.
  intros ps z k Hz H. revert k. induction H as [|[c p] n ps z Hp _ IH]; intros k j Hj; cbn [parts_counted kept_src snd] in *; [cbn in Hj; lia|]. unfold all_counted in Hp. cbn [snd] in Hp.
  pose proof (Forall_inv Hz) as Hn. cbn beta in Hn. remember (filter keep p) as fl. set (h := fun _ : N => match p with [_] => n | _ => 1 end) in *. rewrite app_length, map_length in Hj.
  assert (Hh : Forall (fun n => 0 < n) (map h fl)) by (apply Forall_map, Forall_forall; intros x _; unfold h; destruct p as [|a [|b p]]; lia).
  cbn [char_of_byte]. destruct (Nat.lt_ge_cases j (length fl)) as [Hlt|Hge].
  - rewrite app_nth1 by (rewrite map_length; lia). rewrite firstn_app, map_length. replace (j - length fl) with 0 by lia. cbn [firstn]. rewrite app_nil_r. pose proof (firstn_sum_lt (map h fl) j Hh) as Hs. rewrite map_length in Hs. specialize (Hs Hlt). rewrite Hp in Hs. replace (_ <? n) with true by lia.
    rewrite Nat.add_0_r. rewrite (nth_indep _ 0 k) by (rewrite map_length; lia). clear - Hlt. revert j Hlt. induction fl as [|x fl IH]; intros [|j] H; cbn in *; try lia. apply IH. lia.
  - rewrite app_nth2 by (rewrite map_length; lia). rewrite map_length, firstn_app, map_length, list_sum_app, firstn_all2 by (rewrite map_length; lia). rewrite Hp. destruct (Nat.ltb_spec (n + list_sum (firstn (j - length fl) (parts_counted keep ps z))) n); [lia|]. rewrite (IH (Forall_inv_tail Hz) (S k)) by lia.
    replace (n + list_sum (firstn (j - length fl) (parts_counted keep ps z)) - n) with (list_sum (firstn (j - length fl) (parts_counted keep ps z))) by lia. lia.
Qed.
(** Never to the right of the true position; the true position when no character loses bytes. *)
Lemma counted_left keep ps : Forall simple_piece ps -> forall z k, Forall2 sized (before ps) z -> forall j, j < length (parts_counted keep ps z) -> k + char_of_byte z (list_sum (firstn j (parts_counted keep ps z))) <= nth j (kept_src keep ps k) 0.
Proof.
  induction 1 as [|[c p] ps Hp _ IH]; intros z k HS j Hj; unfold before in HS; cbn [map fst] in HS; inversion HS as [|? n ? z' Hn Hz]; subst; cbn [parts_counted kept_src snd] in *; [cbn in Hj; lia|].
  pose proof (part_le keep (c, p) n Hp Hn) as Hle. cbn [snd fst] in Hle. remember (filter keep p) as fl. set (h := fun _ : N => match p with [_] => n | _ => 1 end) in *. rewrite app_length, map_length in Hj. destruct Hn as [Hn _].
  assert (Hh : Forall (fun n => 0 < n) (map h fl)) by (apply Forall_map, Forall_forall; intros x _; unfold h; destruct p as [|a [|b p]]; lia).
  cbn [char_of_byte]. destruct (Nat.lt_ge_cases j (length fl)) as [Hlt|Hge].
  - rewrite app_nth1 by (rewrite map_length; lia). rewrite firstn_app, map_length. replace (j - length fl) with 0 by lia. cbn [firstn]. rewrite app_nil_r. pose proof (firstn_sum_lt (map h fl) j Hh) as Hs. rewrite map_length in Hs. specialize (Hs Hlt). replace (_ <? n) with true by lia.
    rewrite Nat.add_0_r. rewrite (nth_indep _ 0 k) by (rewrite map_length; lia). clear - Hlt. revert j Hlt. induction fl as [|x fl IH]; intros [|j] H; cbn in *; try lia. apply IH. lia.
  - rewrite app_nth2 by (rewrite map_length; lia). rewrite map_length, firstn_app, map_length, list_sum_app, firstn_all2 by (rewrite map_length; lia). specialize (IH z' (S k) Hz (j - length fl) ltac:(lia)).
    destruct (Nat.ltb_spec (list_sum (map h fl) + list_sum (firstn (j - length fl) (parts_counted keep ps z'))) n); [lia|].
    pose proof (char_of_byte_mono z' (list_sum (map h fl) + list_sum (firstn (j - length fl) (parts_counted keep ps z')) - n) (list_sum (firstn (j - length fl) (parts_counted keep ps z')))) as Hmono. lia.
Qed.
Lemma src_mono f : forall m k i j, i <= j -> j < length (spaced_src f m k) -> nth i (spaced_src f m k) 0 <= nth j (spaced_src f m k) 0 /\ k <= nth i (spaced_src f m k) 0.
Proof.
  induction m as [|c m IH]; intros k i j Hij Hj; cbn [spaced_src] in *; [cbn in Hj; lia|]. destruct (f c); cbn [app length] in *.
  - destruct i as [|[|[|i]]], j as [|[|[|j]]]; cbn [nth]; try lia; try (destruct (IH (S k) j j ltac:(lia) ltac:(lia)); lia). destruct (IH (S k) i j ltac:(lia) ltac:(lia)). lia.
  - destruct i as [|i], j as [|j]; cbn [nth]; try lia; [destruct (IH (S k) j j ltac:(lia) ltac:(lia)); lia|]. destruct (IH (S k) i j ltac:(lia) ltac:(lia)). lia.
Qed.
Lemma kept_src_lt keep : forall ps k j, j < length (kept_src keep ps k) -> nth j (kept_src keep ps k) 0 < k + length ps.
Proof.
  induction ps as [|[c p] ps IH]; intros k j H; cbn [kept_src length] in *; [lia|]. rewrite app_length, map_length in H. destruct (Nat.lt_ge_cases j (length (filter keep p))) as [Hl|Hl].
  - rewrite app_nth1 by (rewrite map_length; lia). rewrite (nth_indep _ 0 k) by (rewrite map_length; lia). assert (E : nth j (map (fun _ : N => k) (filter keep p)) k = k); [|lia]. clear. revert j. induction (filter keep p) as [|x l IH]; intros [|j]; cbn; auto.
  - rewrite app_nth2, map_length by (rewrite map_length; lia). specialize (IH (S k) (j - length (filter keep p))). lia.
Qed.
Lemma kept_length keep : forall ps k, length (kept_src keep ps k) = length (filter keep (after ps)).
Proof. induction ps as [|[c p] ps IH]; intros k; [reflexivity|]. cbn [kept_src after map concat snd]. fold (after ps). rewrite filter_app, !app_length, map_length, IH. reflexivity. Qed.
Lemma spaced_src_length f : forall m k, length (spaced_src f m k) = length (spaced f m).
Proof. induction m as [|c m IH]; intros k; [reflexivity|]. cbn [spaced_src spaced]. rewrite !app_length, IH. destruct (f c); reflexivity. Qed.
Theorem C104_uncased : forall E cl ch st lo s n src z cnt ps j, bert_steps E cl ch st lo s n src z cnt -> st || lo = true ->
  before ps = (if ch then spaced cjk (whitened E cl s) else whitened E cl s) -> Forall simple_piece ps -> e_norm E NFD (before ps) = Some (after ps) -> j < length n ->
  let keep c := negb (e_is_mn E c) in let true_source := nth (nth j (kept_src keep ps 0) 0) src 0 in
  reported src z cnt j <= true_source /\ (Forall2 (all_counted keep) ps z -> reported src z cnt j = true_source).
Proof.
  intros E cl ch st lo s n src z cnt ps j (_ & Hsrc & Hz & HS) Hon Hbe Hp HN Hj keep true_source. cbn zeta in *.
  assert (HSz : Forall2 sized (if ch then spaced cjk (whitened E cl s) else whitened E cl s) z) by (rewrite Hz; destruct ch; [apply spaced_sized|]; apply whitened_sized).
  assert (HSb : Forall2 sized (before ps) z) by (rewrite Hbe; exact HSz). pose proof (sized_length _ _ HSb) as HL.
  pose proof (stripped_bound _ _ _ _ _ _ _ HSz HS) as [HB _].
  assert (Hcnt : cnt = parts_counted keep ps z).
  { inversion HS as [Hoff|ps' _ Hbe' Hp' HN']; [congruence|]. subst cnt. assert (ps' = ps); [|subst; reflexivity].
    rewrite <- Hbe in Hbe', HN'. rewrite HN in HN'. injection HN' as HA. clear - Hp Hp' Hbe' HA. revert ps Hp Hbe' HA. induction Hp' as [|[c' p'] ps' Q' _ IH]; intros [|[c p] ps] Hp Hbe HA; try discriminate; [reflexivity|]. unfold before, after in *. cbn [map fst snd concat] in *. injection Hbe as -> Hbe.
    pose proof (Forall_inv Hp) as Q. destruct Q' as [Q'|(_ & x' & y' & Q' & N')], Q as [Q|(_ & x & y & Q & N)]; cbn [fst snd] in *; subst p' p; cbn [app] in HA; injection HA; intros; subst; try congruence.
    - f_equal. apply IH; [exact (Forall_inv_tail Hp) | exact Hbe | congruence].
    - f_equal. apply IH; [exact (Forall_inv_tail Hp) | exact Hbe | congruence]. }
  assert (Hjc : j < length (parts_counted keep ps z)) by (rewrite <- Hcnt; lia). unfold before in HL. rewrite map_length in HL.
  assert (Hks : nth j (kept_src keep ps 0) 0 < length src).
  { assert (HK : nth j (kept_src keep ps 0) 0 < 0 + length ps) by (apply kept_src_lt; rewrite kept_length, <- (parts_length keep ps z HL); exact Hjc).
    assert (length src = length ps); [|lia]. rewrite HL, <- (sized_length _ _ HSz), Hsrc. destruct ch; [apply spaced_src_length|]. unfold whitened. rewrite seq_length, map_length. reflexivity. }
  unfold reported, true_source. rewrite Hcnt. split.
  - pose proof (counted_left keep ps Hp z 0 HSb j Hjc) as Hle. cbn [Nat.add] in Hle. rewrite Hsrc in Hks |- *. destruct ch.
    + apply src_mono; [exact Hle | exact Hks].
    + rewrite seq_length in Hks. rewrite !seq_nth by lia. exact Hle.
  - intros Hall. rewrite (counted_exact keep ps z 0 (sized_pos _ _ HSb) Hall j Hjc). reflexivity.
Qed.
Print Assumptions C104_uncased.

(** A Chinese character, "a", a space and "a": padding does not disturb the offsets, with or without accent stripping. *)
Definition zh_wp := mkWp [(str "a", 2%Z); (utf8_enc 0x4E2D, 3%Z); (str "[UNK]", 0%Z)] (str "[UNK]") 100%Z (str "##").
Definition zh_tz (b : bool) := mkTz None None (Some (new_added_vocab [])) (Some (NBert true true b b)) (Some TBert) (Some (MWordPiece zh_wp)) None None.
Definition zh_text : wstr := [0x4E2D; 97; 32; 97]%N.
Definition zh_norm : wstr := [32; 0x4E2D; 32; 97; 32; 97]%N.
Example C104_case : forall b,
  bmp zh_text /\ forallb valid_cp zh_text = true /\ bert_steps test_env true true b b zh_text zh_norm [0; 0; 0; 1; 2; 3] [1; 3; 1; 1; 1; 1] [1; 3; 1; 1; 1; 1] /\ nothing_added (zh_tz b) zh_text zh_norm /\
  words_of test_env (Some TBert) zh_norm [(1, [0x4E2D%N]); (3, str "a"); (5, str "a")] /\ map (reported [0; 0; 0; 1; 2; 3] [1; 3; 1; 1; 1; 1] [1; 3; 1; 1; 1; 1]) [1; 3; 5] = [0; 1; 3] /\
  exists r, snd (encode test_env 10 (zh_tz b) zh_text false) = Ok r /\ en_ids r = [3; 2; 2]%Z /\ en_offsets r = [(0, 1); (1, 2); (3, 4)].
Proof.
  intros b. split; [repeat constructor|]. split; [reflexivity|]. split.
  { split; [intros _; repeat (constructor; [vm_compute; reflexivity|]); constructor|]. split; [reflexivity|]. split; [reflexivity|]. destruct b; [|apply st_off; reflexivity].
    apply (st_on test_env true true zh_norm [1; 3; 1; 1; 1; 1] (map (fun c => (c, [c])) zh_norm)); [reflexivity | reflexivity | repeat (constructor; [left; reflexivity|]); constructor | reflexivity]. }
  split; [exists (new_added_vocab []); split; [reflexivity|]; split; intros x y i _ _ Hin; destruct Hin|]. split.
  { exists [[(1, [0x4E2D%N]); (3, str "a"); (5, str "a")]]. split; [|reflexivity]. constructor; [|constructor]. cbn [fst snd]. apply bs_space; [reflexivity|].
    apply (bs_word _ _ 1 [0x4E2D%N] [32; 97; 32; 97]%N); [discriminate | constructor; [split; reflexivity | constructor] | left; reflexivity|]. apply bs_space; [reflexivity|].
    apply (bs_word _ _ 3 (str "a") [32; 97]%N); [discriminate | constructor; [split; reflexivity | constructor] | left; reflexivity|]. apply bs_space; [reflexivity|].
    apply (bs_word _ _ 5 (str "a") []); [discriminate | constructor; [split; reflexivity | constructor] | exact I | constructor]. }
  split; [reflexivity|]. destruct b; (eexists; split; [vm_compute; reflexivity|]; split; reflexivity).
Qed.

(** With a pre-tokenizer that cuts every text and keeps its characters, such as BERT's, every such text is encoded. *)
Theorem C104_total : forall E fuel t w cl ch st lo s n src z cnt add, tz_model t = Some (MWordPiece w) -> tz_norm t = Some (NBert cl ch st lo) ->
  s <> [] -> bmp s -> forallb valid_cp s = true -> bert_steps E cl ch st lo s n src z cnt -> n <> [] -> bmp n -> forallb valid_cp n = true -> nothing_added t s n ->
  (forall p, tz_pre t = Some p -> cuttable E p /\ keeps_characters E p) -> exists r, snd (encode E fuel (bare t) s add) = Ok r.
Proof.
  intros E fuel t w cl ch st lo s n src z cnt add Hm Hno Hs0 Hb Hv HS Hne Hbn Hvn Ha Hpre. destruct (C95_words E (tz_pre t) n (fun p Hp => proj1 (Hpre p Hp)) Hvn) as (l & Hl & _).
  pose proof (C95_inside E (tz_pre t) n l Hne (fun p Hp => proj2 (Hpre p Hp)) Hl) as HI.
  destruct (C104_bert_offsets E fuel t w cl ch st lo s n src z cnt l add Hm Hno Hs0 Hb Hv HS Hne Hvn Ha Hl) as (r & Hr & _); [|exists r; exact Hr].
  eapply Forall_impl; [|exact HI]. intros [pos x] (_ & H & _). cbn [fst] in *. unfold units in H. rewrite bmp_utf16 in H by exact Hbn. exact H.
Qed.
Print Assumptions C104_total.

(** ** C105: a text that normalizes to nothing *)
(** The normalizer left no character and no table entry: every word of the text itself (it is kept as it was) makes encode read outside the alignment table. *)
Lemma extract_nothing E av norm s offs : s <> [] -> forallb valid_cp s = true -> no_added_token (av_trie_raw av) (flat_map utf16_enc s) -> run_norm E norm s = Ok (mkNs [] [] offs) -> no_added_token (av_trie_norm av) [] ->
  exists offs', extract_and_normalize E av norm s = Ok (av_map_r av, mkPt (mkNs s [] offs') [mkSplit (utf8_encs s) (0, units s) []]).
Proof.
  intros Hne Hv Hr Hn Hnn. unfold extract_and_normalize. rewrite fresh_numbered. unfold new_pretok. cbn [ns_text numbered_ns]. unfold convert_to_string at 1. rewrite Hv. cbn [bind pt_norm pt_splits].
  cbn [ns_text numbered_ns]. unfold convert_to_string at 1. rewrite Hv. cbn [bind].
  rewrite find_none by (rewrite from_utf8_encs by exact Hv; exact Hr). rewrite from_utf8_encs by exact Hv. fold (units s).
  assert (Hu : 0 < units s) by (pose proof (proj1 (units_0 s)); destruct (units s); [exfalso; auto | lia]).
  replace (0 =? units s) with false by lia. cbn [bind raw_splits]. rewrite substr_all by apply length_units. cbn [bind]. unfold convert_to_string at 1. rewrite Hv. cbn [bind normalize_splits sp_tokens sp_text sp_off fst snd].
  rewrite (proj2 (convert_from_string_iff _ s)) by (split; [reflexivity | exact Hv]). cbn [bind]. fold (run_norm E norm s). rewrite Hn. cbn [bind].
  assert (Hj : exists offs', transform_range (numbered_ns (unit_sizes s) [] s) (0, units s) (mkNs [] [] offs) = Ok (mkNs s [] offs')).
  { pose proof (valid_unit_sizes s Hv) as HL. pose proof (unit_sizes_pos s) as Hpos. set (z := unit_sizes s) in *. unfold transform_range, numbered_ns. cbn [ns_ranges ns_offsets ns_text]. rewrite app_nil_r.
    destruct z as [|n0 z0] eqn:Ez; [cbn in HL; lia|]. rewrite <- Ez in *. assert (Hn0 : 0 < n0) by (rewrite Ez in Hpos; exact (Forall_inv Hpos)).
    assert (Hra : vat (tab_ranges 0 (numbered 0 z)) 0 = Ok (0, n0)) by (rewrite Ez; reflexivity). rewrite Hra. cbn [bind fst]. rewrite <- HL, tab_ranges_length, numbered_length, Nat.eqb_refl. assert (Hz : z <> []) by (rewrite Ez; discriminate). destruct (exists_last Hz) as (z1 & nl & El).
    assert (Hrb : match length z with O => Undef OobIndex | S b' => vat (tab_ranges 0 (numbered 0 z)) b' end = Ok (list_sum z1, nl)).
    { rewrite El, app_length. cbn [length]. rewrite Nat.add_1_r. unfold vat. rewrite numbered_app, tab_ranges_app, nth_error_app2 by (rewrite tab_ranges_length, numbered_length; lia). rewrite tab_ranges_length, numbered_length, Nat.sub_diag, numbered_size. reflexivity. }
    rewrite Hrb. cbn [bind fst rebase_ranges]. rewrite skipn_all2 by (rewrite tab_ranges_length, numbered_length; lia). cbn [rebase_ranges bind last].
    assert (Hb : vat (tab_offsets (numbered 0 z)) 0 = Ok (0, 1)) by (rewrite Ez; cbn [numbered tab_offsets flat_map fst snd]; destruct n0; [lia | reflexivity]).
    assert (Hv' : verase (tab_offsets (numbered 0 z)) 0 (list_sum z1) = Ok (tab_offsets (numbered (length z1) [nl]))).
    { rewrite El, numbered_app, tab_offsets_app. cbn [Nat.add]. replace (list_sum z1) with (length (@nil (nat * nat)) + length (tab_offsets (numbered 0 z1))) by (rewrite tab_offsets_length, numbered_size; reflexivity).
      exact (verase_mid [] (tab_offsets (numbered 0 z1)) (tab_offsets (numbered (length z1) [nl]))). }
    assert (Hx : exists x, match offs with [] => Ok [] | o :: r => base <- vat (tab_offsets (numbered 0 z)) 0 ;; Ok (base :: rebase_offsets o base r) end = Ok x) by (destruct offs; [eauto | rewrite Hb; cbn [bind]; eauto]).
    destruct Hx as (x & ->). cbn [bind]. rewrite Hv'. cbn [bind]. pose proof (vinsert_mid [] (tab_offsets (numbered (length z1) [nl])) x) as Hi. cbn [app length] in Hi. rewrite Hi. cbn [bind firstn app]. eauto. }
  destruct Hj as (offs' & Hj). replace (0 + units s - 0) with (units s) by lia. rewrite Hj. cbn [bind ns_text].
  change (convert_to_string []) with (@Ok bytes []). cbn [bind]. rewrite find_none by exact Hnn. cbn [from_utf8]. change (0 =? length (from_utf8 [])) with true. cbv iota. cbn [bind norm_splits app]. exists offs'. reflexivity.
Qed.
Theorem C105_nothing_left : forall E fuel t w s offs l add, tz_model t = Some (MWordPiece w) -> s <> [] -> forallb valid_cp s = true -> nothing_added t s [] ->
  run_norm E (tz_norm t) s = Ok (mkNs [] [] offs) -> words_of E (tz_pre t) s l ->
  (l <> [] -> snd (encode E fuel t s add) = Undef OobIndex) /\ (l = [] -> exists r, snd (encode E fuel (bare t) s add) = Ok r /\ en_ids r = []).
Proof.
  intros E fuel t w s offs l add Hm Hne Hv (av & Hav & H1 & H2) HN HW. destruct (extract_nothing E av (tz_norm t) s offs Hne Hv H1 HN H2) as (offs' & Hx).
  assert (K : all_valid l /\ exists av' q, prepare E t s = Ok (av', mkPt (mkNs s [] offs') (map (fun p => mkSplit (utf8_encs (fst p)) (snd p) []) q)) /\ map (fun p : wstr * (nat * nat) => (fst (snd p), fst p)) q = l).
  { assert (Hprep : prepare E t s = (p2 <- match tz_pre t with Some pt => pre_tokenize E pt (mkPt (mkNs s [] offs') [mkSplit (utf8_encs s) (0, units s) []]) | None => Ok (mkPt (mkNs s [] offs') [mkSplit (utf8_encs s) (0, units s) []]) end ;; Ok (Some (set_map_r av (av_map_r av)), p2))).
    { unfold prepare. unfold new_pretok at 1. assert (Ht : ns_text (new_nstring s) = s) by (apply (fresh_packed s)). rewrite Ht. unfold convert_to_string. rewrite Hv. cbn [bind]. rewrite Hav, Hx. reflexivity. }
    unfold words_of in HW. assert (V0 : all_valid [(0, s)]) by (constructor; [exact Hv | constructor]).
    assert (H0 : Forall2 holds [(0, s)] [mkSplit (utf8_encs s) (0, units s) []]) by (constructor; [repeat split | constructor]).
    destruct (tz_pre t) as [pt|].
    - destruct (pre_cuts E pt _ _ (mkNs s [] offs') _ HW V0 H0) as (A & ss & B & C). rewrite B in Hprep. cbn [bind] in Hprep. destruct (holds_shape _ _ C) as (q & -> & Q). split; [exact A|]. eauto.
    - subst l. split; [exact V0|]. cbn [bind] in Hprep. eexists _, [(s, (0, units s))]. split; [exact Hprep | reflexivity]. }
  destruct K as (A & av' & q & Q1 & <-). rewrite encode_stages, encode_bare. unfold text_encoding. rewrite Q1. cbn [bind]. rewrite Hm. cbn [model_tokenize snd].
  destruct (wp_tokenize_ok w (mkPt (mkNs s [] offs') (map (fun p => mkSplit (utf8_encs (fst p)) (snd p) []) q))) as (out & Hl & HF). cbn [pt_splits pt_norm] in HF, Hl. rewrite Hl. cbn [bind]. unfold into_encoding. cbn [pt_norm pt_splits]. destruct q as [|[x o] q]; cbn [map] in HF |- *.
  - inversion HF; subst out. split; [intros H; exfalso; apply H; reflexivity|]. intros _. eexists. split; reflexivity.
  - inversion HF as [|? s' ? out' (A1 & A2 & A3) HF']; subst. split; [intros _ | discriminate]. cbn [into_rows]. rewrite base_origin. unfold origin. cbn [ns_ranges]. rewrite (proj2 (nth_error_None [] _)) by (cbn; lia). reflexivity.
Qed.
Print Assumptions C105_nothing_left.

(** A text made only of accents: an accent-stripping BERT tokenizer reads outside its table as soon as the text has a word. *)
Theorem C105_only_accents : forall E fuel t w cl ch st lo s src z cnt l add, tz_model t = Some (MWordPiece w) -> tz_norm t = Some (NBert cl ch st lo) ->
  s <> [] -> bmp s -> forallb valid_cp s = true -> bert_steps E cl ch st lo s [] src z cnt -> nothing_added t s [] -> words_of E (tz_pre t) s l -> l <> [] ->
  snd (encode E fuel t s add) = Undef OobIndex.
Proof.
  intros E fuel t w cl ch st lo s src z cnt l add Hm Hno Hne Hb Hv HS Ha HW Hl. destruct (bert_blocks E cl ch st lo s [] src z cnt Hne Hb Hv HS) as (R & bl & HR & R1 & _ & _ & _ & R5 & _).
  assert (HR0 : R = []) by (destruct R; [reflexivity|]; rewrite <- R1 in R5; discriminate). subst R.
  refine (proj1 (C105_nothing_left E fuel t w s _ l add Hm Hne Hv Ha _ HW) Hl). rewrite Hno. cbn [run_norm]. exact HR.
Qed.
Print Assumptions C105_only_accents.

(** One character that text cleaning deletes (NUL, U+FFFD, a control character). *)
Lemma one_deleted E c ch st lo : (c < 0x10000)%N -> valid_cp c = true -> removed_by_clean E c = true -> (st || lo = true -> e_norm E NFD [] = Some []) ->
  normalize E (NBert true ch st lo) (new_nstring [c]) = Ok (mkNs [] [] []).
Proof.
  intros Hc Hv Hr HN. rewrite fresh_numbered, bmp_widths by (try (constructor; [exact Hc | constructor]); cbn [forallb]; rewrite Hv; reflexivity).
  cbn [normalize]. unfold bert_normalize, do_clean_text. cbn [numbered_ns ns_text clean_loop map]. rewrite Hr.
  assert (HT : forall n, transform (numbered_ns [n] [] [c]) 0 OpErase = Ok (mkNs [c] [] [])).
  { intros n. unfold transform, numbered_ns. cbn [ns_ranges ns_offsets numbered tab_ranges tab_offsets flat_map fst snd ns_text]. unfold vat. cbn [nth_error bind]. cbn [Nat.add].
    rewrite !app_nil_r. unfold verase. cbn [Nat.leb length firstn skipn app andb]. rewrite repeat_length, Nat.leb_refl. cbn [andb bind].
    rewrite skipn_all2 by (rewrite repeat_length; lia). reflexivity. }
  rewrite HT. cbn [bind set_text ns_ranges ns_offsets clean_loop ns_text].
  change (set_text {| ns_text := [c]; ns_ranges := []; ns_offsets := [] |} []) with (mkNs [] [] []).
  assert (Hch : (if ch then do_handle_chinese_chars (mkNs [] [] []) else Ok (mkNs [] [] [])) = Ok (mkNs [] [] [])) by (destruct ch; reflexivity).
  rewrite Hch. cbn [bind].
  destruct (st || lo) eqn:E1.
  - unfold do_strip_accents, normalize_nf. cbn [ns_text map]. rewrite (HN eq_refl). cbn [ns_text length grow_ids apply_grow bind set_text ns_ranges ns_offsets mark_ids apply_shrink filter]. destruct lo; reflexivity.
  - cbn [bind]. destruct lo; reflexivity.
Qed.
Theorem C105_one_deleted : forall E fuel t w c ch st lo l add, tz_model t = Some (MWordPiece w) -> tz_norm t = Some (NBert true ch st lo) ->
  (c < 0x10000)%N -> valid_cp c = true -> unwanted E c = true -> (st || lo = true -> e_norm E NFD [] = Some []) -> nothing_added t [c] [] -> words_of E (tz_pre t) [c] l -> l <> [] ->
  snd (encode E fuel t [c] add) = Undef OobIndex.
Proof.
  intros E fuel t w c ch st lo l add Hm Hno Hc Hv Hr HN Ha HW Hl. rewrite <- PropsNorm.unwanted_ok in Hr.
  assert (Hvs : forallb valid_cp [c] = true) by (cbn [forallb]; rewrite Hv; reflexivity).
  refine (proj1 (C105_nothing_left E fuel t w [c] [] l add Hm ltac:(discriminate) Hvs Ha _ HW) Hl). rewrite Hno. cbn [run_norm]. apply one_deleted; assumption.
Qed.
Print Assumptions C105_one_deleted.

(** The combining acute accent alone, and NUL alone. *)
Example C105_case : forall c, In c [0x301; 0]%N ->
  nothing_added (zh_tz true) [c] [] /\ words_of test_env (Some TBert) [c] [(0, [c])] /\ run_norm test_env (Some (NBert true true true true)) [c] = Ok (mkNs [] [] (if (c =? 0)%N then [] else [(0, 1); (0, 1)])) /\
  snd (encode test_env 10 (zh_tz true) [c] false) = Undef OobIndex.
Proof.
  intros c Hc. split; [exists (new_added_vocab []); split; [reflexivity|]; split; intros x y i _ _ Hin; destruct Hin|]. split.
  - exists [[(0, [c])]]. split; [|reflexivity]. constructor; [|constructor]. cbn [fst snd]. apply (bs_word _ _ 0 [c] []); [discriminate | | exact I | constructor].
    constructor; [|constructor]. destruct Hc as [<- | [<- | []]]; split; reflexivity.
  - destruct Hc as [<- | [<- | []]]; split; vm_compute; reflexivity.
Qed.
Example C105_accent_case : bert_steps test_env true true true true [0x301%N] [] [0] [2] [] /\ (exists r, snd (encode test_env 10 (bare (zh_tz true)) (str " ") false) = Ok r).
Proof.
  split; [|eexists; vm_compute; reflexivity]. split; [intros _; constructor; [reflexivity | constructor]|]. split; [reflexivity|]. split; [reflexivity|].
  apply (st_on test_env true true [0x301%N] [2] [(0x301, [0x301])]%N); [reflexivity | reflexivity | constructor; [left; reflexivity | constructor] | reflexivity].
Qed.
