(** C103: where the offsets of an accent-stripping tokenizer point. Specification: AccentSpec.v, NormSpec.v, CutSpec.v. *)
From Verif Require Import Base BaseFacts Unicode UnicodeProofs Common Utils PostProcessor Decoder Normalizer PreTokenizer WordPiece Bpe AddedVocab Tokenizer Spec
  NormSpec NormProofs DecSpec PreSpec PreProofs AvSpec AvProofs ExtractProofs TzSpec TzProofs WpSpec WpProofs OffSpec OffProofs RefSpec RefProofs TextProofs BpeSpec UnkSpec
  BpeRefSpec PropsReference Env CutSpec PropsCut AccentSpec.
From Coq Require Import ZifyBool ZifyNat ZifyN.
From Verif Require PropsNorm.

(** *** The tables after accent stripping *)
Definition not_mark (E : env) (c : N) : bool := negb (e_is_mn E c).
Lemma shrunk_sizes E ps : Forall simple_piece ps -> forall R, length ps = length R -> (forall j p r, nth_error ps j = Some p -> nth_error R j = Some r -> snd r = width (fst p)) ->
  map snd (shrunk E (after ps) (grown ps R)) = counted (not_mark E) ps.
Proof.
  induction 1 as [|[c p] ps Hp _ IH]; intros [|[st li] R] H H1; cbn in H; try lia; [reflexivity|]. pose proof (H1 0 (c, p) (st, li) eq_refl eq_refl) as H0. cbn [fst snd] in H0.
  assert (HI : map snd (shrunk E (after ps) (grown ps R)) = counted (not_mark E) ps) by (apply IH; [lia | intros j q r Hj Hr; exact (H1 (S j) q r Hj Hr)]).
  unfold counted in *. cbn [flat_map grown after map concat snd]. fold (after ps). rewrite <- HI. destruct Hp as [Hp|(_ & x & y & Hp & _)]; cbn [snd fst] in *; subst p; unfold two; cbn [snd length Nat.eqb app shrunk filter]; unfold not_mark.
  - destruct (e_is_mn E c); cbn [negb map app snd]; [reflexivity | rewrite H0; reflexivity].
  - destruct (e_is_mn E x), (e_is_mn E y); reflexivity.
Qed.
Lemma strip_tables E ps : bmp (before ps) -> forallb valid_cp (before ps) = true -> Forall simple_piece ps -> e_norm E NFD (before ps) = Some (after ps) ->
  exists R, do_strip_accents E (new_nstring (before ps)) = Ok (mkNs (filter (not_mark E) (after ps)) R (ns_offsets (new_nstring (before ps)))) /\ map snd R = counted (not_mark E) ps.
Proof.
  intros Hb Hv Hp HN. set (s := before ps) in *. set (ns := new_nstring s).
  assert (Hfix : map fix_cp s = s). { rewrite <- (map_id s) at 2. apply map_ext_in. intros c Hc. unfold fix_cp. rewrite (proj1 (forallb_forall _ _) Hv c Hc). reflexivity. }
  assert (Ht : ns_text ns = s) by (apply (fresh_packed s)).
  assert (HR : length (ns_ranges ns) = length ps) by (unfold ns; rewrite fresh_length, bmp_len by exact Hb; unfold s, before; rewrite map_length; reflexivity).
  unfold do_strip_accents, normalize_nf. rewrite Ht, Hfix, HN.
  pose proof (grow_ids_pieces ps Hp (length s) [] []) as HG. cbn [app length] in HG. fold s in HG. rewrite HG by (unfold s, before; rewrite map_length; lia).
  destruct (apply_grow_pieces ps ns [] (ns_ranges ns) 0 0) as (n1 & -> & H2 & H3 & H4); [reflexivity | lia | reflexivity|]. cbn [bind app] in *. cbn [set_text ns_text].
  destruct (apply_shrink_spec E (after ps) (set_text n1 (after ps)) [] (grown ps (ns_ranges ns)) 0 0) as (n2 & -> & H6 & H7 & H8).
  - exact H4.
  - rewrite grown_length by (assumption || lia). lia.
  - reflexivity.
  - cbn [bind app] in *. exists (ns_ranges n2). split; [unfold set_text at 1; rewrite H7; cbn [set_text ns_offsets]; rewrite H3; reflexivity|]. rewrite H8. apply shrunk_sizes; [exact Hp | lia|].
    intros j [c p] [st li] Hj Hr. cbn [fst snd]. destruct (fresh_block s j) as (st' & n' & E1 & E2 & _).
    + rewrite <- (fresh_length s). fold ns. apply nth_error_Some. congruence.
    + fold ns in E1. rewrite Hr in E1. injection E1 as <- <-. assert (Hc : nth_error s j = Some c) by (unfold s, before; rewrite nth_error_map, Hj; reflexivity). rewrite E2, (char32_at_bmp s j c Hb Hc).
      assert (Hvc : valid_cp c = true) by (apply (proj1 (forallb_forall _ _) Hv), (nth_error_In _ _ Hc)). unfold fix_cp. rewrite Hvc. unfold width, utf8_of_cp. unfold valid_cp in Hvc. apply andb_prop in Hvc as [Hvc _]. destruct (is_surrogate c); [discriminate | reflexivity].
Qed.

(** cleaning and CJK padding leave the text alone *)
Definition undisturbed (E : env) (cl ch : bool) (s : wstr) : Prop :=
  (cl = true -> Forall (fun c => unwanted E c = false /\ (blank E c = true -> c = 32%N)) s) /\ (ch = true -> Forall (fun c => cjk c = false) s).
Definition lowered (E : env) (lo : bool) (s : wstr) : wstr := if lo then map (e_towlower E) s else s.
Lemma bert_tables E cl ch st lo ps : st || lo = true -> bmp (before ps) -> forallb valid_cp (before ps) = true -> Forall simple_piece ps -> e_norm E NFD (before ps) = Some (after ps) -> undisturbed E cl ch (before ps) ->
  exists R, normalize E (NBert cl ch st lo) (new_nstring (before ps)) = Ok (mkNs (lowered E lo (filter (not_mark E) (after ps))) R (ns_offsets (new_nstring (before ps)))) /\ map snd R = counted (not_mark E) ps.
Proof.
  intros Hsl Hb Hv Hp HN [Hcl Hch]. destruct (strip_tables E ps Hb Hv Hp HN) as (R & HR & HS). exists R. split; [|exact HS]. cbn [normalize]. unfold bert_normalize. set (ns := new_nstring (before ps)) in *. assert (Ht : ns_text ns = before ps) by (apply (fresh_packed (before ps))).
  assert (H1 : (if cl then do_clean_text E ns else Ok ns) = Ok ns).
  { destruct cl; [|reflexivity]. specialize (Hcl eq_refl). unfold do_clean_text. rewrite Ht. rewrite (clean_nothing E _ ns 0) by (eapply Forall_impl; [|exact Hcl]; intros c [H _]; rewrite PropsNorm.unwanted_ok; exact H). cbn [bind].
    assert (Hw : map (fun c => if is_whitespace E c then 32%N else c) (before ps) = before ps).
    { rewrite <- (map_id (before ps)) at 2. apply map_ext_in. intros c Hc. destruct (proj1 (Forall_forall _ _) Hcl c Hc) as [_ H]. rewrite PropsNorm.blank_ok. destruct (blank E c); [symmetry; auto | reflexivity]. }
    rewrite Hw, <- Ht, set_text_same. reflexivity. }
  assert (H2 : (if ch then do_handle_chinese_chars ns else Ok ns) = Ok ns).
  { destruct ch; [|reflexivity]. specialize (Hch eq_refl). pose proof (proj1 (Forall_forall _ _) Hch) as Hin0. assert (Hin : forall c, In c (before ps) -> is_chinese_char c = false) by (intros c Hc; rewrite chinese_cjk, (Hin0 c Hc); reflexivity). clear Hin0. unfold do_handle_chinese_chars. rewrite Ht.
    assert (Hc : chinese_ids (before ps) 0 = []).
    { generalize 0. clear -Hin. induction (before ps) as [|c s IH]; intros i; [reflexivity|]. cbn [chinese_ids]. rewrite (Hin c) by (left; reflexivity). apply IH. intros; apply Hin; right; assumption. }
    rewrite Hc. cbn [apply_pad bind]. rewrite Ht. pose proof (apply_changes_spec (before ps) []) as Ha. cbn [app length] in Ha. rewrite Ha. cbn [bind]. rewrite spaced_none by exact Hin. rewrite <- Ht, set_text_same. reflexivity. }
  rewrite H1. cbn [bind]. rewrite H2. cbn [bind]. rewrite Hsl, HR. cbn [bind]. destruct lo; reflexivity.
Qed.

(** *** transform_range over the whole text *)
Lemma transform_whole z text sub R : z <> [] -> R <> [] -> Forall (fun n => 0 < n) z -> ns_ranges sub = R -> ns_offsets sub = tab_offsets (numbered 0 z) ->
  exists junk, transform_range (numbered_ns z [] text) (0, length z) sub = Ok (mkNs text (rebase_ranges 0 R) (tab_offsets (numbered 0 z) ++ junk)).
Proof.
  intros Hz HRne Hpos HR HO. unfold transform_range, numbered_ns. cbn [ns_ranges ns_offsets ns_text]. rewrite app_nil_r.
  destruct z as [|n0 z0] eqn:Ez; [congruence|]. rewrite <- Ez in *. assert (Hn0 : 0 < n0) by (rewrite Ez in Hpos; exact (Forall_inv Hpos)).
  assert (Hra : vat (tab_ranges 0 (numbered 0 z)) 0 = Ok (0, n0)) by (rewrite Ez; reflexivity). rewrite Hra. cbn [bind fst].
  rewrite tab_ranges_length, numbered_length, Nat.eqb_refl. destruct (exists_last Hz) as (z1 & nl & El).
  assert (Hrb : match length z with O => Undef OobIndex | S b' => vat (tab_ranges 0 (numbered 0 z)) b' end = Ok (list_sum z1, nl)).
  { rewrite El, app_length. cbn [length]. rewrite Nat.add_1_r. unfold vat. rewrite numbered_app, tab_ranges_app, nth_error_app2 by (rewrite tab_ranges_length, numbered_length; lia). rewrite tab_ranges_length, numbered_length, Nat.sub_diag, numbered_size. reflexivity. }
  rewrite Hrb. cbn [bind fst]. rewrite skipn_all2 by (rewrite tab_ranges_length, numbered_length; lia). rewrite HR. destruct R as [|[a0 k0] R]; [congruence|]. cbn [rebase_ranges bind]. rewrite HO.
  destruct (rebase_all z ltac:(congruence) Hpos 0) as (o & r & E1 & E2). rewrite E1. assert (Hb : vat (o :: r) 0 = Ok (0, 1)) by (rewrite <- E1, Ez; cbn [numbered tab_offsets flat_map fst snd]; destruct n0; [lia | reflexivity]).
  rewrite Hb. cbn [bind]. rewrite E2. 
  assert (Hv : verase (o :: r) 0 (list_sum z1) = Ok (tab_offsets (numbered (length z1) [nl]))).
  { rewrite <- E1, El, numbered_app, tab_offsets_app. cbn [Nat.add]. replace (list_sum z1) with (length (@nil (nat * nat)) + length (tab_offsets (numbered 0 z1))) by (rewrite tab_offsets_length, numbered_size; reflexivity).
    exact (verase_mid [] (tab_offsets (numbered 0 z1)) (tab_offsets (numbered (length z1) [nl]))). }
  rewrite Hv. cbn [bind]. pose proof (vinsert_mid [] (tab_offsets (numbered (length z1) [nl])) (tab_offsets (numbered 0 z))) as Hi. cbn [app length] in Hi. rewrite Hi. cbn [bind firstn app]. rewrite app_nil_r. eexists (tab_offsets (numbered (length z1) [nl])). rewrite E1. reflexivity.
Qed.

(** *** Extraction when the normalizer changes the sizes *)
Lemma extract_sized E av norm s text R : s <> [] -> forallb valid_cp s = true -> no_added_token (av_trie_raw av) (flat_map utf16_enc s) ->
  run_norm E norm s = Ok (mkNs text R (ns_offsets (new_nstring s))) -> R <> [] -> text <> [] -> forallb valid_cp text = true -> no_added_token (av_trie_norm av) (flat_map utf16_enc text) ->
  exists junk, extract_and_normalize E av norm s = Ok (av_map_r av, mkPt (mkNs s (rebase_ranges 0 R) (tab_offsets (numbered 0 (unit_sizes s)) ++ junk)) [mkSplit (utf8_encs text) (0, units text) []]).
Proof.
  intros Hne Hv Hr Hn HR Htne Htv Hnn. unfold extract_and_normalize. rewrite fresh_numbered. unfold new_pretok. cbn [ns_text numbered_ns]. unfold convert_to_string at 1. rewrite Hv. cbn [bind pt_norm pt_splits].
  cbn [ns_text numbered_ns]. unfold convert_to_string at 1. rewrite Hv. cbn [bind].
  rewrite find_none by (rewrite from_utf8_encs by exact Hv; exact Hr). rewrite from_utf8_encs by exact Hv. fold (units s).
  assert (Hu : 0 < units s) by (pose proof (proj1 (units_0 s)); destruct (units s); [exfalso; auto | lia]).
  replace (0 =? units s) with false by lia. cbn [bind raw_splits]. rewrite substr_all by apply length_units. cbn [bind]. unfold convert_to_string at 1. rewrite Hv. cbn [bind normalize_splits sp_tokens sp_text sp_off fst snd].
  rewrite (proj2 (convert_from_string_iff _ s)) by (split; [reflexivity | exact Hv]). cbn [bind]. fold (run_norm E norm s). rewrite Hn. cbn [bind].
  destruct (transform_whole (unit_sizes s) s (mkNs text R (ns_offsets (new_nstring s))) R) as (junk & Hj).
  { intros E0. apply (f_equal (@length nat)) in E0. rewrite valid_unit_sizes in E0 by exact Hv. cbn in E0. lia. }
  { exact HR. }
  { apply unit_sizes_pos. }
  { reflexivity. }
  { rewrite fresh_numbered. cbn [ns_offsets numbered_ns]. apply app_nil_r. }
  rewrite valid_unit_sizes in Hj by exact Hv. replace (0 + units s - 0) with (units s) by lia. rewrite Hj. cbn [bind ns_text set_text].
  unfold convert_to_string at 1. rewrite Htv. cbn [bind]. rewrite find_none by (rewrite from_utf8_encs by exact Htv; exact Hnn). rewrite from_utf8_encs by exact Htv. fold (units text).
  assert (Hu' : 0 < units text) by (pose proof (proj1 (units_0 text)); destruct (units text); [exfalso; auto | lia]).
  replace (0 =? units text) with false by lia. cbn [bind norm_splits]. rewrite substr_all by apply length_units. cbn [bind]. unfold convert_to_string at 1. rewrite Htv. cbn [bind app].
  exists junk. rewrite !Nat.add_0_r. reflexivity.
Qed.
Lemma rebase_nth : forall R a j, j < length R -> exists n, nth_error (rebase_ranges a R) j = Some (a + list_sum (firstn j (map snd R)), n).
Proof.
  induction R as [|[x k] R IH]; intros a j H; cbn [length] in H; [lia|]. destruct j as [|j]; cbn [rebase_ranges nth_error firstn map snd list_sum]; [exists k; do 2 f_equal; cbn; lia|].
  destruct (IH (a + k) j) as (n & ->); [lia|]. exists n. do 2 f_equal. change (list_sum (k :: firstn j (map snd R))) with (k + list_sum (firstn j (map snd R))). lia.
Qed.
Lemma tab_offsets_nth : forall z k b, b < list_sum z -> nth_error (tab_offsets (numbered k z)) b = Some (k + char_of_byte z b, S (k + char_of_byte z b)).
Proof.
  induction z as [|n z IH]; intros k b H; [cbn in H; lia|]. change (list_sum (n :: z)) with (n + list_sum z) in H. cbn [numbered tab_offsets flat_map fst snd char_of_byte]. fold (tab_offsets (numbered (S k) z)). destruct (Nat.ltb_spec b n).
  - rewrite nth_error_app1 by (rewrite repeat_length; lia). rewrite nth_error_repeat by lia. rewrite Nat.add_0_r. reflexivity.
  - rewrite nth_error_app2 by (rewrite repeat_length; lia). rewrite repeat_length, IH by lia. do 2 f_equal; lia.
Qed.
Lemma sized_base z R text junk j x hi ts : j < length R -> list_sum (firstn j (map snd R)) < list_sum z ->
  split_base (mkNs text (rebase_ranges 0 R) (tab_offsets (numbered 0 z) ++ junk)) (mkSplit x (j, hi) ts) = Ok (char_of_byte z (list_sum (firstn j (map snd R)))).
Proof.
  intros Hj Hb. rewrite base_origin. unfold origin. cbn [ns_ranges ns_offsets sp_off fst]. destruct (rebase_nth R 0 j Hj) as (n & ->). cbn [Nat.add].
  rewrite nth_error_app1 by (rewrite tab_offsets_length, numbered_size; exact Hb). rewrite tab_offsets_nth by exact Hb. reflexivity.
Qed.
Lemma wp_rows_at w ns (f : nat -> nat) : forall q out i, all_valid (map (fun p : wstr * (nat * nat) => (fst (snd p), fst p)) q) ->
  Forall2 (fun s s' => sp_text s' = sp_text s /\ sp_off s' = sp_off s /\ wp_word w (sp_text s) = Ok (sp_tokens s')) (map (fun p => mkSplit (utf8_encs (fst p)) (snd p) []) q) out ->
  (forall x o ts, In (x, o) q -> split_base ns (mkSplit x o ts) = Ok (f (fst o))) ->
  exists e, into_rows ns 0 i out = Ok e /\ rows_of_words (word_tokens w) i (map (fun p : wstr * (nat * nat) => (f (fst (snd p)), fst p)) q) (rows e).
Proof.
  induction q as [|[x o] q IH]; intros out i Hv HF HB; cbn [map] in *; inversion HF as [|? s' ? out' (A1 & A2 & A3) HF']; subst; [eexists; split; [reflexivity | constructor]|].
  inversion Hv as [|? ? V1 V2]; subst. cbn [fst snd sp_text sp_off] in *. destruct (IH out' (S i) V2 HF') as (e & E1 & E2); [intros y o' ts Hy; apply HB; right; exact Hy|]. cbn [into_rows].
  assert (Hs : split_base ns s' = Ok (f (fst o))) by (specialize (HB x o [] (or_introl eq_refl)); unfold split_base in *; cbn [sp_off] in HB; rewrite A2; exact HB).
  rewrite Hs. cbn [bind]. rewrite E1. cbn [bind]. eexists. split; [reflexivity|]. rewrite rows_append by apply split_rows_flat. rewrite split_rows_rows. apply rw_cons; [apply word_tokens_word; assumption | exact E2].
Qed.

(** *** Counting bytes *)
Lemma utf8_enc_width c : 0 < width c /\ ((0x80 <= c)%N -> 2 <= width c).
Proof. unfold width, utf8_enc. destruct (N.ltb_spec c 128); [cbn [length]; split; lia|]. destruct (c <? 2048)%N; [cbn [length]; split; lia|]. destruct (c <? 65536)%N; cbn [length]; split; lia. Qed.
Lemma counted_cons keep p ps : counted keep (p :: ps) = counted keep [p] ++ counted keep ps.
Proof. unfold counted. cbn [flat_map]. rewrite app_nil_r. reflexivity. Qed.
Lemma counted_app keep a b : counted keep (a ++ b) = counted keep a ++ counted keep b.
Proof. unfold counted. apply flat_map_app. Qed.
Lemma counted_length keep ps : length (counted keep ps) = length (filter keep (after ps)).
Proof.
  induction ps as [|p ps IH]; [reflexivity|]. rewrite counted_cons, app_length, IH. unfold after. cbn [map concat]. rewrite filter_app, app_length. f_equal. unfold counted. cbn [flat_map]. rewrite app_nil_r, map_length. reflexivity.
Qed.
Lemma counted_le1 keep p : simple_piece p -> list_sum (counted keep [p]) <= width (fst p).
Proof.
  destruct p as [c l]. intros [H|(H & x & y & H1 & _)]; cbn [fst snd] in *; subst l; unfold counted; cbn [flat_map snd fst filter app].
  - destruct (keep c); cbn [map app list_sum fold_right]; lia.
  - pose proof (proj2 (utf8_enc_width c) H). destruct (keep x), (keep y); cbn [map app list_sum fold_right]; lia.
Qed.
Lemma list_sum_snoc (a b : list nat) : list_sum (a ++ b) = list_sum a + list_sum b.
Proof. apply list_sum_app. Qed.
Lemma counted_le keep ps : Forall simple_piece ps -> list_sum (counted keep ps) <= list_sum (map width (before ps)).
Proof. induction 1 as [|p ps Hp _ IH]; [cbn; lia|]. rewrite counted_cons, list_sum_app. pose proof (counted_le1 keep p Hp). unfold before in *. cbn [map list_sum fold_right]. fold (list_sum (map width (map fst ps))). lia. Qed.
Lemma counted_pos keep ps : Forall (fun n => 0 < n) (counted keep ps).
Proof.
  apply Forall_forall. intros n Hn. unfold counted in Hn. apply in_flat_map in Hn as ([c l] & _ & Hn). apply in_map_iff in Hn as (x & <- & _). cbn [fst snd].
  destruct l as [|a [|b l]]; [lia | apply utf8_enc_width | lia].
Qed.
Lemma firstn_sum_lt : forall (l : list nat) j, Forall (fun n => 0 < n) l -> j < length l -> list_sum (firstn j l) < list_sum l.
Proof.
  intros l j H Hj. rewrite <- (firstn_skipn j l) at 2. rewrite list_sum_app. assert (0 < list_sum (skipn j l)); [|lia]. rewrite <- (firstn_skipn j l) in H. apply Forall_app in H as [_ H].
  assert (length (skipn j l) = length l - j) by apply skipn_length. destruct (skipn j l) as [|n r]; [cbn in *; lia|]. apply Forall_inv in H. cbn [list_sum fold_right]. lia.
Qed.
Lemma char_of_byte_at : forall z1 n z2 b, Forall (fun n => 0 < n) z1 -> b < list_sum z1 + n -> char_of_byte (z1 ++ n :: z2) b <= length z1 /\ (char_of_byte (z1 ++ n :: z2) b = length z1 <-> list_sum z1 <= b).
Proof.
  induction z1 as [|m z1 IH]; intros n z2 b Hz Hb; cbn [app char_of_byte length list_sum fold_right] in *.
  - replace (b <? n) with true by lia. split; [lia|]. split; lia.
  - fold (list_sum z1) in *. pose proof (Forall_inv Hz) as Hm. destruct (Nat.ltb_spec b m); [split; [lia|]; split; lia|].
    destruct (IH n z2 (b - m) (Forall_inv_tail Hz) ltac:(lia)) as [I1 I2]. split; [lia|]. split; intros H1; [assert (H2 : char_of_byte (z1 ++ n :: z2) (b - m) = length z1) by lia; apply I2 in H2; lia | f_equal; apply I2; lia].
Qed.
Lemma no_losses keep ps : Forall simple_piece ps -> (list_sum (map width (before ps)) <= list_sum (counted keep ps) <-> Forall (fun p => ~ loses keep p) ps).
Proof.
  induction 1 as [|p ps Hp Hps IH]; [split; [constructor | cbn; lia]|]. rewrite counted_cons, list_sum_app. pose proof (counted_le1 keep p Hp). pose proof (counted_le keep ps Hps). unfold before in *. cbn [map list_sum fold_right]. fold (list_sum (map width (map fst ps))).
  unfold loses at 1. split.
  - intros HH. constructor; [lia|]. apply IH. lia.
  - intros HH. pose proof (Forall_inv HH) as H1. apply Forall_inv_tail, IH in HH. cbn beta in H1. lia.
Qed.

(** ** C103 *)
(** The tokenizer's added vocabulary recognises nothing, neither in the text nor in its normalization. *)
Definition nothing_added (t : tokenizer) (s n : wstr) : Prop :=
  exists av, tz_av t = Some av /\ no_added_token (av_trie_raw av) (flat_map utf16_enc s) /\ no_added_token (av_trie_norm av) (flat_map utf16_enc n).
Lemma prepare_sized E t s n R l : s <> [] -> forallb valid_cp s = true -> forallb valid_cp n = true -> n <> [] -> R <> [] -> nothing_added t s n -> run_norm E (tz_norm t) s = Ok (mkNs n R (ns_offsets (new_nstring s))) -> words_of E (tz_pre t) n l ->
  all_valid l /\ exists av junk q, prepare E t s = Ok (av, mkPt (mkNs s (rebase_ranges 0 R) (tab_offsets (numbered 0 (unit_sizes s)) ++ junk)) (map (fun p => mkSplit (utf8_encs (fst p)) (snd p) []) q)) /\ map (fun p : wstr * (nat * nat) => (fst (snd p), fst p)) q = l.
Proof.
  intros Hne Hv Hvn Hnn HR (av & Hav & H1 & H2) HN HW. destruct (extract_sized E av (tz_norm t) s n R Hne Hv H1 HN HR Hnn Hvn H2) as (junk & Hx).
  assert (Hprep : prepare E t s = (p2 <- match tz_pre t with Some pt => pre_tokenize E pt (mkPt (mkNs s (rebase_ranges 0 R) (tab_offsets (numbered 0 (unit_sizes s)) ++ junk)) [mkSplit (utf8_encs n) (0, units n) []]) | None => Ok (mkPt (mkNs s (rebase_ranges 0 R) (tab_offsets (numbered 0 (unit_sizes s)) ++ junk)) [mkSplit (utf8_encs n) (0, units n) []]) end ;; Ok (Some (set_map_r av (av_map_r av)), p2))).
  { unfold prepare. unfold new_pretok at 1. assert (Ht : ns_text (new_nstring s) = s) by (apply (fresh_packed s)). rewrite Ht. unfold convert_to_string. rewrite Hv. cbn [bind]. rewrite Hav, Hx. reflexivity. }
  unfold words_of in HW. assert (V0 : all_valid [(0, n)]) by (constructor; [exact Hvn | constructor]).
  assert (H0 : Forall2 holds [(0, n)] [mkSplit (utf8_encs n) (0, units n) []]) by (constructor; [repeat split | constructor]).
  destruct (tz_pre t) as [pt|].
  - destruct (pre_cuts E pt _ _ (mkNs s (rebase_ranges 0 R) (tab_offsets (numbered 0 (unit_sizes s)) ++ junk)) _ HW V0 H0) as (A & ss & B & C). rewrite B in Hprep. cbn [bind] in Hprep. destruct (holds_shape _ _ C) as (q & -> & Q). split; [exact A|]. eauto.
  - subst l. split; [exact V0|]. cbn [bind] in Hprep. eexists _, junk, [(n, (0, units n))]. split; [exact Hprep | reflexivity].
Qed.

(** Encoding with an accent-stripping BERT tokenizer: the words are those of the stripped text, and a word at position [j] of the stripped text is reported at [shown j], the
    character holding the byte counted up to it when every part of a decomposed letter counts for one byte. *)
Theorem C103_accent_offsets : forall E fuel t w cl ch st lo ps l add, tz_model t = Some (MWordPiece w) -> tz_norm t = Some (NBert cl ch st lo) -> st || lo = true ->
  bmp (before ps) -> forallb valid_cp (before ps) = true -> Forall simple_piece ps -> e_norm E NFD (before ps) = Some (after ps) -> undisturbed E cl ch (before ps) ->
  let n := lowered E lo (filter (not_mark E) (after ps)) in
  n <> [] -> forallb valid_cp n = true -> nothing_added t (before ps) n -> words_of E (tz_pre t) n l -> Forall (fun p => fst p < length n) l ->
  exists r, snd (encode E fuel (bare t) (before ps) add) = Ok r /\ en_overflowing r = [] /\ flat_parallel r /\
    rows_of_words (word_tokens w) 0 (map (fun p => (shown (not_mark E) ps (fst p), snd p)) l) (rows r).
Proof.
  intros E fuel t w cl ch st lo ps l add Hm Hno Hsl Hb Hv Hp HN Hu n Hne Hvn Ha HW HP.
  destruct (bert_tables E cl ch st lo ps Hsl Hb Hv Hp HN Hu) as (R & HR & HS). fold n in HR.
  assert (HL : length R = length n). { transitivity (length (counted (not_mark E) ps)); [rewrite <- HS, map_length; reflexivity|]. rewrite counted_length. unfold n, lowered. destruct lo; [rewrite map_length|]; reflexivity. }
  assert (Hn0 : 0 < length n) by (destruct n; [congruence | cbn; lia]).
  assert (HRne : R <> []) by (intros ->; cbn in HL; lia).
  assert (Hs0 : before ps <> []). { intros E0. assert (ps = []) by (unfold before in E0; destruct ps; [reflexivity | discriminate]). subst ps. destruct R; [congruence | discriminate]. }
  destruct (prepare_sized E t (before ps) n R l Hs0 Hv Hvn Hne HRne Ha) as (A & av & junk & q & Q1 & <-); [rewrite Hno; exact HR | exact HW|].
  rewrite encode_bare. unfold text_encoding. rewrite Q1. cbn [bind]. rewrite Hm. cbn [model_tokenize snd].
  set (ns := mkNs (before ps) (rebase_ranges 0 R) (tab_offsets (numbered 0 (unit_sizes (before ps))) ++ junk)).
  destruct (wp_tokenize_ok w (mkPt ns (map (fun p => mkSplit (utf8_encs (fst p)) (snd p) []) q))) as (out & Hl & HF). cbn [pt_splits pt_norm] in HF, Hl. rewrite Hl. cbn [bind]. unfold into_encoding. cbn [pt_norm pt_splits].
  assert (Hsz : unit_sizes (before ps) = map width (before ps)).
  { rewrite bmp_sizes by exact Hb. apply map_ext_in. intros c Hc. pose proof (proj1 (forallb_forall _ _) Hv c Hc) as Hvc. unfold fix_cp. rewrite Hvc. unfold width, utf8_of_cp. unfold valid_cp in Hvc. apply andb_prop in Hvc as [Hvc _]. destruct (is_surrogate c); [discriminate | reflexivity]. }
  destruct (wp_rows_at w ns (shown (not_mark E) ps) q out 0 A HF) as (e & E1 & E2).
  { intros x [j hi] ts Hin. cbn [fst]. assert (Hj : j < length R). { rewrite HL. apply (proj1 (Forall_forall _ _) HP (j, x)). apply in_map_iff. exists (x, (j, hi)). auto. }
    unfold ns. rewrite sized_base; [unfold shown; rewrite HS, Hsz; reflexivity | exact Hj|]. rewrite HS, Hsz. eapply Nat.lt_le_trans; [|apply counted_le; exact Hp]. apply firstn_sum_lt; [apply counted_pos|]. rewrite <- HS, map_length. exact Hj. }
  exists e. split; [exact E1|]. destruct (into_rows_flat _ _ _ _ _ E1) as [F1 F2]. split; [exact F2|]. split; [exact F1|]. rewrite map_map. exact E2.
Qed.
Print Assumptions C103_accent_offsets.

(** The reported position is never to the right of the character the word starts with, and it is that character exactly when no earlier character lost bytes. *)
Theorem C103_drift : forall keep p1 p p2, Forall simple_piece (p1 ++ p :: p2) -> filter keep (snd p) <> [] ->
  let j := length (filter keep (after p1)) in
  nth_error (kept_src keep (p1 ++ p :: p2) 0) j = Some (length p1) /\
  shown keep (p1 ++ p :: p2) j <= length p1 /\ (shown keep (p1 ++ p :: p2) j = length p1 <-> Forall (fun q => ~ loses keep q) p1).
Proof.
  intros keep p1 p p2 Hp Hk j. pose proof Hp as Hp'. apply Forall_app in Hp' as [Hp1 _]. split.
  { assert (K : forall k, nth_error (kept_src keep (p1 ++ p :: p2) k) j = Some (k + length p1)); [|exact (K 0)]. unfold j. clear - Hk. induction p1 as [|[c a] p1 IH]; intros k.
    - destruct p as [c a]. cbn [after map concat filter length app kept_src snd] in *. destruct (filter keep a); [congruence|]. cbn [map app nth_error]. rewrite Nat.add_0_r. reflexivity.
    - cbn [app kept_src after map concat snd]. fold (after p1). rewrite filter_app, app_length, nth_error_app2 by (rewrite map_length; lia). rewrite map_length. replace (length (filter keep a) + length (filter keep (after p1)) - length (filter keep a)) with (length (filter keep (after p1))) by lia.
      rewrite IH. cbn [length]. f_equal. lia. }
  assert (Hf : list_sum (firstn j (counted keep (p1 ++ p :: p2))) = list_sum (counted keep p1)).
  { rewrite counted_app. unfold j. rewrite <- counted_length, firstn_app, firstn_all, Nat.sub_diag. cbn [firstn]. rewrite app_nil_r. reflexivity. }
  unfold shown. rewrite Hf. unfold before. rewrite map_app, map_app. cbn [map]. pose proof (counted_le keep p1 Hp1) as Hle. pose proof (proj1 (utf8_enc_width (fst p))) as Hw. unfold before in Hle.
  destruct (char_of_byte_at (map width (map fst p1)) (width (fst p)) (map width (map fst p2)) (list_sum (counted keep p1))) as [I1 I2].
  - apply Forall_forall. intros m Hm. apply in_map_iff in Hm as (c & <- & _). apply utf8_enc_width.
  - lia.
  - rewrite !map_length in I1, I2. split; [exact I1|]. rewrite I2. apply no_losses. exact Hp1.
Qed.
Print Assumptions C103_drift.
(** Letters that lose bytes: every decomposed letter whose accents are stripped. *)
Theorem C103_accented_loses : forall keep c x y, (0x80 <= c)%N -> keep y = false -> loses keep (c, [x; y]).
Proof. intros keep c x y Hc Hy. unfold loses, counted. cbn [flat_map snd fst filter]. rewrite Hy. pose proof (proj2 (utf8_enc_width c) Hc). destruct (keep x); cbn [map app list_sum fold_right]; lia. Qed.
Print Assumptions C103_accented_loses.

(** "é a" with an uncased BERT tokenizer: the word "a", the third character, is reported as the second. *)
Definition accent_wp := mkWp [(str "a", 2%Z); (str "e", 3%Z); (str "[UNK]", 0%Z)] (str "[UNK]") 100%Z (str "##").
Definition accent_tz := mkTz None None (Some (new_added_vocab [])) (Some (NBert true true true true)) (Some TBert) (Some (MWordPiece accent_wp)) None None.
Definition accent_ps : list (N * wstr) := [(0xE9%N, [101; 769]%N); (32%N, [32%N]); (97%N, [97%N])].
Example C103_case : 
  bmp (before accent_ps) /\ forallb valid_cp (before accent_ps) = true /\ Forall simple_piece accent_ps /\ e_norm test_env NFD (before accent_ps) = Some (after accent_ps) /\ undisturbed test_env true true (before accent_ps) /\
  lowered test_env true (filter (not_mark test_env) (after accent_ps)) = str "e a" /\ nothing_added accent_tz (before accent_ps) (str "e a") /\ words_of test_env (Some TBert) (str "e a") [(0, str "e"); (2, str "a")] /\
  map (shown (not_mark test_env) accent_ps) [0; 2] = [0; 1] /\
  exists r, snd (encode test_env 10 accent_tz (before accent_ps) false) = Ok r /\ en_tokens r = [str "e"; str "a"] /\ en_offsets r = [(0, 1); (1, 2)].
Proof.
  assert (HB : bert_split (e_u_space test_env) (e_u_punct test_env) 0 (str "e a") [(0, str "e"); (2, str "a")]).
  { apply (bs_word _ _ 0 (str "e") (str " a") [(2, str "a")]); [discriminate | constructor; [split; reflexivity | constructor] | left; reflexivity|]. apply bs_space; [reflexivity|].
    apply (bs_word _ _ 2 (str "a") [] []); [discriminate | constructor; [split; reflexivity | constructor] | exact I | constructor]. }
  split; [repeat constructor|]. split; [reflexivity|]. split.
  { constructor; [right; split; [cbn; lia|]; exists 101%N, 769%N; split; [reflexivity | cbn; lia]|]. constructor; [left; reflexivity|]. constructor; [left; reflexivity | constructor]. }
  split; [reflexivity|]. split; [split; intros _; repeat (constructor; [vm_compute; intuition congruence|]); constructor|]. split; [reflexivity|]. split.
  { exists (new_added_vocab []). split; [reflexivity|]. split; intros a b i _ _ Hin; destruct Hin. }
  split; [exists [[(0, str "e"); (2, str "a")]]; split; [constructor; [exact HB | constructor] | reflexivity]|]. split; [reflexivity|]. eexists. split; [vm_compute; reflexivity|]. split; reflexivity.
Qed.
