(** C132: tokenizers that begin with a Unicode normal form. Specification: FormSpec.v, StripSpec.v, AccentSpec.v, CutSpec.v. *)
From Verif Require Import Base BaseFacts Unicode UnicodeProofs Common Utils PostProcessor Decoder Normalizer PreTokenizer WordPiece Bpe AddedVocab Tokenizer Spec
  NormSpec NormProofs DecSpec PreSpec PreProofs AvSpec AvProofs ExtractProofs TzSpec TzProofs WpSpec WpProofs OffSpec OffProofs RefSpec RefProofs TextProofs BpeSpec BpeProofs BpeWord UnkSpec
  BpeRefSpec PropsBpe PropsUnknown PropsReference PropsBpeText Env CutSpec PropsCut DropSpec StripSpec PropsStrip AccentSpec PropsAccent BertSpec PropsBertOffsets PropsLlama PropsByteDec FormSpec.
From Coq Require Import ZifyBool ZifyNat ZifyN.
From Coq Require QArith_base.
From Verif Require PropsNorm.
Import ListNotations.

(** *** The comparison *)
Fixpoint trues (d : list bool) (i : nat) : list nat := match d with [] => [] | true :: r => i :: trues r (S i) | false :: r => trues r (S i) end.
Lemma grow_changed : forall fuel old new oi ni, length old <= fuel + oi -> grow_ids fuel old new oi ni = trues (changed (skipn oi old) (skipn ni new)) oi.
Proof.
  assert (N0 : forall {A} (l : list A) i, nth_error l i = match skipn i l with [] => None | x :: _ => Some x end) by (intros A; induction l as [|x l IHl]; intros [|i]; cbn; auto).
  assert (T0 : forall {A} (l : list A) i, skipn (S i) l = tl (skipn i l)) by (intros A; induction l as [|x l IHl]; intros [|i]; try reflexivity; cbn [skipn]; rewrite <- IHl; destruct l, i; reflexivity).
  induction fuel as [|f IH]; intros old new oi ni Hf.
  - cbn [grow_ids]. rewrite (skipn_all2 old) by lia. destruct (skipn ni new); reflexivity.
  - cbn [grow_ids]. rewrite !N0. pose proof (T0 N old oi) as TO. pose proof (T0 N new ni) as TN. destruct (skipn oi old) as [|a o]; [reflexivity|]. destruct (skipn ni new) as [|b n]; [reflexivity|].
    cbn [changed tl] in *. destruct (a =? b)%N; cbn [trues].
    + rewrite IH by lia. rewrite TO, TN. reflexivity.
    + rewrite IH by lia. rewrite TO. replace (ni + 2) with (S (S ni)) by lia. rewrite T0, TN. reflexivity.
Qed.
Lemma changed_length : forall old new, length (changed old new) <= length old.
Proof. induction old as [|a o IH]; intros [|b n]; cbn [changed length]; try lia. destruct (a =? b)%N; cbn [length]; [specialize (IH n) | specialize (IH (tl n))]; lia. Qed.
Lemma apply_grow_flags d : forall ns A R i multi, ns_ranges ns = A ++ R -> length d <= length R -> length A = i + multi ->
  exists ns' B, apply_grow ns (trues d i) multi = Ok ns' /\ ns_text ns' = ns_text ns /\ ns_offsets ns' = ns_offsets ns /\ ns_ranges ns' = A ++ B /\ map snd B = entry_sizes (map snd R) d.
Proof.
  induction d as [|x d IH]; intros ns A R i multi HR Hl HA; [exists ns, R; cbn [trues apply_grow]; repeat split; [exact HR|]; destruct (map snd R); reflexivity|].
  destruct R as [|[st li] R]; [cbn in Hl; lia|]. cbn [length] in Hl. destruct x; cbn [trues map snd entry_sizes].
  - cbn [apply_grow]. assert (E : nth_error (ns_ranges ns) (i + multi) = Some (st, li)) by (rewrite HR, nth_error_app2, <- HA, Nat.sub_diag by lia; reflexivity).
    rewrite (transform_grow _ _ _ _ E). cbn [bind]. rewrite HR, firstn_app, <- HA, firstn_all, Nat.sub_diag. cbn [firstn]. rewrite app_nil_r, skipn_app, skipn_all2 by lia. replace (S (length A) - length A) with 1 by lia. cbn [skipn app].
    destruct (IH (mkNs (ns_text ns) (A ++ (st, 1) :: (st + 1, 1) :: R) (ns_offsets ns)) (A ++ [(st, 1); (st + 1, 1)]) R (S i) (S multi)) as (ns' & B & H1 & H2 & H3 & H4 & H5).
    + cbn [ns_ranges]. rewrite <- app_assoc. reflexivity.
    + lia.
    + rewrite app_length. cbn [length]. lia.
    + exists ns', ((st, 1) :: (st + 1, 1) :: B). split; [exact H1|]. split; [exact H2|]. split; [exact H3|]. split; [rewrite H4, <- app_assoc; reflexivity|]. cbn [map snd]. rewrite H5. reflexivity.
  - destruct (IH ns (A ++ [(st, li)]) R (S i) multi) as (ns' & B & H1 & H2 & H3 & H4 & H5).
    + rewrite HR, <- app_assoc. reflexivity.
    + lia.
    + rewrite app_length. cbn [length]. lia.
    + exists ns', ((st, li) :: B). split; [exact H1|]. split; [exact H2|]. split; [exact H3|]. split; [rewrite H4, <- app_assoc; reflexivity|]. cbn [map snd]. rewrite H5. reflexivity.
Qed.

(** *** The bytes of a fresh string *)
Lemma unit_sizes_bytes s : forallb valid_cp s = true -> unit_sizes s = unit_bytes s.
Proof.
  intros V0. unfold unit_sizes. rewrite from_utf32_valid by exact V0. 
  assert (G : forall s p, forallb valid_cp s = true -> p = [] \/ (exists a y, p = a ++ [y] /\ is_lead y = false) ->
    map (fun i => length (utf8_of_cp (char32_at (p ++ flat_map utf16_enc s) i))) (seq (length p) (length (flat_map utf16_enc s))) = unit_bytes s); [|exact (G s [] V0 (or_introl eq_refl))].
  clear. induction s as [|c s IH]; intros p V Hp; [reflexivity|]. cbn [forallb] in V. apply andb_prop in V as [Vc Vs]. unfold unit_bytes. cbn [flat_map]. fold (unit_bytes s). rewrite app_length, seq_app, map_app. f_equal.
  - clear IH. assert (HU : length (utf8_of_cp c) = width c). { unfold width, utf8_of_cp. unfold valid_cp in Vc. destruct (is_surrogate c); [lia | reflexivity]. }
    unfold utf16_enc. destruct (c <? 0x10000)%N eqn:Ec.
    + cbn [length seq map app]. f_equal. rewrite <- (Nat.add_0_r (length p)) at 1. rewrite char32_app; [|right; exact Hp | cbn [length]; lia]. unfold char32_at. cbn [nth_error].
      replace (is_lead c) with false by (unfold valid_cp, is_surrogate, is_lead in *; lia). replace (is_trail c) with false by (unfold valid_cp, is_surrogate, is_trail in *; lia). exact HU.
    + cbn [length seq map app]. pose proof (N.mod_lt (c - 0x10000) 0x400 ltac:(discriminate)) as HM. unfold valid_cp, is_surrogate in Vc.
      set (x := (0xD800 + (c - 0x10000) / 0x400)%N). set (y := (0xDC00 + (c - 0x10000) mod 0x400)%N).
      assert (HQ : (c - 0x10000 = 0x400 * ((c - 0x10000) / 0x400) + (c - 0x10000) mod 0x400)%N) by (apply N.div_mod; discriminate).
      assert (Hx : is_lead x = true) by (unfold is_lead, x; lia). assert (Hy : is_trail y = true) by (unfold is_trail, y; lia). assert (Hy' : is_lead y = false) by (unfold is_lead, y; lia).
      assert (HC : pair_cp x y = c) by (unfold pair_cp, x, y; lia).
      assert (HW : width c = 4). { unfold width, utf8_enc. replace (c <? 0x80)%N with false by lia. replace (c <? 0x800)%N with false by lia. rewrite Ec. reflexivity. }
      rewrite <- HW, <- HU. f_equal; [|f_equal].
      * rewrite <- (Nat.add_0_r (length p)) at 1. rewrite char32_app; [|right; exact Hp | cbn [length]; lia]. unfold char32_at. cbn [nth_error]. rewrite Hx, Hy, HC. reflexivity.
      * rewrite <- (Nat.add_1_r (length p)) at 1. rewrite char32_app; [|right; exact Hp | cbn [length]; lia]. unfold char32_at. cbn [nth_error]. rewrite Hy', Hy, Hx, HC. reflexivity.
  - rewrite app_assoc. rewrite <- app_length. apply IH; [exact Vs|]. right. destruct (enc_ends c Vc) as (a & y & -> & Hy). exists (p ++ a), y. rewrite <- app_assoc. auto.
Qed.

(** *** Running the normalizer *)
Lemma formed_runs E norm s r n : forallb valid_cp s = true -> formed E norm s r n ->
  exists R, run_norm E norm s = Ok (mkNs n R (ns_offsets (new_nstring s))) /\ map snd R = entry_sizes (unit_bytes s) (changed s r).
Proof.
  intros Hv (f & HF & HN). set (ns := new_nstring s). assert (Ht : ns_text ns = s) by (apply (fresh_packed s)).
  assert (Hfix : map fix_cp s = s). { rewrite <- (map_id s) at 2. apply map_ext_in. intros c Hc. unfold fix_cp. rewrite (proj1 (forallb_forall _ _) Hv c Hc). reflexivity. }
  assert (HZ : map snd (ns_ranges ns) = unit_bytes s). { unfold ns. rewrite fresh_numbered, <- unit_sizes_bytes by exact Hv. cbn [ns_ranges numbered_ns]. generalize (unit_sizes s). intros z. generalize 0 at 2. generalize 0. induction z as [|m z IH]; intros a i; [reflexivity|]. cbn [numbered tab_ranges map snd fst]. rewrite IH. reflexivity. }
  assert (HU : length s <= length (ns_ranges ns)). { rewrite <- (map_length snd), HZ. unfold unit_bytes. clear. induction s as [|c s IH]; cbn [flat_map length]; [lia|]. rewrite app_length. destruct (c <? 0x10000)%N; cbn [length]; lia. }
  destruct (apply_grow_flags (changed s r) ns [] (ns_ranges ns) 0 0) as (ns' & R & H1 & H2 & H3 & H4 & H5); [reflexivity | pose proof (changed_length s r); lia | reflexivity|]. rewrite HZ in H5.
  assert (HNF : normalize E (NForm f) ns = Ok (mkNs r R (ns_offsets ns))).
  { cbn [normalize]. unfold normalize_nf. rewrite Ht, Hfix, HF, grow_changed by lia. cbn [skipn]. rewrite H1. cbn [bind]. unfold set_text. rewrite H3, H4. reflexivity. }
  exists R. split; [|exact H5]. unfold run_norm. destruct HN as [[-> ->]|(rest & -> & HS)].
  - exact HNF.
  - change (normalize E (NSequence (NForm f :: rest)) (new_nstring s)) with (ns' <- normalize E (NForm f) ns ;; normalize E (NSequence rest) ns'). rewrite HNF. cbn [bind]. rewrite (settled_runs E _ r n HS) by reflexivity. reflexivity.
Qed.

(** *** The table after transform_range, to the last entry *)
Lemma transform_exact z z1 nl text sub R : z = z1 ++ [nl] -> R <> [] -> Forall (fun n => 0 < n) z -> ns_ranges sub = R -> ns_offsets sub = tab_offsets (numbered 0 z) ->
  transform_range (numbered_ns z [] text) (0, length z) sub = Ok (mkNs text (rebase_ranges 0 R) (tab_offsets (numbered 0 z) ++ tab_offsets (numbered (length z1) [nl]))).
Proof.
  intros El HRne Hpos HR HO. assert (Hz : z <> []) by (rewrite El; destruct z1; discriminate). unfold transform_range, numbered_ns. cbn [ns_ranges ns_offsets ns_text]. rewrite app_nil_r.
  destruct z as [|n0 z0] eqn:Ez; [congruence|]. rewrite <- Ez in *. assert (Hn0 : 0 < n0) by (rewrite Ez in Hpos; exact (Forall_inv Hpos)).
  assert (Hra : vat (tab_ranges 0 (numbered 0 z)) 0 = Ok (0, n0)) by (rewrite Ez; reflexivity). rewrite Hra. cbn [bind fst].
  rewrite tab_ranges_length, numbered_length, Nat.eqb_refl.
  assert (Hrb : match length z with O => Undef OobIndex | S b' => vat (tab_ranges 0 (numbered 0 z)) b' end = Ok (list_sum z1, nl)).
  { rewrite El, app_length. cbn [length]. rewrite Nat.add_1_r. unfold vat. rewrite numbered_app, tab_ranges_app, nth_error_app2 by (rewrite tab_ranges_length, numbered_length; lia). rewrite tab_ranges_length, numbered_length, Nat.sub_diag, numbered_size. reflexivity. }
  rewrite Hrb. cbn [bind fst]. rewrite skipn_all2 by (rewrite tab_ranges_length, numbered_length; lia). rewrite HR. destruct R as [|[a0 k0] R]; [congruence|]. cbn [rebase_ranges bind]. rewrite HO.
  destruct (rebase_all z ltac:(congruence) Hpos 0) as (o & r & E1 & E2). rewrite E1. assert (Hb : vat (o :: r) 0 = Ok (0, 1)) by (rewrite <- E1, Ez; cbn [numbered tab_offsets flat_map fst snd]; destruct n0; [lia | reflexivity]).
  rewrite Hb. cbn [bind]. rewrite E2. 
  assert (Hv : verase (o :: r) 0 (list_sum z1) = Ok (tab_offsets (numbered (length z1) [nl]))).
  { rewrite <- E1, El, numbered_app, tab_offsets_app. cbn [Nat.add]. replace (list_sum z1) with (length (@nil (nat * nat)) + length (tab_offsets (numbered 0 z1))) by (rewrite tab_offsets_length, numbered_size; reflexivity).
    exact (verase_mid [] (tab_offsets (numbered 0 z1)) (tab_offsets (numbered (length z1) [nl]))). }
  rewrite Hv. cbn [bind]. pose proof (vinsert_mid [] (tab_offsets (numbered (length z1) [nl])) (tab_offsets (numbered 0 z))) as Hi. cbn [app length] in Hi. rewrite Hi. cbn [bind firstn app]. rewrite app_nil_r, E1. reflexivity.
Qed.
Section Tables.
Context (E : env) (s : wstr) (z1 : list nat) (nl : nat) (n : wstr) (R : list (nat * nat)).
Hypothesis (Hne : s <> []) (Hv : forallb valid_cp s = true) (Hz : unit_sizes s = z1 ++ [nl]) (HR : R <> []) (Hnn : n <> []) (Hvn : forallb valid_cp n = true).
(** The string kept by the pieces. *)
Definition held := mkNs s (rebase_ranges 0 R) (tab_offsets (numbered 0 (unit_sizes s)) ++ tab_offsets (numbered (length z1) [nl])).
Lemma extract_exact av norm : no_added_token (av_trie_raw av) (flat_map utf16_enc s) ->
  run_norm E norm s = Ok (mkNs n R (ns_offsets (new_nstring s))) -> no_added_token (av_trie_norm av) (flat_map utf16_enc n) ->
  extract_and_normalize E av norm s = Ok (av_map_r av, mkPt held [mkSplit (utf8_encs n) (0, units n) []]).
Proof.
  intros Hr Hn Hm. unfold extract_and_normalize. rewrite fresh_numbered. unfold new_pretok. cbn [ns_text numbered_ns]. unfold convert_to_string at 1. rewrite Hv. cbn [bind pt_norm pt_splits].
  cbn [ns_text numbered_ns]. unfold convert_to_string at 1. rewrite Hv. cbn [bind].
  rewrite find_none by (rewrite from_utf8_encs by exact Hv; exact Hr). rewrite from_utf8_encs by exact Hv. fold (units s).
  assert (Hu : 0 < units s) by (pose proof (proj1 (units_0 s)); destruct (units s); [exfalso; auto | lia]).
  replace (0 =? units s) with false by lia. cbn [bind raw_splits]. rewrite substr_all by apply length_units. cbn [bind]. unfold convert_to_string at 1. rewrite Hv. cbn [bind normalize_splits sp_tokens sp_text sp_off fst snd].
  rewrite (proj2 (convert_from_string_iff _ s)) by (split; [reflexivity | exact Hv]). cbn [bind]. fold (run_norm E norm s). rewrite Hn. cbn [bind].
  pose proof (transform_exact (unit_sizes s) z1 nl s (mkNs n R (ns_offsets (new_nstring s))) R Hz HR (unit_sizes_pos s) eq_refl) as Hj. rewrite fresh_numbered in Hj. cbn [ns_offsets numbered_ns] in Hj. specialize (Hj (app_nil_r _)).
  rewrite valid_unit_sizes in Hj by exact Hv. rewrite fresh_numbered. cbn [ns_offsets numbered_ns]. replace (0 + units s - 0) with (units s) by lia. rewrite Hj. cbn [bind ns_text set_text].
  unfold convert_to_string at 1. rewrite Hvn. cbn [bind]. rewrite find_none by (rewrite from_utf8_encs by exact Hvn; exact Hm). rewrite from_utf8_encs by exact Hvn. fold (units n).
  assert (Hu' : 0 < units n) by (pose proof (proj1 (units_0 n)); destruct (units n); [exfalso; auto | lia]).
  replace (0 =? units n) with false by lia. cbn [bind norm_splits]. rewrite substr_all by apply length_units. cbn [bind]. unfold convert_to_string at 1. rewrite Hvn. cbn [bind app].
  rewrite !Nat.add_0_r. reflexivity.
Qed.
Lemma prepare_exact t l : nothing_added t s n -> run_norm E (tz_norm t) s = Ok (mkNs n R (ns_offsets (new_nstring s))) -> words_of E (tz_pre t) n l ->
  all_valid l /\ exists av q, prepare E t s = Ok (av, mkPt held (map (fun p => mkSplit (utf8_encs (fst p)) (snd p) []) q)) /\ map (fun p : wstr * (nat * nat) => (fst (snd p), fst p)) q = l.
Proof.
  intros (av & Hav & H1 & H2) HN HW. pose proof (extract_exact av (tz_norm t) H1 HN H2) as Hx.
  assert (Hprep : prepare E t s = (p2 <- match tz_pre t with Some pt => pre_tokenize E pt (mkPt held [mkSplit (utf8_encs n) (0, units n) []]) | None => Ok (mkPt held [mkSplit (utf8_encs n) (0, units n) []]) end ;; Ok (Some (set_map_r av (av_map_r av)), p2))).
  { unfold prepare. unfold new_pretok at 1. assert (Ht : ns_text (new_nstring s) = s) by (apply (fresh_packed s)). rewrite Ht. unfold convert_to_string. rewrite Hv. cbn [bind]. rewrite Hav, Hx. reflexivity. }
  unfold words_of in HW. assert (V0 : all_valid [(0, n)]) by (constructor; [exact Hvn | constructor]).
  assert (H0 : Forall2 holds [(0, n)] [mkSplit (utf8_encs n) (0, units n) []]) by (constructor; [repeat split | constructor]).
  destruct (tz_pre t) as [pt|].
  - destruct (pre_cuts E pt _ _ held _ HW V0 H0) as (A & ss & B & C). rewrite B in Hprep. cbn [bind] in Hprep. destruct (holds_shape _ _ C) as (q & -> & Q). split; [exact A|]. eauto.
  - subst l. split; [exact V0|]. cbn [bind] in Hprep. eexists _, [(n, (0, units n))]. split; [exact Hprep | reflexivity].
Qed.
Lemma base_exact (e := map snd R) (z := unit_sizes s) x o ts :
  split_base held (mkSplit x o ts) =
    (if fst o <? length e then (if list_sum (firstn (fst o) e) <? list_sum z then Ok (char_of_byte z (list_sum (firstn (fst o) e))) else if list_sum (firstn (fst o) e) <? list_sum z + last z 0 then Ok (length z - 1) else Undef OobIndex) else Undef OobIndex).
Proof.
  clear Hne Hv HR Hnn Hvn n. rewrite base_origin. unfold origin, held. cbn [ns_ranges ns_offsets sp_off]. destruct o as [j hi]. cbn [fst]. assert (HL : length (rebase_ranges 0 R) = length R). { clear. generalize 0. induction R as [|[a k] R' IH]; intros m; [reflexivity|]. cbn [rebase_ranges length]. rewrite IH. reflexivity. }
  destruct (Nat.ltb_spec j (length e)) as [H|H]; unfold e in *; rewrite map_length in H.
  - destruct (rebase_nth R 0 j H) as (m & ->). cbn [Nat.add]. fold z. set (b := list_sum (firstn j (map snd R))). assert (HT : length (tab_offsets (numbered 0 z)) = list_sum z) by (rewrite tab_offsets_length, numbered_size; reflexivity).
    assert (HS : list_sum z = list_sum z1 + nl /\ last z 0 = nl /\ length z = length z1 + 1). { unfold z. rewrite Hz, list_sum_app, last_last, app_length. cbn. lia. } destruct HS as (S1 & S2 & S3).
    destruct (Nat.ltb_spec b (list_sum z)) as [Hb|Hb].
    + rewrite nth_error_app1 by lia. rewrite tab_offsets_nth by exact Hb. reflexivity.
    + rewrite nth_error_app2 by lia. rewrite HT, S2. destruct (Nat.ltb_spec b (list_sum z + nl)) as [Hc|Hc].
      * rewrite tab_offsets_nth by (cbn; lia). cbn [fst char_of_byte]. replace (b - list_sum z <? nl) with true by lia. f_equal. lia.
      * rewrite (proj2 (nth_error_None _ _)); [reflexivity|]. rewrite tab_offsets_length, numbered_size. cbn. lia.
  - rewrite (proj2 (nth_error_None _ _)) by lia. reflexivity.
Qed.
End Tables.

(** *** Words that land, and words that do not *)
Lemma rows_nowhere ns (land : nat -> option nat) : (forall x o ts, split_base ns (mkSplit x o ts) = match land (fst o) with Some k => Ok k | None => Undef OobIndex end) ->
  forall l i, Exists (fun x => land (fst (sp_off x)) = None) l -> into_rows ns 0 i l = Undef OobIndex.
Proof.
  intros HB. induction l as [|[x o ts] l IH]; intros i H; [inversion H|]. cbn [into_rows]. rewrite HB. destruct (land (fst o)) as [k|] eqn:Ek; cbn [bind]; [|reflexivity].
  rewrite IH; [reflexivity|]. inversion H as [? ? Hx|? ? Hx]; subst; [cbn [sp_off] in Hx; congruence | exact Hx].
Qed.
Lemma held_landing E norm s r n R : s <> [] -> forallb valid_cp s = true -> map snd R = entry_sizes (unit_bytes s) (changed s r) -> formed E norm s r n ->
  exists z1 nl, unit_sizes s = z1 ++ [nl] /\ R <> [] /\ forall x o ts, split_base (held s z1 nl R) (mkSplit x o ts) = match landing s r (fst o) with Some k => Ok k | None => Undef OobIndex end.
Proof.
  intros Hne Hv HS _. assert (Hz : unit_sizes s <> []). { intros E0. apply (f_equal (@length nat)) in E0. rewrite valid_unit_sizes in E0 by exact Hv. cbn in E0. apply units_0 in E0. congruence. }
  destruct (exists_last Hz) as (z1 & nl & El). exists z1, nl. split; [exact El|].
  assert (HRne : R <> []). { intros ->. cbn [map] in HS. rewrite <- unit_sizes_bytes in HS by exact Hv. destruct (unit_sizes s) as [|m z]; [congruence|]. destruct (changed s r) as [|[] d]; discriminate. }
  split; [exact HRne|]. intros x o ts. rewrite (base_exact s z1 nl R El), HS. unfold landing. rewrite <- unit_sizes_bytes by exact Hv.
  destruct (fst o <? _); [|reflexivity]. destruct (_ <? list_sum (unit_sizes s)); [reflexivity|]. destruct (_ <? _); reflexivity.
Qed.
Definition at_or0 (o : option nat) : nat := match o with Some k => k | None => 0 end.
Lemma landed_map (land : nat -> option nat) : forall (l : list (nat * wstr)) ks, Forall2 (fun p k => land (fst p) = Some k) l ks -> map (fun p => (at_or0 (land (fst p)), snd p)) l = combine ks (map snd l).
Proof. induction 1 as [|p k l ks H _ IH]; [reflexivity|]. cbn [map combine]. rewrite IH, H. reflexivity. Qed.
Lemma landed_each (land : nat -> option nat) : forall (l : list (nat * wstr)) ks, Forall2 (fun p k => land (fst p) = Some k) l ks -> Forall (fun p => exists k, land (fst p) = Some k) l.
Proof. induction 1; constructor; eauto. Qed.

(** ** C132 *)
(** WordPiece: the words are those of the normalized text; a word at position [j] is reported at [landing j]; if some word lands nowhere, encoding reads outside the alignment table. *)
Theorem C132_wordpiece : forall E fuel t w s r n l add, tz_model t = Some (MWordPiece w) -> formed E (tz_norm t) s r n -> s <> [] -> forallb valid_cp s = true -> n <> [] -> forallb valid_cp n = true ->
  nothing_added t s n -> words_of E (tz_pre t) n l ->
  (forall ks, Forall2 (fun p k => landing s r (fst p) = Some k) l ks ->
     exists e, snd (encode E fuel (bare t) s add) = Ok e /\ en_overflowing e = [] /\ flat_parallel e /\ rows_of_words (word_tokens w) 0 (combine ks (map snd l)) (rows e)) /\
  (Exists (fun p => landing s r (fst p) = None) l -> snd (encode E fuel t s add) = Undef OobIndex).
Proof.
  intros E fuel t w s r n l add Hm HF Hne Hv Hnn Hvn Ha HW. destruct (formed_runs E _ s r n Hv HF) as (R & HN & HS). destruct (held_landing E _ s r n R Hne Hv HS HF) as (z1 & nl & Hz & HR & HB).
  destruct (prepare_exact E s z1 nl n R Hne Hv Hz HR Hnn Hvn t l Ha HN HW) as (A & av & q & Q1 & <-).
  assert (HT : forall t', tz_model t' = tz_model t -> prepare E t' s = prepare E t s -> text_encoding E t' s = (p <- wp_tokenize w (mkPt (held s z1 nl R) (map (fun p => mkSplit (utf8_encs (fst p)) (snd p) []) q)) ;; into_encoding p 0)).
  { intros t' H1 H2. unfold text_encoding. rewrite H2, Q1. cbn [bind]. rewrite H1, Hm. reflexivity. }
  specialize (HT t eq_refl eq_refl). destruct (wp_tokenize_ok w (mkPt (held s z1 nl R) (map (fun p => mkSplit (utf8_encs (fst p)) (snd p) []) q))) as (out & Hl & HO). rewrite Hl in HT. cbn [bind] in HT. unfold into_encoding in HT. cbn [pt_norm pt_splits] in HT, HO. split.
  - intros ks HK. rewrite encode_bare, HT. destruct (wp_rows_at w (held s z1 nl R) (fun j => at_or0 (landing s r j)) q out 0 A HO) as (e & E1 & E2).
    { intros x o ts Hin. rewrite HB. apply landed_each in HK. rewrite Forall_map in HK. destruct (proj1 (Forall_forall _ _) HK (x, o) Hin) as (k & Hk). cbn [fst snd] in Hk. rewrite Hk. reflexivity. }
    exists e. split; [exact E1|]. destruct (into_rows_flat _ _ _ _ _ E1) as [F1 F2]. split; [exact F2|]. split; [exact F1|]. rewrite <- (landed_map (landing s r) _ ks HK), map_map. exact E2.
  - intros HX. rewrite encode_stages, encode_bare, HT, (rows_nowhere _ (landing s r) HB); [reflexivity|]. clear - HO HX. rewrite Exists_map in HX. revert out HO. induction q as [|[x o] q IH]; intros out HO; cbn [map] in *; inversion HO as [|? s' ? out' (A1 & A2 & A3) HO']; subst; inversion HX as [? ? H|? ? H]; subst.
    + left. rewrite A2. exact H.
    + right. apply IH; assumption.
Qed.
Print Assumptions C132_wordpiece.
(** BPE: likewise, and a word with nothing in the vocabulary does the same harm as a word that lands nowhere. *)
Theorem C132_bpe : forall E fuel t vocab merges d unk pre suf fu bf ig b c s r n l add, pq_ok E -> new_bpe vocab merges d unk pre suf fu bf ig = Ok b ->
  tz_model t = Some (MBpe b c) -> reach_cache E b c -> formed E (tz_norm t) s r n -> s <> [] -> forallb valid_cp s = true -> n <> [] -> forallb valid_cp n = true ->
  nothing_added t s n -> words_of E (tz_pre t) n l ->
  (forall ks, Forall2 (fun p k => landing s r (fst p) = Some k) l ks -> Forall (fun p => encodable b (snd p)) l ->
     exists e, snd (encode E fuel (bare t) s add) = Ok e /\ en_overflowing e = [] /\ flat_parallel e /\ rows_of_words (bpe_tokens b) 0 (combine ks (map snd l)) (rows e)) /\
  (Exists (fun p => landing s r (fst p) = None \/ ~ encodable b (snd p)) l -> snd (encode E fuel t s add) = Undef OobIndex).
Proof.
  intros E fuel t vocab merges d unk pre suf fu bf ig b c s r n l add Hq Hb Hm Hr HF Hne Hv Hnn Hvn Ha HW. destruct (formed_runs E _ s r n Hv HF) as (R & HN & HS). destruct (held_landing E _ s r n R Hne Hv HS HF) as (z1 & nl & Hz & HR & HB).
  destruct (prepare_exact E s z1 nl n R Hne Hv Hz HR Hnn Hvn t l Ha HN HW) as (A & av & q & Q1 & <-).
  assert (Hmt : forall p, snd (model_tokenize E (MBpe b c) p) = snd (bpe_tokenize E b c p)) by (intros p; cbn [model_tokenize]; destruct (bpe_tokenize E b c p); reflexivity).
  assert (HT : text_encoding E t s = (out <- plain_words E b (map (fun p => mkSplit (utf8_encs (fst p)) (snd p) []) q) ;; into_encoding (mkPt (held s z1 nl R) out) 0)).
  { unfold text_encoding. rewrite Q1. cbn [bind]. rewrite Hm, Hmt, (proj1 (bpe_tokenize_transparent E b c _ (reach_cache_ok E b c Hr))). cbn [pt_splits pt_norm]. destruct (plain_words E b _) as [o| | |]; reflexivity. }
  split.
  - intros ks HK HE. destruct (bpe_prepared E b vocab merges d unk pre suf fu bf ig Hq Hb fuel t c s av _ q (fun j => at_or0 (landing s r j)) add Hm Hr Q1) as [[H1 H2]|[H1 H2]].
    + apply Forall_forall. intros [x o] Hin tx ts. cbn [fst snd]. rewrite HB. apply landed_each in HK. rewrite Forall_map in HK. destruct (proj1 (Forall_forall _ _) HK (x, o) Hin) as (k & Hk). cbn [fst snd] in Hk. rewrite Hk. reflexivity.
    + destruct H2 as (e & X1 & X2 & X3 & X4). exists e. split; [exact X1|]. split; [exact X2|]. split; [exact X3|]. rewrite <- (landed_map (landing s r) _ ks HK), map_map. cbn [fst snd]. eapply words_weaken; [|exact X4]. cbn beta. intros ? ? _ [_ H]. exact H.
    + exfalso. apply H1. rewrite Forall_map in HE. exact HE.
  - intros HX. rewrite encode_stages, encode_bare, HT. destruct (words_cases E b vocab merges d unk pre suf fu bf ig Hq Hb q) as [(Hl & out & O1 & O2)|(Hl & O1)]; rewrite O1; cbn [bind]; [|reflexivity].
    unfold into_encoding. cbn [pt_norm pt_splits]. rewrite (rows_nowhere _ (landing s r) HB); [reflexivity|]. rewrite Exists_map in HX. clear - HX Hl O2. induction O2 as [|p s' q out' [A1 A2] _ IH]; [inversion HX|]. pose proof (Forall_inv Hl) as Hp. pose proof (Forall_inv_tail Hl) as Ht.
    inversion HX as [? ? H|? ? H]; subst; [left; rewrite A1; destruct H as [H|H]; [exact H | contradiction] | right; apply IH; assumption].
Qed.
Print Assumptions C132_bpe.

(** *** Where positions land *)
Lemma entries_le : forall d z j, Forall (fun n => 0 < n) z -> j < length z -> list_sum (firstn j (entry_sizes z d)) <= list_sum (firstn j z) /\ j < length (entry_sizes z d).
Proof.
  induction d as [|x d IH]; intros z j Hz Hj; [destruct z; cbn [entry_sizes]; lia|]. destruct z as [|n z]; [cbn in Hj; lia|]. cbn [length] in Hj. pose proof (Forall_inv Hz) as Hn. cbn beta in Hn. pose proof (Forall_inv_tail Hz) as Hz'.
  destruct x; cbn [entry_sizes].
  - destruct j as [|[|j]]; [cbn; lia | cbn; lia|]. destruct (IH z j Hz' ltac:(lia)) as [H1 H2]. change (firstn (S (S j)) (n :: z)) with (n :: firstn (S j) z). change (firstn (S (S j)) (1 :: 1 :: entry_sizes z d)) with (1 :: 1 :: firstn j (entry_sizes z d)). cbn [length]. change (list_sum (1 :: 1 :: firstn j (entry_sizes z d))) with (2 + list_sum (firstn j (entry_sizes z d))). split; [|lia].
    change (list_sum (n :: firstn (S j) z)) with (n + list_sum (firstn (S j) z)). assert (list_sum (firstn j z) < list_sum (firstn (S j) z)); [|lia].
    assert (HF : firstn j z = firstn j (firstn (S j) z)) by (rewrite firstn_firstn; f_equal; lia). rewrite HF. apply firstn_sum_lt; [|rewrite firstn_length; lia]. rewrite <- (firstn_skipn (S j) z) in Hz'. apply Forall_app in Hz' as [Hz' _]. exact Hz'.
  - destruct j as [|j]; [cbn; lia|]. destruct (IH z j Hz' ltac:(lia)) as [H1 H2]. cbn [firstn length]. change (list_sum (n :: firstn j (entry_sizes z d))) with (n + list_sum (firstn j (entry_sizes z d))). change (list_sum (n :: firstn j z)) with (n + list_sum (firstn j z)). lia.
Qed.
Lemma bytes_pos s : Forall (fun n => 0 < n) (unit_bytes s).
Proof. apply Forall_forall. intros m Hm. apply in_flat_map in Hm as (c & _ & Hm). destruct (c <? 0x10000)%N; cbn [In] in Hm; [destruct Hm as [<- |[]]; apply utf8_enc_width | lia]. Qed.
Lemma bytes_length s : length (unit_bytes s) = units s.
Proof. unfold units, unit_bytes. induction s as [|c s IH]; [reflexivity|]. cbn [flat_map]. rewrite !app_length, IH. f_equal. unfold utf16_enc. destruct (c <? 0x10000)%N; reflexivity. Qed.
Lemma bytes_small z b j : Forall (fun n => 0 < n) z -> j < length z -> b <= list_sum (firstn j z) -> b < list_sum z /\ char_of_byte z b <= j.
Proof. intros Hz Hj Hb. pose proof (firstn_sum_lt z j Hz Hj) as H. split; [lia|]. rewrite <- (char_of_prefix z j Hz Hj). apply char_of_byte_mono. exact Hb. Qed.
(** A position inside the original text's length always lands, never to the right of the position itself: as long as every word of the normalized text starts within that length, encoding is safe. *)
Theorem C132_safe : forall s r j, j < units s -> exists k, landing s r j = Some k /\ k <= j.
Proof.
  intros s r j Hj. rewrite <- bytes_length in Hj. destruct (entries_le (changed s r) (unit_bytes s) j (bytes_pos s) Hj) as [H1 H2]. destruct (bytes_small (unit_bytes s) _ j (bytes_pos s) Hj H1) as [H3 H4].
  exists (char_of_byte (unit_bytes s) (list_sum (firstn j (entry_sizes (unit_bytes s) (changed s r))))). split; [|exact H4]. unfold landing. replace (j <? _) with true by lia. replace (_ <? list_sum (unit_bytes s)) with true by lia. reflexivity.
Qed.
Print Assumptions C132_safe.
(** A position at or beyond twice that length never lands. *)
Theorem C132_far : forall s r j, 2 * units s <= j -> landing s r j = None.
Proof.
  intros s r j Hj. unfold landing. assert (HL : forall z d, length (entry_sizes z d) <= 2 * length z). { induction z as [|n z IH]; intros d; [destruct d; cbn; lia|]. destruct d as [|[] d]; cbn [entry_sizes length]; [lia | specialize (IH d); lia..]. }
  specialize (HL (unit_bytes s) (changed s r)). rewrite bytes_length in HL. replace (j <? _) with false by lia. reflexivity.
Qed.
Print Assumptions C132_far.
(** Up to the first difference between the two texts positions are exact. *)
Theorem C132_exact : forall a x y j, j <= length a -> j < units (a ++ x) -> landing (a ++ x) (a ++ y) j = Some j.
Proof.
  intros a x y j Ha Hj. set (s := a ++ x) in *. rewrite <- bytes_length in Hj. set (z := unit_bytes s) in *.
  assert (HP : forall a j (z : list nat) d, j <= length a -> firstn j (entry_sizes z (map (fun _ : N => false) a ++ d)) = firstn j z).
  { clear. induction a as [|c a IH]; intros j z d Ha; [replace j with 0 by (cbn in Ha; lia); reflexivity|]. destruct z as [|n z]; [reflexivity|]. cbn [map app entry_sizes]. cbn [length] in *. destruct j as [|j]; [reflexivity|]. cbn [firstn]. rewrite IH by lia. reflexivity. }
  assert (HC : changed s (a ++ y) = map (fun _ => false) a ++ changed x y). { unfold s. clear. induction a as [|c a IH]; [reflexivity|]. cbn [app changed map]. rewrite N.eqb_refl, IH. reflexivity. }
  destruct (entries_le (changed s (a ++ y)) z j (bytes_pos s) Hj) as [_ H2]. unfold landing. fold z. rewrite HC in *. rewrite HP by exact Ha. replace (j <? _) with true by lia. pose proof (firstn_sum_lt z j (bytes_pos s) Hj) as H3. replace (_ <? list_sum z) with true by lia.
  rewrite char_of_prefix by (exact (bytes_pos s) || exact Hj). reflexivity.
Qed.
Print Assumptions C132_exact.
(** Canonical decomposition of a text in the basic plane whose characters become at most two: position of the first part of a character; it is exact when every character decomposed
    before it takes two bytes, and too small otherwise. *)
Lemma changed_pieces ps : Forall simple_piece ps -> changed (before ps) (after ps) = map two ps.
Proof.
  induction 1 as [|[c p] ps Hp _ IH]; [reflexivity|]. unfold before, after in *. cbn [map concat fst snd]. destruct Hp as [Hp|(_ & x & y & Hp & Hx)]; cbn [fst snd] in *; subst p; unfold two at 1; cbn [snd length Nat.eqb app changed tl].
  - rewrite N.eqb_refl, IH. reflexivity.
  - replace (c =? x)%N with false by (symmetry; apply N.eqb_neq; congruence). rewrite IH. reflexivity.
Qed.
Lemma bmp_bytes s : bmp s -> unit_bytes s = map width s.
Proof. induction 1 as [|c s Hc _ IH]; [reflexivity|]. unfold unit_bytes in *. cbn [flat_map map]. replace (c <? 0x10000)%N with true by lia. cbn [app]. rewrite IH. reflexivity. Qed.
Lemma pieces_entries ps : Forall simple_piece ps -> entry_sizes (map width (before ps)) (map two ps) = counted (fun _ => true) ps.
Proof.
  induction 1 as [|[c p] ps Hp _ IH]; [reflexivity|]. rewrite counted_cons, <- IH. unfold before in *. cbn [map fst snd]. destruct Hp as [Hp|(_ & x & y & Hp & Hx)]; cbn [fst snd] in *; subst p; unfold two at 1, counted; cbn [snd length Nat.eqb entry_sizes flat_map filter map app fst]; reflexivity.
Qed.
Theorem C132_decomposed : forall p1 p p2, Forall simple_piece (p1 ++ p :: p2) -> bmp (before (p1 ++ p :: p2)) ->
  exists k, landing (before (p1 ++ p :: p2)) (after (p1 ++ p :: p2)) (length (after p1)) = Some k /\ k <= length p1 /\
    (k = length p1 <-> Forall (fun q => snd q = [fst q] \/ width (fst q) = 2) p1).
Proof.
  intros p1 p p2 Hp Hb. set (ps := p1 ++ p :: p2) in *. assert (Hk : filter (fun _ : N => true) (snd p) <> []).
  { unfold ps in Hp. apply Forall_app in Hp as [_ Hp]. apply Forall_inv in Hp. destruct p as [c a]. destruct Hp as [Hp|(_ & x & y & Hp & _)]; cbn [fst snd] in *; subst a; discriminate. }
  assert (FT : forall l : wstr, filter (fun _ => true) l = l) by (induction l as [|c l IH]; [reflexivity | cbn [filter]; rewrite IH; reflexivity]).
  destruct (C103_drift (fun _ => true) p1 p p2 Hp Hk) as (_ & D1 & D2). cbn zeta in *. rewrite FT in *. fold ps in D1, D2.
  exists (shown (fun _ => true) ps (length (after p1))). split.
  - unfold landing. rewrite changed_pieces by exact Hp. rewrite bmp_bytes by exact Hb. rewrite pieces_entries by exact Hp.
    assert (HJ : length (after p1) < length (counted (fun _ => true) ps)). { rewrite counted_length, FT. unfold ps, after. rewrite map_app, concat_app, app_length. cbn [map concat]. rewrite app_length. destruct (snd p); [congruence | cbn; lia]. }
    replace (_ <? length _) with true by lia. assert (HB : list_sum (firstn (length (after p1)) (counted (fun _ => true) ps)) < list_sum (map width (before ps))). { eapply Nat.lt_le_trans; [|apply counted_le; exact Hp]. apply firstn_sum_lt; [apply counted_pos | exact HJ]. }
    replace (_ <? list_sum _) with true by lia. reflexivity.
  - split; [exact D1|]. rewrite D2. assert (HQ : forall q, simple_piece q -> (~ loses (fun _ => true) q <-> snd q = [fst q] \/ width (fst q) = 2)).
    { intros [c a] [H|(H & x & y & H1 & H2)]; cbn [fst snd] in *; subst a; unfold loses, counted; cbn [flat_map snd fst filter map app list_sum fold_right].
      - split; [left; reflexivity | lia].
      - pose proof (proj2 (utf8_enc_width c) H). split; [intros K; right; lia | intros [K|K]; [discriminate | lia]]. }
    unfold ps in Hp. apply Forall_app in Hp as [Hp _]. clear - HQ Hp. induction Hp as [|q l Hq _ IH]; [split; constructor|]. split; intros K; pose proof (Forall_inv K) as K1; pose proof (Forall_inv_tail K) as K2; (constructor; [apply HQ; assumption | apply IH; assumption]).
Qed.
Print Assumptions C132_decomposed.

(** *** Cases *)
(** What ICU does to the characters used below: U+0065 U+0301 composes to U+00E9 and back, U+FDFA is a ligature of eighteen characters, four words. *)
Definition sallallahou : wstr := [0x635; 0x644; 0x649; 0x20; 0x627; 0x644; 0x644; 0x647; 0x20; 0x639; 0x644; 0x64A; 0x647; 0x20; 0x648; 0x633; 0x644; 0x645]%N.
Fixpoint composed (s : wstr) : wstr := match s with 0x65%N :: ((0x301%N :: r) as q) => 0xE9%N :: composed r | c :: r => c :: composed r | [] => [] end.
Definition form_norm (f : nform) (s : wstr) : option wstr :=
  match f with
  | NFC => Some (composed s)
  | NFD => Some (flat_map decompose1 s)
  | NFKC => Some (composed (flat_map (fun c => if (c =? 0xFDFA)%N then sallallahou else [c]) s))
  | NFKD => Some (flat_map (fun c => if (c =? 0xFDFA)%N then sallallahou else decompose1 c) s)
  end.
Definition form_env : env := {|
  e_norm := form_norm; e_is_mn := e_is_mn test_env; e_iswspace := e_iswspace test_env; e_iswcntrl := e_iswcntrl test_env; e_towlower := e_towlower test_env; e_u_space := e_u_space test_env; e_u_punct := e_u_punct test_env;
  e_icu_matches := e_icu_matches test_env; e_wregex_ok := e_wregex_ok test_env; e_wregex_next := e_wregex_next test_env; e_inplace := true; e_char_signed := true; e_draw := e_draw test_env; e_pq := e_pq test_env |}.
(** "é play" under NFD: "play" is the third character of the text and is reported there. *)
Example C132_case : let s := (0xE9%N :: str " play") in let n := ([101; 769]%N ++ str " play") in
  formed form_env (Some (NForm NFD)) s n n /\ nothing_added (strip_tz (NForm NFD)) s n /\ words_of form_env (Some TBert) n [(0, [101; 769]%N); (3, str "play")] /\
  landing s n 0 = Some 0 /\ landing s n 3 = Some 2 /\
  exists e, snd (encode form_env 10 (strip_tz (NForm NFD)) s false) = Ok e /\ en_offsets e = [(0, 2); (2, 6)].
Proof.
  cbn zeta. split; [exists NFD; split; [reflexivity | left; split; reflexivity]|]. split; [apply strip_tz_plain|]. split.
  { exists [[(0, [101; 769]%N); (3, str "play")]]. split; [|reflexivity]. constructor; [|constructor].
    apply (bs_word _ _ 0 [101; 769]%N (str " play") [(3, str "play")]); [discriminate | repeat (constructor; [split; reflexivity|]); constructor | left; reflexivity|]. apply bs_space; [reflexivity|].
    apply (bs_word _ _ 3 (str "play") [] []); [discriminate | repeat (constructor; [split; reflexivity|]); constructor | exact I | constructor]. }
  split; [reflexivity|]. split; [reflexivity|]. eexists. split; [vm_compute; reflexivity | reflexivity].
Qed.
(** The same text written with U+0301, under NFC: "play" stands at 3, is reported at 1, and the text there is not "play". *)
Theorem C132_place_refuted : ~ (forall E fuel t s e i x o, tz_norm t = Some (NForm NFC) -> snd (encode E fuel t s false) = Ok e -> nth_error (en_tokens e) i = Some x -> nth_error (en_offsets e) i = Some o ->
  (exists a b, s = a ++ str "play" ++ b) -> x = str "play" -> firstn (snd o - fst o) (skipn (fst o) s) = str "play").
Proof.
  intros H. specialize (H form_env 10 (strip_tz (NForm NFC)) ([101; 769]%N ++ str " play")). remember (snd (encode form_env 10 (strip_tz (NForm NFC)) ([101; 769]%N ++ str " play") false)) as v eqn:Ev. vm_compute in Ev. subst v.
  specialize (H _ 1 (str "play") (1, 5) eq_refl eq_refl eq_refl eq_refl (ex_intro _ [101; 769; 32]%N (ex_intro _ [] eq_refl)) eq_refl). vm_compute in H. discriminate.
Qed.
Print Assumptions C132_place_refuted.
(** The single character U+FDFA under NFKC: four words, of which the second already lands nowhere. *)
Example C132_far_case : let s := [0xFDFA%N] in
  formed form_env (Some (NForm NFKC)) s sallallahou sallallahou /\ units s = 1 /\ landing s sallallahou 4 = None /\ 
  snd (encode form_env 10 (strip_tz (NForm NFKC)) s false) = Undef OobIndex /\ snd (encode form_env 10 (strip_tz (NForm NFC)) s false) <> Undef OobIndex.
Proof.
  cbn zeta. split; [exists NFKC; split; [reflexivity | left; split; reflexivity]|]. split; [reflexivity|]. split; [apply C132_far; vm_compute; lia|]. split; [vm_compute; reflexivity | vm_compute; discriminate].
Qed.
(** A form followed by stripping: " é play " in the style of ALBERT (Sequence of NFKD, StripAccents and Strip). *)
Example C132_sequence_case : let s := (32%N :: 0xE9%N :: str " play ") in let r := (32%N :: [101; 769]%N ++ str " play ") in
  formed form_env (Some (NSequence [NForm NFKD; NStripAccents; NStrip true true])) s r (str "e play") /\
  exists e, snd (encode form_env 10 (strip_tz (NSequence [NForm NFKD; NStripAccents; NStrip true true])) s false) = Ok e /\ en_offsets e = [(0, 1); (1, 5)].
Proof.
  cbn zeta. split; [|eexists; split; [vm_compute; reflexivity | reflexivity]]. exists NFKD. split; [reflexivity|]. right. eexists. split; [reflexivity|].
  eapply se_cons; [apply se_accents|]. eapply se_cons; [apply se_strip | apply se_nil]. exists [32%N], [32%N]. split; [reflexivity|]. split; [repeat constructor|]. split; [repeat constructor|]. split; [discriminate|]. split; [discriminate|]. split; reflexivity.
Qed.
Example C132_decomposed_case : let p1 := [(0xE9%N, [101; 769]%N); (32%N, [32%N])] in let p2 := [(0xAC00%N, [0x1100; 0x1161]%N); (32%N, [32%N])] in let p := (97%N, [97%N]) in
  Forall simple_piece (p1 ++ [p]) /\ Forall simple_piece (p2 ++ [p]) /\ bmp (before (p1 ++ [p])) /\ bmp (before (p2 ++ [p])) /\
  landing (before (p1 ++ [p])) (after (p1 ++ [p])) 3 = Some 2 /\ landing (before (p2 ++ [p])) (after (p2 ++ [p])) 3 = Some 1.
Proof.
  cbn zeta. assert (S : forall c, simple_piece (c, [c])) by (intros c; left; reflexivity).
  split; [constructor; [right; split; [cbn; lia|]; exists 101%N, 769%N; split; [reflexivity | cbn; lia]|]; repeat (constructor; [apply S|]); constructor|].
  split; [constructor; [right; split; [cbn; lia|]; exists 0x1100%N, 0x1161%N; split; [reflexivity | cbn; lia]|]; repeat (constructor; [apply S|]); constructor|].
  split; [repeat constructor|]. split; [repeat constructor|]. split; reflexivity.
Qed.
