(** From splits to encoding rows: the base offset of a split. *)
From Verif Require Import Base BaseFacts Unicode UnicodeProofs Common Normalizer PreTokenizer WordPiece AddedVocab Tokenizer NormSpec NormProofs ExtractProofs.

Lemma base_origin ns s : split_base ns s = match origin ns (fst (sp_off s)) with Some o => Ok (fst o) | None => Undef OobIndex end.
Proof.
  unfold split_base, origin, vat. destruct (nth_error (ns_ranges ns) (fst (sp_off s))) as [[st n]|]; [|reflexivity]. cbn [bind fst]. destruct (nth_error (ns_offsets ns) st); reflexivity.
Qed.
Lemma base_numbered z junk text s : Forall (fun n => 0 < n) z -> fst (sp_off s) < length z -> split_base (numbered_ns z junk text) s = Ok (fst (sp_off s)).
Proof. intros Hz Hs. rewrite base_origin, (numbered_origin z junk text _ Hz Hs). reflexivity. Qed.
Lemma tab_ranges_length bl : forall a, length (tab_ranges a bl) = length bl.
Proof. induction bl as [|[o n] bl IH]; intros a; [reflexivity|]. cbn [tab_ranges length]. rewrite IH. reflexivity. Qed.
Lemma base_past z junk text s : length z <= fst (sp_off s) -> split_base (numbered_ns z junk text) s = Undef OobIndex.
Proof.
  intros Hs. rewrite base_origin. unfold origin, numbered_ns. cbn [ns_ranges]. rewrite (proj2 (nth_error_None _ _)); [reflexivity|]. rewrite tab_ranges_length, numbered_length. exact Hs.
Qed.
(** the base of a split of a fresh string *)
Lemma base_fresh s sp : fst (sp_off sp) < length (from_utf32 s) -> split_base (new_nstring s) sp = Ok (fst (sp_off sp)).
Proof. intros H. rewrite fresh_numbered. apply base_numbered; [apply unit_sizes_pos | rewrite unit_sizes_length; exact H]. Qed.

(** ** Pre-tokenizers that only cut *)
From Verif Require Import Spec PostSpec PreSpec PreProofs PropsPre TzSpec TzProofs WpSpec WpProofs OffSpec AvSpec AvProofs.
From Coq Require Import ZifyBool.

Lemma boundary_cut cs : forall p, forallb valid_cp cs = true -> p <= units cs -> char_boundary (flat_map utf16_enc cs) p -> PreProofs.cut cs p.
Proof.
  induction cs as [|c cs IH]; intros p Hv Hp Hb.
  - cbn in Hp. exists [], []. split; [reflexivity|]. cbn. lia.
  - cbn [forallb] in Hv. apply andb_prop in Hv as [Hc Hv]. rewrite units_cons in Hp. destruct (Nat.eq_dec p 0) as [->|Hp0]; [exists [], (c :: cs); split; reflexivity|].
    assert (Hw : p < cp_width c -> False).
    { intros Hl. unfold cp_width in Hl. destruct (N.ltb_spec c 65536) as [Hc1|Hc1]; [lia|]. assert (p = 1) by lia. subst p. apply valid_cp_spec in Hc.
      cbn [flat_map] in Hb. unfold utf16_enc in Hb at 1. replace (c <? 65536)%N with false in Hb by lia. cbn [app] in Hb.
      apply (Hb 0 _ _ eq_refl eq_refl eq_refl). unfold is_lead, is_trail. clear - Hc Hc1.
      pose proof (N.mod_upper_bound (c - 65536) 1024 ltac:(discriminate)) as Hm. assert (Hd : ((c - 65536) / 1024 < 1024)%N) by (apply N.div_lt_upper_bound; [discriminate | lia]).
      split; apply andb_true_intro; split; apply N.leb_le; try (apply N.le_add_r); [apply (N.le_trans _ (55296 + 1023)) | apply (N.le_trans _ (56320 + 1023))]; try discriminate; apply N.add_le_mono_l; lia. }
    destruct (IH (p - cp_width c) Hv) as (pre & post & -> & Hq).
    { lia. }
    { intros q h t Eq Hh Ht [Hl Htr]. apply (Hb (cp_width c + q) h t); [lia | | | auto].
      - cbn [flat_map]. rewrite nth_error_app2 by (unfold cp_width, utf16_enc; destruct (c <? 65536)%N; cbn [length]; lia). rewrite <- Hh. f_equal. unfold cp_width, utf16_enc. destruct (c <? 65536)%N; cbn [length]; lia.
      - cbn [flat_map]. assert (length (utf16_enc c) = cp_width c) by (unfold cp_width, utf16_enc; destruct (c <? 65536)%N; reflexivity). rewrite nth_error_app2 by lia. rewrite <- Ht. f_equal. lia. }
    exists (c :: pre), post. split; [reflexivity|]. rewrite units_cons. lia.
Qed.

Definition placed (text : wstr) (sp : split) : Prop := exists pre word, piece_of text sp pre word.

Lemma piece_split_placed text sp pre word p : forallb valid_cp text = true -> piece_of text sp pre word -> inside word p -> placed text (piece_split (fst (sp_off sp)) p).
Proof.
  intros Hv ((post & ->) & Ht & Hf) (_ & post' & ->). exists (pre ++ fst p), (snd p). split; [|split].
  - exists (post' ++ post). rewrite <- !app_assoc. reflexivity.
  - reflexivity.
  - cbn [piece_split sp_off piece_span fst]. rewrite Hf, units_app. lia.
Qed.

Lemma valid_parts a b c : forallb valid_cp (a ++ b ++ c) = true -> forallb valid_cp a = true /\ forallb valid_cp b = true /\ forallb valid_cp c = true.
Proof. rewrite !forallb_app. intros H. apply andb_prop in H as [H1 H]. apply andb_prop in H as [H2 H3]. auto. Qed.

Lemma bert_placed E text p p' : forallb valid_cp text = true -> bert_pre_tokenize E p = Ok p' -> Forall (placed text) (pt_splits p) -> Forall (placed text) (pt_splits p') /\ pt_norm p' = pt_norm p.
Proof.
  intros Hv H Hp. rewrite bert_pre_spec in H. injection H as <-. cbn [pt_splits pt_norm]. split; [|reflexivity]. apply Forall_flat_map. revert Hp. apply Forall_impl. intros sp (pre & word & Hpl). unfold bert_out.
  destruct (is_nil (sp_tokens sp)); [|apply Forall_cons; [exists pre, word; exact Hpl | apply Forall_nil]]. pose proof Hpl as ((post & Et) & Ht & Hf). rewrite Ht. rewrite Et in Hv. destruct (valid_parts _ _ _ Hv) as (_ & Hw & _). rewrite decoded_encs by exact Hw.
  destruct (bert_pieces_words (e_u_space E) (e_u_punct E) word) as [HI _]. apply Forall_map. revert HI. apply Forall_impl. intros q (Q1 & Q2 & _). rewrite <- Et in Hv. apply (piece_split_placed text sp pre word q Hv Hpl). split; assumption.
Qed.

Lemma chained_bounds l : forall a z, chained a z l -> Forall (fun m => a <= fst m /\ fst m <= snd m /\ snd m <= z) l.
Proof.
  induction l as [|[x y] l IH]; intros a z H; [apply Forall_nil|]. cbn [chained] in H. destruct H as (-> & H1 & H2). apply Forall_cons; [cbn; pose proof (chained_le _ _ _ H2); lia|].
  specialize (IH _ _ H2). revert IH. apply Forall_impl. intros m. lia.
Qed.
Lemma gaps_starts u l : forall c, char_boundary u c -> Forall (fun m => char_boundary u (fst m) /\ char_boundary u (snd m)) l -> Forall (fun m => char_boundary u (fst (fst m))) (with_gaps c (length u) l).
Proof.
  induction l as [|m l IH]; intros c Hc H; cbn [with_gaps].
  - destruct (c <? length u); [apply Forall_cons; [exact Hc | apply Forall_nil] | apply Forall_nil].
  - inversion H as [|? ? [Hm1 Hm2] Hl]; subst. apply Forall_app. split; [destruct (c =? fst m); [apply Forall_nil | apply Forall_cons; [exact Hc | apply Forall_nil]]|].
    apply Forall_cons; [exact Hm1 | apply IH; assumption].
Qed.

Lemma cut_out_placed text sp pre word m : forallb valid_cp text = true -> piece_of text sp pre word -> fst m <= snd m -> snd m <= units word ->
  char_boundary (flat_map utf16_enc word) (fst m) -> char_boundary (flat_map utf16_enc word) (snd m) -> placed text (cut_out sp m).
Proof.
  intros Hv ((post & ->) & Ht & Hf) H1 H2 B1 B2. destruct (valid_parts _ _ _ Hv) as (_ & Hw & _).
  destruct (boundary_cut word (snd m) Hw H2 B2) as (w1 & w2 & -> & Em2).
  assert (B1' : PreProofs.cut w1 (fst m)).
  { destruct (boundary_cut (w1 ++ w2) (fst m) Hw ltac:(lia) B1) as (x & y & E1 & E2).
    assert (K : exists z, w1 = x ++ z).
    { assert (Hl : length x <= length w1).
      { destruct (Nat.le_gt_cases (length x) (length w1)) as [Hle|Hgt]; [exact Hle|]. exfalso.
        assert (Hx : x = w1 ++ firstn (length x - length w1) w2).
        { apply (f_equal (firstn (length x))) in E1. rewrite firstn_app, firstn_all2 in E1 by lia. rewrite firstn_app, firstn_all, Nat.sub_diag in E1. cbn [firstn] in E1. rewrite app_nil_r in E1. symmetry. exact E1. }
        set (d := firstn (length x - length w1) w2) in *. assert (d <> []) by (intros Ed; rewrite Ed, app_nil_r in Hx; rewrite Hx in Hgt; lia).
        rewrite Hx, units_app in E2. pose proof (proj1 (units_0 d)). destruct (units d) eqn:Ud; [auto|]. lia. }
      exists (skipn (length x) w1). apply (f_equal (firstn (length x))) in E1. rewrite firstn_app, firstn_app in E1. replace (length x - length w1) with 0 in E1 by lia. rewrite firstn_all, Nat.sub_diag in E1. cbn [firstn] in E1. rewrite !app_nil_r in E1.
      rewrite <- E1 at 1. symmetry. apply firstn_skipn. }
    destruct K as (z & ->). exists x, z. auto. }
  destruct B1' as (x & y & -> & Em1). exists (pre ++ x), y. split; [|split].
  - exists (w2 ++ post). rewrite <- !app_assoc. reflexivity.
  - unfold cut_out. cbn [sp_text]. rewrite Ht, from_utf8_encs by exact Hw. unfold slice. rewrite Em1, Em2. rewrite <- app_assoc in Hw |- *.
    pose proof (piece_slice x y w2 Hw) as HP. unfold usub_between, usub in HP. rewrite units_app. exact HP.
  - unfold cut_out. cbn [sp_off fst]. rewrite Hf, units_app. lia.
Qed.

Lemma split_placed E pat b text p p' : forallb valid_cp text = true -> (forall cs, forallb valid_cp cs = true -> engine_ok E pat (flat_map utf16_enc cs)) ->
  split_pre_tokenize E pat b p = Ok p' -> Forall (placed text) (pt_splits p) -> Forall (placed text) (pt_splits p') /\ pt_norm p' = pt_norm p.
Proof.
  intros Hv HE H Hp. unfold split_pre_tokenize, pt_split in H. apply bind_ok in H as (l & H & E1). injection E1 as <-. cbn [pt_splits pt_norm]. split; [|reflexivity].
  revert l H. induction Hp as [|sp splits Hsp Hp IH]; intros l H; cbn [split_all] in H; [injection H as <-; apply Forall_nil|].
  apply bind_ok in H as (here & H1 & H). apply bind_ok in H as (rest & H2 & H). injection H as <-. apply Forall_app. split; [|exact (IH _ H2)].
  destruct (is_nil (sp_tokens sp)); [|injection H1 as <-; apply Forall_cons; [exact Hsp | apply Forall_nil]].
  destruct Hsp as (pre & word & Hpl). pose proof Hpl as ((post & Et) & Ht & Hf). assert (Hw : forallb valid_cp word = true) by (rewrite Et in Hv; apply (valid_parts _ _ _ Hv)).
  assert (Eu : from_utf8 (sp_text sp) = flat_map utf16_enc word) by (rewrite Ht; apply from_utf8_encs; exact Hw).
  destruct (HE word Hw) as (ms & Hm & Ho & Hbd). rewrite <- Eu in Hm. rewrite (split_normalized_spec E pat b sp ms Hm) in H1. rewrite Eu in H1. injection H1 as <-.
  set (u := flat_map utf16_enc word) in *. pose proof (with_gaps_chained ms 0 (length u) Ho) as Hc. apply chained_bounds in Hc. rewrite Forall_map in Hc.
  assert (Hb0 : char_boundary u 0) by (intros q h t Eq; discriminate Eq).
  pose proof (gaps_starts u ms 0 Hb0 Hbd) as Hs. pose proof (gaps_boundary u ms Hbd 0) as He.
  assert (K : Forall (fun m => placed text (cut_out sp (fst m))) (with_gaps 0 (length u) ms)).
  { apply Forall_forall. intros m Hin. apply (cut_out_placed text sp pre word (fst m) Hv Hpl).
    - apply (proj1 (Forall_forall _ _) Hc m Hin).
    - apply (proj1 (Forall_forall _ _) Hc m Hin).
    - apply (proj1 (Forall_forall _ _) Hs m Hin).
    - apply (proj1 (Forall_forall _ _) He m Hin). }
  rewrite !Forall_map. destruct b; [|exact K]. apply Forall_forall. intros m Hin. apply filter_In in Hin as [Hin _]. apply (proj1 (Forall_forall _ _) K m Hin).
Qed.

Lemma pre_placed E text : forallb valid_cp text = true -> forall t, cuts_only E t -> forall p p', pre_tokenize E t p = Ok p' -> Forall (placed text) (pt_splits p) ->
  Forall (placed text) (pt_splits p') /\ pt_norm p' = pt_norm p.
Proof.
  intros Hv. fix IH 1. intros [|pat b inv|aps rx|l] Ht p p' H Hp.
  - apply (bert_placed E text p p' Hv H Hp).
  - apply (split_placed E pat b text p p' Hv Ht H Hp).
  - destruct Ht.
  - cbn [pre_tokenize] in H. cbn [cuts_only] in Ht. revert p H Hp. induction l as [|q r IHr]; intros p H Hp; [injection H as <-; auto|].
    destruct Ht as [Hq Hr]. apply bind_ok in H as (p1 & H1 & H). destruct (IH q Hq p p1 H1 Hp) as [A1 A2]. destruct (IHr Hr p1 H A1) as [B1 B2]. split; [exact B1 | congruence].
Qed.

(** ** Rows *)
Lemma into_rows_in ns ty l : forall idx e, into_rows ns ty idx l = Ok e -> forall r, In r (rows e) ->
  exists i sp tk base, nth_error l i = Some sp /\ In tk (sp_tokens sp) /\ split_base ns sp = Ok base /\
  r = mkRow (tk_id tk) ty (tk_value tk) (Some (idx + i)) (base + fst (tk_off tk), base + snd (tk_off tk)) 0 1.
Proof.
  induction l as [|s l IH]; intros idx e H r Hr; cbn [into_rows] in H; [injection H as <-; destruct Hr|].
  apply bind_ok in H as (base & Hb & H). apply bind_ok in H as (rest & Hrest & H). injection H as <-. rewrite rows_append in Hr by apply split_rows_flat. apply in_app_iff in Hr as [Hr|Hr].
  - exists 0, s. assert (K : exists tk, In tk (sp_tokens s) /\ r = mkRow (tk_id tk) ty (tk_value tk) (Some idx) (base + fst (tk_off tk), base + snd (tk_off tk)) 0 1).
    { clear - Hr. unfold rows, split_rows in Hr. cbn [en_ids en_type_ids en_tokens en_words en_offsets en_smask en_amask] in Hr. induction (sp_tokens s) as [|t ts IHt]; [destruct Hr|].
      destruct Hr as [<-|Hr]; [exists t; split; [left; reflexivity | reflexivity]|]. destruct (IHt Hr) as (tk & K1 & K2). exists tk. split; [right; exact K1 | exact K2]. }
    destruct K as (tk & K1 & K2). exists tk, base. rewrite Nat.add_0_r. auto.
  - destruct (IH _ _ Hrest r Hr) as (i & sp & tk & b & K1 & K2 & K3 & K4). exists (S i), sp, tk, b. split; [exact K1|]. split; [exact K2|]. split; [exact K3|]. rewrite K4. f_equal. f_equal. lia.
Qed.

Lemma tiles_bounds l : forall a b, tiles a b l -> Forall (fun m => a <= fst m /\ fst m < snd m /\ snd m <= b) l.
Proof.
  induction l as [|[x y] l IH]; intros a b H; [apply Forall_nil|]. inversion H; subst. pose proof (tiles_le _ _ _ H6). apply Forall_cons; [cbn; lia|].
  specialize (IH _ _ H6). revert IH. apply Forall_impl. intros m. lia.
Qed.

(** Rows made from placed pieces of a text over a numbered string. *)
Lemma located_rows w text ns splits l e : forallb valid_cp text = true ->
  (forall sp base, split_base ns sp = Ok base -> base = fst (sp_off sp)) ->
  Forall (placed text) splits ->
  Forall2 (fun s s' => sp_text s' = sp_text s /\ sp_off s' = sp_off s /\ wp_word w (sp_text s) = Ok (sp_tokens s')) splits l ->
  into_rows ns 0 0 l = Ok e -> forall r, In r (rows e) -> located w text l r.
Proof.
  intros Hv Hns Hp H2 He r Hr. destruct (into_rows_in ns 0 l 0 e He r Hr) as (i & sp' & tk & base & Hi & Htk & Hb & ->).
  assert (K : exists sp, In sp splits /\ sp_text sp' = sp_text sp /\ sp_off sp' = sp_off sp /\ wp_word w (sp_text sp) = Ok (sp_tokens sp')).
  { clear - H2 Hi. revert i Hi. induction H2 as [|a b la lb Hab _ IH]; intros [|i] Hi; try discriminate Hi.
    - injection Hi as ->. exists a. split; [left; reflexivity | exact Hab].
    - destruct (IH i Hi) as (sp & K1 & K2). exists sp. split; [right; exact K1 | exact K2]. }
  destruct K as (sp & Hin & Et & Eo & Hw). pose proof (proj1 (Forall_forall _ _) Hp sp Hin) as (pre & word & (post & Etx) & Htw & Hf).
  assert (Hvw : forallb valid_cp word = true) by (rewrite Etx in Hv; apply (valid_parts _ _ _ Hv)).
  assert (Eu : from_utf8 (sp_text sp) = flat_map utf16_enc word) by (rewrite Htw; apply from_utf8_encs; exact Hvw).
  assert (Ebase : base = units pre) by (rewrite (Hns _ _ Hb), Eo; exact Hf). subst base.
  exists i, sp', pre, word. split; [reflexivity|]. split; [exact Hi|]. split; [split; [exists post; exact Etx | rewrite Et, Eo; auto]|].
  unfold piece_span. cbn [fst snd r_off r_token r_id].
  destruct (wp_word_spec w (sp_text sp)) as (ts & Hts & Hcase). rewrite Hw in Hts. injection Hts as <-. rewrite Eu in Hcase.
  assert (Hunk : sp_tokens sp' = [wp_unk_token w (length (flat_map utf16_enc word))] -> tk = wp_unk_token w (units word)) by (intros Ek; rewrite Ek in Htk; destruct Htk as [<-|[]]; reflexivity).
  assert (Hright : tk = wp_unk_token w (units word) -> tk_value tk = wp_unk w /\ (units pre + fst (tk_off tk), units pre + snd (tk_off tk)) = (units pre, units pre + units word) /\
            tk_id tk = match sfind (wp_unk w) (wp_vocab w) with Some i => i | None => 0%Z end).
  { intros ->. unfold wp_unk_token. cbn [tk_value tk_off tk_id fst snd]. rewrite Nat.add_0_r. auto. }
  destruct Hcase as [[_ Hc]|[[_ Hg]|[_ [_ Hc]]]]; [right; auto | left | right; auto].
  destruct (greedy_tiles _ _ _ _ _ Hg) as [Ht Hall]. apply tiles_bounds in Ht. rewrite Forall_map in Ht. pose proof (proj1 (Forall_forall _ _) Ht tk Htk) as (B1 & B2 & B3). pose proof (proj1 (Forall_forall _ _) Hall tk Htk) as (V1 & V2). fold (units word) in B3. rewrite V1 in V2 |- *.
  split; [lia|]. split; [lia|]. split; [lia|]. split; [|exact V2]. unfold piece_text.
  replace (units pre + fst (tk_off tk) =? units pre) with (fst (tk_off tk) =? 0) by (destruct (Nat.eqb_spec (fst (tk_off tk)) 0); lia). f_equal. f_equal. unfold slice.
  replace (units pre + snd (tk_off tk) - (units pre + fst (tk_off tk))) with (snd (tk_off tk) - fst (tk_off tk)) by lia.
  rewrite Etx, flat_map_app. rewrite skipn_app. unfold units. rewrite (skipn_all2 (flat_map utf16_enc pre)) by lia. cbn [app].
  replace (length (flat_map utf16_enc pre) + fst (tk_off tk) - length (flat_map utf16_enc pre)) with (fst (tk_off tk)) by lia.
  rewrite flat_map_app, skipn_app, firstn_app. fold (units word). rewrite skipn_length. fold (units word).
  replace (snd (tk_off tk) - fst (tk_off tk) - (units word - fst (tk_off tk))) with 0 by lia. cbn [firstn]. rewrite app_nil_r. reflexivity.
Qed.

(** Bases of splits over a numbered string, when defined *)
Lemma base_defined z junk text sp base : Forall (fun n => 0 < n) z -> split_base (numbered_ns z junk text) sp = Ok base -> base = fst (sp_off sp).
Proof.
  intros Hz H. destruct (Nat.lt_ge_cases (fst (sp_off sp)) (length z)) as [Hl|Hl]; [rewrite base_numbered in H by assumption; congruence|]. rewrite base_past in H by exact Hl. discriminate.
Qed.

(** ** From the text to located rows *)
Lemma text_located E t w s text p1 av : tz_model t = Some (MWordPiece w) -> forallb valid_cp text = true -> tz_cuts_only E t ->
  prepare E t s = (p2 <- match tz_pre t with Some pt => pre_tokenize E pt p1 | None => Ok p1 end ;; Ok (av, p2)) ->
  (forall sp base, split_base (pt_norm p1) sp = Ok base -> base = fst (sp_off sp)) -> Forall (placed text) (pt_splits p1) ->
  forall core, text_encoding E t s = Ok core -> exists pieces, text_pieces E t s = Ok pieces /\ forall r, In r (rows core) -> located w text pieces r.
Proof.
  intros Hm Hv Hc Hprep Hns Hp core H. unfold text_encoding in H. apply bind_ok in H as ([av' p2] & H1 & H). unfold text_pieces. rewrite H1. cbn [bind]. rewrite Hm in *. cbn [model_tokenize snd] in *.
  rewrite Hprep in H1. apply bind_ok in H1 as (p2' & H1 & E1). injection E1 as <- <-.
  assert (K : Forall (placed text) (pt_splits p2') /\ pt_norm p2' = pt_norm p1).
  { unfold tz_cuts_only in Hc. destruct (tz_pre t) as [pt|]; [exact (pre_placed E text Hv pt Hc p1 p2' H1 Hp) | injection H1 as <-; auto]. }
  destruct K as [K1 K2]. destruct (wp_tokenize_ok w p2') as (l & Hl & HF). rewrite Hl in *. cbn [bind pt_splits] in *. exists l. split; [reflexivity|].
  unfold into_encoding in H. cbn [pt_norm pt_splits] in H. rewrite K2 in H. exact (located_rows w text (pt_norm p1) (pt_splits p2') l core Hv Hns K1 HF H).
Qed.

Lemma located_type w text pieces r ty : located w text pieces r -> located w text pieces (set_type r ty).
Proof. intros H. exact H. Qed.

Lemma encode_located E fuel t w s text add r : tz_model t = Some (MWordPiece w) -> (forall p, tz_post t = Some p -> specials_ok p /\ no_trim p) ->
  (forall core, text_encoding E t s = Ok core -> exists pieces, text_pieces E t s = Ok pieces /\ forall r, In r (rows core) -> located w text pieces r) ->
  snd (encode E fuel t s add) = Ok r ->
  exists pieces, text_pieces E t s = Ok pieces /\ forall x y, part r x -> In y (rows x) -> r_smask y = 0%Z -> located w text pieces y.
Proof.
  intros Hm Hpp HL H. rewrite encode_text in H. apply bind_ok in H as (core & H1 & H2). destruct (HL core H1) as (pieces & Hpc & Hrows). exists pieces. split; [exact Hpc|].
  destruct (text_encoding_parallel _ _ _ _ H1) as [Hf Ho]. intros x y Hx Hy Hy0.
  destruct (post_rows fuel t core add r (located w text pieces) Hf Ho (fun p Hp => proj1 (Hpp p Hp)) Hrows (fun r0 ty => located_type w text pieces r0 ty) (or_introl (fun p Hp => proj2 (Hpp p Hp))) H2 x y Hx Hy) as [K|[[_ (K & _)]|(p & _ & K)]].
  - exact K.
  - rewrite Hy0 in K. discriminate.
  - rewrite K in Hy0. discriminate.
Qed.

(** the whole text is a piece of itself *)
Lemma whole_placed text off : placed text (mkSplit (utf8_encs text) (0, off) []).
Proof. exists [], text. split; [exists []; rewrite app_nil_r; reflexivity | split; reflexivity]. Qed.

Lemma placed_split text a b ts : bmp text -> a <= b -> b <= length text -> placed text (mkSplit (utf8_encs (slice text a b)) (a, b) ts).
Proof.
  intros Hb H1 H2. exists (firstn a text), (slice text a b). split; [|split].
  - exists (skipn b text). unfold slice. rewrite <- (firstn_skipn a text) at 1. f_equal. rewrite <- (firstn_skipn (b - a) (skipn a text)) at 1. f_equal. rewrite skipn_skipn'. f_equal. lia.
  - reflexivity.
  - cbn [sp_off fst]. unfold units. rewrite bmp_utf16 by (rewrite <- (firstn_skipn a text) in Hb; apply Forall_app in Hb; apply Hb). rewrite firstn_length. lia.
Qed.

(** ** Texts cut by added tokens *)
(** the text as the pre-tokenizer sees it: recognised tokens as written, everything else normalized *)
Definition seen (g : N -> N) (s : wstr) (segs : list (option Z * (nat * nat))) : wstr :=
  flat_map (fun p => match fst p with Some _ => slice s (fst (snd p)) (snd (snd p)) | None => map g (slice s (fst (snd p)) (snd (snd p))) end) segs.

Lemma seen_related g s (R : N -> N -> Prop) : (forall c, R c c) -> (forall c, In c s -> R c (g c)) -> forall segs a, chained a (length s) (map snd segs) -> Forall2 R (skipn a s) (seen g s segs).
Proof.
  intros H1 H2. assert (F1 : forall l : wstr, Forall2 R l l) by (induction l; constructor; auto).
  assert (F2 : forall l : wstr, (forall c, In c l -> In c s) -> Forall2 R l (map g l)) by (induction l as [|c l IHl]; intros Hl; cbn; constructor; [apply H2, Hl; left; reflexivity | apply IHl; intros; apply Hl; right; assumption]).
  induction segs as [|[o [x y]] segs IH]; intros a Hc; cbn [map snd chained] in Hc.
  - subst a. rewrite skipn_all. constructor.
  - destruct Hc as (-> & Hxy & Hc). unfold seen. cbn [flat_map fst snd]. fold (seen g s segs). replace (skipn a s) with (slice s a y ++ skipn y s).
    2:{ unfold slice. rewrite <- (firstn_skipn (y - a) (skipn a s)) at 1. rewrite firstn_skipn. rewrite <- (firstn_skipn (y - a) (skipn a s)) at 2. f_equal. rewrite skipn_skipn'. f_equal. lia. }
    apply Forall2_app; [|exact (IH y Hc)]. destruct o; [apply F1|]. apply F2. intros c Hin. unfold slice in Hin.
    rewrite <- (firstn_skipn a s). apply in_or_app. right. rewrite <- (firstn_skipn (y - a) (skipn a s)). apply in_or_app. left. exact Hin.
Qed.

Lemma seen_placed g s trie : bmp s -> forallb valid_cp s = true -> (forall a b, bmp (map g (slice s a b))) -> forall segs a h, chained a (length s) (map snd segs) -> length h = a -> bmp h ->
  Forall (placed (h ++ seen g s segs)) (flat_map (extracted_seg g trie s) segs).
Proof.
  intros Hb Hv Hg. induction segs as [|[o [x y]] segs IH]; intros a h Hc Hh Hbh; [apply Forall_nil|]. cbn [map snd chained] in Hc. destruct Hc as (-> & Hxy & Hc). pose proof (chained_le _ _ _ Hc) as Hy.
  unfold seen. cbn [flat_map fst snd]. fold (seen g s segs). rewrite app_assoc. apply Forall_app. split.
  - unfold extracted_seg. cbn [fst snd]. destruct o as [i|].
    + apply Forall_cons; [|apply Forall_nil]. unfold seg_split. cbn [fst snd]. exists h, (slice s a y). split; [|split].
      * exists (seen g s segs). apply app_assoc_reverse.
      * reflexivity.
      * cbn [sp_off fst]. unfold units. rewrite bmp_utf16 by exact Hbh. lia.
    + rewrite Forall_map. set (piece := map g (slice s a y)). pose proof (chained_bounds _ _ _ (segs_chained trie piece)) as HB. rewrite Forall_map in HB. revert HB. apply Forall_impl. intros q (Q1 & Q2 & Q3).
      unfold seg_split. exists (h ++ firstn (fst (snd q)) piece), (slice piece (fst (snd q)) (snd (snd q))). split; [|split].
      * exists (skipn (snd (snd q)) piece ++ seen g s segs). rewrite <- !app_assoc. f_equal. rewrite !app_assoc. f_equal.
        unfold slice. rewrite <- (firstn_skipn (fst (snd q)) piece) at 1. rewrite <- app_assoc. f_equal. rewrite <- (firstn_skipn (snd (snd q) - fst (snd q)) (skipn (fst (snd q)) piece)) at 1. f_equal. rewrite skipn_skipn'. f_equal. lia.
      * reflexivity.
      * cbn [sp_off fst]. rewrite units_app. unfold units. rewrite !bmp_utf16; [rewrite firstn_length; lia| |exact Hbh].
        specialize (Hg a y). fold piece in Hg. rewrite <- (firstn_skipn (fst (snd q)) piece) in Hg. apply Forall_app in Hg. apply Hg.
  - apply (IH y); [exact Hc | |].
    + rewrite app_length. destruct o; rewrite ?map_length, slice_length by lia; lia.
    + apply Forall_app. split; [exact Hbh|]. destruct o; [apply bmp_slice; exact Hb | apply Hg].
Qed.

(** ** Everything is defined *)
Lemma nonempty_cuts E : forall t, cuts_nonempty E t -> cuts_only E t.
Proof.
  fix IH 1. intros [|pat b inv|aps rx|l] H; [exact I | intros cs Hcs; apply (H cs Hcs) | exact H|]. cbn [cuts_nonempty cuts_only] in *. induction l as [|q r IHr]; [exact I|]. destruct H as [Hq Hr]. split; [exact (IH q Hq) | exact (IHr Hr)].
Qed.

Definition placed_ne (text : wstr) (sp : split) : Prop := exists pre word, piece_of text sp pre word /\ word <> [].
Lemma ne_placed text sp : placed_ne text sp -> placed text sp.
Proof. intros (pre & word & H & _). exists pre, word. exact H. Qed.

Lemma bert_placed_ne E text p : forallb valid_cp text = true -> Forall (placed_ne text) (pt_splits p) ->
  exists p', bert_pre_tokenize E p = Ok p' /\ Forall (placed_ne text) (pt_splits p') /\ pt_norm p' = pt_norm p.
Proof.
  intros Hv Hp. rewrite bert_pre_spec. eexists. split; [reflexivity|]. cbn [pt_splits pt_norm]. split; [|reflexivity]. apply Forall_flat_map. revert Hp. apply Forall_impl. intros sp (pre & word & Hpl & Hne). unfold bert_out.
  destruct (is_nil (sp_tokens sp)); [|apply Forall_cons; [exists pre, word; auto | apply Forall_nil]]. pose proof Hpl as ((post & Et) & Ht & Hf). rewrite Ht. rewrite Et in Hv. destruct (valid_parts _ _ _ Hv) as (_ & Hw & _). rewrite decoded_encs by exact Hw.
  destruct (bert_pieces_words (e_u_space E) (e_u_punct E) word) as [HI _]. apply Forall_map. revert HI. apply Forall_impl. intros q (Q1 & (post' & Q2) & _).
  exists (pre ++ fst q), (snd q). split; [|exact Q1]. split; [|split].
  - exists (post' ++ post). rewrite Et, Q2 at 1. rewrite <- !app_assoc. reflexivity.
  - reflexivity.
  - cbn [piece_split sp_off piece_span fst]. rewrite Hf, units_app. lia.
Qed.

Lemma slice_nonempty (u : ustr) a b : a < b -> b <= length u -> to_utf8 (slice u a b) <> [].
Proof.
  intros H1 H2. assert (Hs : slice u a b <> []). { intros E. apply (f_equal (@length N)) in E. unfold slice in E. rewrite firstn_length, skipn_length in E. cbn in E. lia. }
  destruct (slice u a b) as [|x r]; [congruence|]. unfold to_utf8. cbn [utf16_cps].
  assert (G : forall c, utf8_of_cp c <> []) by (intros c; unfold utf8_of_cp; destruct (is_surrogate c); apply utf8_enc_nonempty).
  destruct (is_lead x); [destruct r as [|y r']; [|destruct (is_trail y)]|]; cbn [flat_map fst]; intros E; apply app_eq_nil in E as [E _]; exact (G _ E).
Qed.

Lemma split_placed_ne E pat b text p : forallb valid_cp text = true ->
  (forall cs, forallb valid_cp cs = true -> engine_ok E pat (flat_map utf16_enc cs) /\ (forall l, regex_matches E pat (flat_map utf16_enc cs) = Ok l -> Forall (fun m => fst m < snd m) l)) ->
  Forall (placed_ne text) (pt_splits p) -> exists p', split_pre_tokenize E pat b p = Ok p' /\ Forall (placed_ne text) (pt_splits p') /\ pt_norm p' = pt_norm p.
Proof.
  intros Hv HE Hp. unfold split_pre_tokenize, pt_split.
  assert (K : exists l, split_all (find_matches E pat) b (pt_splits p) = Ok l /\ Forall (placed_ne text) l).
  { induction Hp as [|sp splits Hsp Hp (l & IH1 & IH2)]; [exists []; split; [reflexivity | apply Forall_nil]|]. cbn [split_all].
    destruct (is_nil (sp_tokens sp)).
    2:{ cbn [bind]. rewrite IH1. cbn [bind]. eexists. split; [reflexivity|]. apply Forall_app. split; [apply Forall_cons; [exact Hsp | apply Forall_nil] | exact IH2]. }
    destruct Hsp as (pre & word & Hpl & Hne). pose proof Hpl as ((post & Et) & Ht & Hf). assert (Hw : forallb valid_cp word = true) by (rewrite Et in Hv; apply (valid_parts _ _ _ Hv)).
    assert (Eu : from_utf8 (sp_text sp) = flat_map utf16_enc word) by (rewrite Ht; apply from_utf8_encs; exact Hw).
    destruct (HE word Hw) as [(ms & Hm & Ho & Hbd) Hnem]. specialize (Hnem ms Hm). rewrite <- Eu in Hm. rewrite (split_normalized_spec E pat b sp ms Hm). cbn [bind]. rewrite IH1. cbn [bind]. rewrite Eu. eexists. split; [reflexivity|]. apply Forall_app. split; [|exact IH2].
    set (u := flat_map utf16_enc word) in *. pose proof (with_gaps_chained ms 0 (length u) Ho) as Hc. apply chained_bounds in Hc. rewrite Forall_map in Hc.
    assert (Hb0 : char_boundary u 0) by (intros q h t Eq; discriminate Eq).
    pose proof (gaps_starts u ms 0 Hb0 Hbd) as Hs. pose proof (gaps_boundary u ms Hbd 0) as He. pose proof (with_gaps_nonempty ms 0 (length u) Ho) as Hn.
    assert (K : Forall (fun m => placed_ne text (cut_out sp (fst m))) (with_gaps 0 (length u) ms)).
    { apply Forall_forall. intros m Hin. pose proof (proj1 (Forall_forall _ _) Hc m Hin) as (C1 & C2 & C3).
      destruct (cut_out_placed text sp pre word (fst m) Hv Hpl C2 C3 (proj1 (Forall_forall _ _) Hs m Hin) (proj1 (Forall_forall _ _) He m Hin)) as (pre' & word' & Hpl').
      exists pre', word'. split; [exact Hpl'|]. assert (Hlt : fst (fst m) < snd (fst m)).
      { destruct (snd m) eqn:Em; [|exact (proj1 (Forall_forall _ _) Hn m Hin Em)]. apply (proj1 (Forall_forall _ _) Hnem). rewrite <- (with_gaps_matches ms 0 (length u)). apply in_map. apply filter_In. auto. }
      destruct Hpl' as (_ & Ht' & _). intros ->. cbn [utf8_encs flat_map] in Ht'. unfold cut_out in Ht'. cbn [sp_text] in Ht'. rewrite Eu in Ht'. exact (slice_nonempty u _ _ Hlt C3 Ht'). }
    rewrite !Forall_map. destruct b; [|exact K]. apply Forall_forall. intros m Hin. apply filter_In in Hin as [Hin _]. apply (proj1 (Forall_forall _ _) K m Hin). }
  destruct K as (l & K1 & K2). rewrite K1. cbn [bind]. eexists. split; [reflexivity|]. auto.
Qed.

Lemma pre_placed_ne E text : forallb valid_cp text = true -> forall t, cuts_nonempty E t -> forall p, Forall (placed_ne text) (pt_splits p) ->
  exists p', pre_tokenize E t p = Ok p' /\ Forall (placed_ne text) (pt_splits p') /\ pt_norm p' = pt_norm p.
Proof.
  intros Hv. fix IH 1. intros [|pat b inv|aps rx|l] Ht p Hp.
  - apply (bert_placed_ne E text p Hv Hp).
  - apply (split_placed_ne E pat b text p Hv Ht Hp).
  - destruct Ht.
  - cbn [pre_tokenize]. cbn [cuts_nonempty] in Ht. revert p Hp. induction l as [|q r IHr]; intros p Hp; [exists p; auto|].
    destruct Ht as [Hq Hr]. destruct (IH q Hq p Hp) as (p1 & A1 & A2 & A3). rewrite A1. cbn [bind]. destruct (IHr Hr p1 A2) as (p2 & B1 & B2 & B3). exists p2. split; [exact B1|]. split; [exact B2 | congruence].
Qed.

Lemma into_rows_defined ns ty l : Forall (fun sp => exists base, split_base ns sp = Ok base) l -> forall idx, exists e, into_rows ns ty idx l = Ok e.
Proof.
  induction 1 as [|sp l (base & Hb) _ IH]; intros idx; [eexists; reflexivity|]. cbn [into_rows]. rewrite Hb. cbn [bind]. destruct (IH (S idx)) as (e & ->). eexists. reflexivity.
Qed.

Lemma text_defined E t w s text p1 av : tz_model t = Some (MWordPiece w) -> forallb valid_cp text = true -> tz_cuts_nonempty E t ->
  prepare E t s = (p2 <- match tz_pre t with Some pt => pre_tokenize E pt p1 | None => Ok p1 end ;; Ok (av, p2)) ->
  (forall sp, fst (sp_off sp) < units text -> exists base, split_base (pt_norm p1) sp = Ok base) -> Forall (placed_ne text) (pt_splits p1) ->
  exists core, text_encoding E t s = Ok core.
Proof.
  intros Hm Hv Hc Hprep Hns Hp.
  assert (K : exists p2, match tz_pre t with Some pt => pre_tokenize E pt p1 | None => Ok p1 end = Ok p2 /\ Forall (placed_ne text) (pt_splits p2) /\ pt_norm p2 = pt_norm p1).
  { unfold tz_cuts_nonempty in Hc. destruct (tz_pre t) as [pt|]; [exact (pre_placed_ne E text Hv pt Hc p1 Hp) | exists p1; auto]. }
  destruct K as (p2 & K1 & K2 & K3). rewrite K1 in Hprep. cbn [bind] in Hprep. unfold text_encoding. rewrite Hprep. cbn [bind]. rewrite Hm. cbn [model_tokenize snd].
  destruct (wp_tokenize_ok w p2) as (l & Hl & HF). rewrite Hl. cbn [bind]. unfold into_encoding. cbn [pt_norm pt_splits]. rewrite K3. apply into_rows_defined.
  clear - HF K2 Hns. induction HF as [|a b la lb (_ & Hab & _) _ IH]; [apply Forall_nil|]. inversion K2 as [|? ? (pre & word & ((post & ->) & _ & Hf) & Hne) K2']; subst. apply Forall_cons; [|exact (IH K2')].
  apply Hns. rewrite Hab, Hf, !units_app. pose proof (proj1 (units_0 word)). destruct (units word); [exfalso; auto | lia].
Qed.

(** a check for examples *)
Definition no_added_check (known : list (bytes * Z)) (u : ustr) : bool :=
  forallb (fun a => forallb (fun b => negb (existsb (fun p => leqb (fst p) (to_utf8 (slice u a b))) known)) (seq 0 (S (length u)))) (seq 0 (S (length u))).
Lemma no_added_check_ok known u : no_added_check known u = true -> no_added_token known u.
Proof.
  unfold no_added_check. rewrite forallb_forall. intros H a b i Hab Hb Hin. specialize (H a ltac:(apply in_seq; lia)). rewrite forallb_forall in H. specialize (H b ltac:(apply in_seq; lia)).
  apply negb_true_iff in H. assert (K : existsb (fun p => leqb (fst p) (to_utf8 (slice u a b))) known = true) by (apply existsb_exists; eexists; split; [exact Hin | cbn [fst]; destruct (leqb_spec (to_utf8 (slice u a b)) (to_utf8 (slice u a b))); congruence]). congruence.
Qed.

(** non-empty pieces, when no added token is empty *)
Lemma seg_nonempty trie u : Forall (fun p => fst p <> []) trie -> Forall (fun p => fst (snd p) < snd (snd p)) (segs_of trie u).
Proof.
  intros Hn. destruct (raw_matches_ok (word_ids trie) u (length u) 0 0 eq_refl (le_n _)) as [Ho Hh]. pose proof (plain_segs_ok (word_ids trie) u _ 0 Ho Hh) as [Hc Hs]. fold (segs_of trie u) in Hc, Hs.
  apply chained_bounds in Hc. rewrite Forall_map in Hc. apply Forall_forall. intros p Hp. pose proof (proj1 (Forall_forall _ _) Hc p Hp) as (_ & C2 & C3). pose proof (proj1 (Forall_forall _ _) Hs p Hp) as S1. cbn beta in S1.
  destruct (fst p) as [i|]; [|exact S1]. apply word_ids_in in S1. destruct (Nat.eq_dec (fst (snd p)) (snd (snd p))) as [Eq|]; [|lia]. exfalso. apply (proj1 (Forall_forall _ _) Hn _ S1). cbn [fst]. unfold slice. rewrite Eq, Nat.sub_diag. reflexivity.
Qed.
Lemma encs_nonempty (s : wstr) : s <> [] -> utf8_encs s <> [].
Proof. destruct s as [|c s]; [congruence|]. intros _ E. cbn [utf8_encs flat_map] in E. apply app_eq_nil in E as [E _]. exact (utf8_enc_nonempty c E). Qed.
Lemma seen_placed_ne g s trie : bmp s -> forallb valid_cp s = true -> (forall a b, bmp (map g (slice s a b))) -> Forall (fun p => fst p <> []) trie ->
  forall segs, chained 0 (length s) (map snd segs) -> Forall (fun p => fst (snd p) < snd (snd p)) segs ->
  Forall (placed_ne (seen g s segs)) (flat_map (extracted_seg g trie s) segs).
Proof.
  intros Hb Hv Hg Ht segs Hc Hn. pose proof (seen_placed g s trie Hb Hv Hg segs 0 [] Hc eq_refl (Forall_nil _)) as HP. cbn [app] in HP.
  assert (Hne : Forall (fun sp => sp_text sp <> []) (flat_map (extracted_seg g trie s) segs)).
  { apply Forall_flat_map. apply chained_bounds in Hc. rewrite Forall_map in Hc. apply Forall_forall. intros [o [x y]] Hp. pose proof (proj1 (Forall_forall _ _) Hc _ Hp) as (_ & _ & C3). pose proof (proj1 (Forall_forall _ _) Hn _ Hp) as C1. cbn [fst snd] in C1, C3.
    assert (K : forall (l : wstr) a b, a < b -> b <= length l -> slice l a b <> []) by (intros l a b H1 H2 E0; apply (f_equal (@length N)) in E0; rewrite slice_length in E0 by lia; cbn in E0; lia).
    unfold extracted_seg. cbn [fst snd]. destruct o as [i|].
    - apply Forall_cons; [|apply Forall_nil]. cbn [seg_split sp_text fst snd]. apply encs_nonempty, K; assumption.
    - rewrite Forall_map. set (piece := map g (slice s x y)). pose proof (seg_nonempty trie piece Ht) as S1. pose proof (chained_bounds _ _ _ (segs_chained trie piece)) as S2. rewrite Forall_map in S2.
      apply Forall_forall. intros q Hq. pose proof (proj1 (Forall_forall _ _) S1 q Hq) as Q1. pose proof (proj1 (Forall_forall _ _) S2 q Hq) as (_ & _ & Q2). cbn beta in Q1, Q2. cbn [seg_split sp_text]. apply encs_nonempty, K; assumption. }
  apply Forall_forall. intros sp Hsp. pose proof (proj1 (Forall_forall _ _) HP sp Hsp) as (pre & word & Hpl). exists pre, word. split; [exact Hpl|]. intros ->. destruct Hpl as (_ & Et & _). exact (proj1 (Forall_forall _ _) Hne sp Hsp Et).
Qed.
